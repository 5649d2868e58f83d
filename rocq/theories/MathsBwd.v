(** * MathsBwd: maths recognition keeps the text only on tidy lists *)
From Verif Require Import Base Ast1 Parse1 Ast2 Ast3 SpecDoc1 SpecDoc2 SpecDoc3 SpecPar3 SpecMaths3
  Tok Refine1 Ind Lines Facts1 Valid1 Valid2 Valid3 Eqb Conv2 Par3 Maths3 Order MathsFwd.
Open Scope N_scope.

Lemma tidy_app A : tidy A -> forall B, tidy B -> tidy (A ++ B).
Proof.
  induction 1 as [|c A Hc HA IH|a A Ha HA IH|v A Hp Hi _ HA IH|t body A Hn Hb _ HA IH|B pr A HB Hpr Hne Hy _ HA IH|e B pr e' A He HB Hpr He' Hx Hy _ HA IH];
    intros X HX; cbn [app].
  - exact HX.
  - apply td_char; auto.
  - apply td_edge; auto.
  - apply td_other; auto.
  - rewrite <- app_assoc. cbn [app]. apply td_brackets; auto.
  - rewrite <- !app_assoc. cbn [app]. apply td_inline; auto.
  - rewrite <- app_assoc. cbn [app]. rewrite <- !app_assoc. cbn [app]. rewrite <- app_assoc. cbn [app]. apply td_display; auto.
Qed.

(** equal with [P], or strictly smaller *)
Definition eq_or_less (a b : str) (P : Prop) : Prop := (a = b /\ P) \/ strictly_below a b.
Lemma eol_below a b P : eq_or_less a b P -> below a b.
Proof. intros [[-> _]|H]; [apply below_refl|now apply strict_below]. Qed.
Lemma exact_eol a b P : exact_on a b P -> eq_or_less a b P.
Proof. intros [H|[H _]]; [now left|now right]. Qed.
Lemma eol_mono a b (P Q : Prop) : (P -> Q) -> eq_or_less a b P -> eq_or_less a b Q.
Proof. intros H [[-> K]|K]; [left; auto|now right]. Qed.
Lemma eol_pre x a b P : eq_or_less a b P -> eq_or_less (x ++ a) (x ++ b) P.
Proof. intros [[-> H]|H]; [now left|right; apply strict_app_r; [apply below_refl|exact H]]. Qed.
Lemma eol_post x a b P : eq_or_less a b P -> eq_or_less (a ++ x) (b ++ x) P.
Proof. intros [[-> H]|H]; [now left|right; apply strict_app_l; [exact H|apply below_refl]]. Qed.
Lemma eol_refl a (P : Prop) : P -> eq_or_less a a P.
Proof. now left. Qed.
Lemma strict_pre x a b : strictly_below a b -> strictly_below (x ++ a) (x ++ b).
Proof. intros H. apply strict_app_r; [apply below_refl|exact H]. Qed.
Lemma strict_post x a b : strictly_below a b -> strictly_below (a ++ x) (b ++ x).
Proof. intros H. apply strict_app_l; [exact H|apply below_refl]. Qed.

Ltac nrm := repeat (progress (rewrite <- ?app_assoc; cbn [app])).

Section Bwd.
  Context (p : profile) (rec : list chunk2 -> outcome error (list chunk3)) (GR : good_rec rec).

  Definition opening (d : maths_mode) : str :=
    match d with
    | MNone => []
    | SingleDollar Dollars => [c_dollar]
    | DoubleDollar Dollars | DoubleClosing => [c_dollar; c_dollar]
    | SingleDollar Brackets => [c_bslash; c_lround]
    | DoubleDollar Brackets => [c_bslash; c_lsquare]
    end.
  Definition closing (d : maths_mode) : str := match d with DoubleClosing => [c_dollar] | _ => [] end.
  (** the text read so far, as the machine has it *)
  Definition W (m : mtext) : str :=
    show_chunks3 (ms_out (mt_st m)) ++ opening (ms_mode (mt_st m)) ++ show2 (ms_buffer (mt_st m)) ++ mt_text m ++ closing (ms_mode (mt_st m)).

  Definition body_atoms (B : list atom) : Prop := forallb (fun a => is_edge a || is_other a) B = true.
  Definition shape (b : bool) (m : mtext) (A : list atom) : Prop :=
    let st := mt_st m in let T := mt_text m in
    let in_br t := exists A0, tidy A0 /\
      A = A0 ++ Other (Command2 (mkCommand2 [opener t] [])) :: atoms (ms_buffer st) ++ (if b then TextBegin :: map Ch T else []) /\
      forall l v, In (mkChunk2 l v) (ms_buffer st) -> ~ has_label [opener t] v /\ ~ has_label [closer t] v in
    match ms_mode st with
    | MNone => tidy A
    | SingleDollar Brackets => in_br Inline
    | DoubleDollar Brackets => in_br Outline
    | SingleDollar Dollars => exists A0 B, tidy A0 /\ body_atoms B /\ others B = atoms (ms_buffer st) /\ A = A0 ++ Ch c_dollar :: B ++ map Ch T
    | DoubleDollar Dollars => exists A0 e B, tidy A0 /\ forallb is_edge e = true /\ body_atoms B /\ others B = atoms (ms_buffer st) /\
        A = A0 ++ Ch c_dollar :: e ++ Ch c_dollar :: B ++ map Ch T
    | DoubleClosing => exists A0 e B e', tidy A0 /\ forallb is_edge e = true /\ body_atoms B /\ others B = atoms (ms_buffer st) /\ forallb is_edge e' = true /\
        (e' = [] \/ T = []) /\ A = A0 ++ Ch c_dollar :: e ++ Ch c_dollar :: B ++ map Ch T ++ Ch c_dollar :: e'
    end.
  Definition side (b : bool) (m : mtext) : Prop :=
    (b = false -> mt_text m = []) /\ (ms_mode (mt_st m) = MNone -> ms_buffer (mt_st m) = []) /\
    (is_br (ms_mode (mt_st m)) = false -> ~ In c_dollar (mt_text m)).
  (** next in-text flag *)
  Definition nextb (a : matom) : bool := match a with MB _ | MC _ => true | _ => false end.
  Definition okb (b : bool) (a : matom) : Prop :=
    match a with MB _ => b = false | MC _ => b = true | ME _ => b = true | MO _ v => b = false /\ not_text v end.

  Lemma shape_snoc_edge b m A a : ms_mode (mt_st m) = MNone -> is_edge a = true -> shape b m A -> tidy (A ++ [a]).
  Proof.
    intros Hm Ha H. unfold shape in H. rewrite Hm in H. apply tidy_app; [exact H|]. apply td_edge; [exact Ha|constructor].
  Qed.
  Lemma show_variant_pos v : not_text v -> (dols (show_variant2 v) < length (show_variant2 v))%nat.
  Proof.
    assert (G : forall c x, c <> c_dollar -> (dols (c :: x) < length (c :: x))%nat).
    { intros c x H. cbn [dols length]. unfold is_dollar. apply N.eqb_neq in H. rewrite H. pose proof (dols_le x). lia. }
    destruct v as [s|[lab args]|[cs v]|[lab args content pb pe]]; intros H; [destruct H| | |]; apply G; try discriminate. now destruct v.
  Qed.
  Lemma show_variant_ne v : not_text v -> show_variant2 v <> [].
  Proof. intros H E. apply show_variant_pos in H. rewrite E in H. cbn in H. lia. Qed.
  Lemma show_args_ne args : args <> [] -> show_args2 args <> [].
  Proof. destruct args as [|[pre [cs v]] args]; [contradiction|]. intros _. unfold show_args2. cbn [map concat show_scope2]. destruct pre; discriminate. Qed.
  Lemma in_dollar_snoc c t : ~ In c_dollar t -> c <> c_dollar -> ~ In c_dollar (t ++ [c]).
  Proof. intros H1 H2 H. apply in_app_or in H as [H|[H|[]]]; auto. Qed.
  Lemma body_snoc B a : body_atoms B -> is_edge a || is_other a = true -> body_atoms (B ++ [a]).
  Proof. unfold body_atoms. intros H K. rewrite forallb_app. cbn [forallb]. now rewrite H, K. Qed.
  Lemma others_snoc B a : others (B ++ [a]) = others B ++ others [a].
  Proof. unfold others. apply filter_app. Qed.
  Lemma edges_snoc e a : forallb is_edge e = true -> is_edge a = true -> forallb is_edge (e ++ [a]) = true.
  Proof. intros H K. rewrite forallb_app. cbn [forallb]. now rewrite H, K. Qed.
  Lemma map_nil_eq {X Y} (f : X -> Y) l : l = [] -> map f l = []. Proof. now intros ->. Qed.
  Lemma edges_of_others B : body_atoms B -> others B = [] -> forallb is_edge B = true.
  Proof.
    unfold body_atoms. induction B as [|a B IH]; intros H K; [reflexivity|]. cbn [forallb] in *. apply andb_true_iff in H as [Ha H].
    unfold others in K. cbn [filter] in K. destruct a; try discriminate Ha; try discriminate K; cbn [is_edge is_other] in *; apply IH; assumption.
  Qed.
  Lemma atoms_nil cs : atoms cs = [] -> cs = [].
  Proof. destruct cs as [|[l []] cs]; [reflexivity|discriminate..]. Qed.

  (** push_str in a dollar mode or outside *)
  Lemma bwd_edge m a b A m' : (a = MB (match a with MB l => l | _ => 0 end) \/ a = ME (match a with ME l => l | _ => 0 end)) ->
    okb b a -> side b m -> is_br (ms_mode (mt_st m)) = false -> astep p rec m a = Ok m' ->
    side (nextb a) m' /\ eq_or_less (W m') (W m) (shape b m A -> shape (nextb a) m' (A ++ [erase a])).
  Proof.
    intros Ha Hb (S1 & S2 & S3) Hbr H.
    assert (He : is_edge (erase a) = true) by (destruct Ha as [-> | ->]; reflexivity).
    (* the new state *)
    assert (Hst : mt_st m' = mt_st (mt_push_str m) /\ mt_text m' = []).
    { destruct a; try (destruct Ha as [Ha|Ha]; discriminate Ha); unfold astep in H; rewrite Hbr in H; injection H as <-; cbn [mt_st mt_text]; rewrite ?push_str_text; auto. }
    clear H. destruct Hst as [Hst Ht].
    assert (Hsb : side (nextb a) m').
    { unfold side. rewrite Hst, Ht, push_str_mode, push_str_buffer. repeat split; auto. }
    split; [exact Hsb|]. destruct (mt_text m) as [|c T] eqn:Et.
    - assert (Hst' : mt_st m' = mt_st m) by (rewrite Hst, push_str_empty by exact Et; reflexivity). clear Hst.
      left. split; [unfold W; rewrite Hst', Ht, Et; reflexivity|].
      unfold shape. rewrite Hst', Ht, Et. cbn [map]. destruct (ms_mode (mt_st m)) as [[|]|[|]| |]; try discriminate Hbr.
      + intros (A0 & B & T0 & HB & HO & ->). exists A0, (B ++ [erase a]). rewrite others_snoc. split; [exact T0|]. split; [apply body_snoc; [exact HB|now rewrite He]|].
        split; [rewrite HO; destruct a; try discriminate He; apply app_nil_r|]. rewrite !app_nil_r, <- !app_assoc. reflexivity.
      + intros (A0 & e & B & T0 & He0 & HB & HO & ->). exists A0, e, (B ++ [erase a]). rewrite others_snoc. split; [exact T0|]. split; [exact He0|]. split; [apply body_snoc; [exact HB|now rewrite He]|].
        split; [rewrite HO; destruct a; try discriminate He; apply app_nil_r|]. rewrite !app_nil_r, <- !app_assoc. cbn [app]. rewrite <- !app_assoc. reflexivity.
      + intros (A0 & e & B & e' & T0 & He0 & HB & HO & He' & _ & ->). exists A0, e, B, (e' ++ [erase a]). do 4 (split; [assumption|]). split; [now apply edges_snoc|]. split; [now right|].
        nrm. reflexivity.
      + intros K. apply tidy_app; [exact K|]. apply td_edge; [exact He|constructor].
    - (* a text is pushed out: only ME *)
      assert (Hne : mt_text m <> []) by (rewrite Et; discriminate).
      assert (Hst' : mt_st m' = m_push_out (mt_st m) (mkChunk3 (mt_line m) (Text3 (c :: T)))).
      { rewrite Hst. unfold mt_push_str. rewrite Et. reflexivity. }
      clear Hst. rewrite <- Et in *. specialize (S3 Hbr).
      assert (HW : W m' = show_chunks3 (ms_out (mt_st m)) ++ (mt_text m ++ opening (ms_mode (mt_st m)) ++ show2 (ms_buffer (mt_st m))) ++ closing (ms_mode (mt_st m))).
      { unfold W. rewrite Hst', Ht. unfold m_push_out. cbn [ms_out ms_mode ms_buffer]. rewrite show_chunks3_app, show_chunks3_one. cbn [show_chunk3 show_variant3 app]. rewrite <- !app_assoc. reflexivity. }
      assert (HW' : W m = show_chunks3 (ms_out (mt_st m)) ++ ((opening (ms_mode (mt_st m)) ++ show2 (ms_buffer (mt_st m))) ++ mt_text m) ++ closing (ms_mode (mt_st m))).
      { unfold W. rewrite <- !app_assoc. reflexivity. }
      rewrite HW, HW'. destruct (ms_mode (mt_st m)) as [[|]|[|]| |] eqn:Em; try discriminate Hbr;
        try (right; apply strict_pre, strict_post, strict_swap; [exact S3|exact Hne|now left]).
      left. cbn [opening app closing]. rewrite (S2 eq_refl). cbn [show2 map concat app]. rewrite !app_nil_r. split; [reflexivity|].
      unfold shape. rewrite Hst'. unfold m_push_out. cbn [ms_mode]. rewrite Em. intros K. apply tidy_app; [exact K|]. apply td_edge; [exact He|constructor].
  Qed.

  Lemma bwd_char m c b A m' : okb b (MC c) -> side b m -> is_br (ms_mode (mt_st m)) = false -> c <> c_dollar -> astep p rec m (MC c) = Ok m' ->
    side true m' /\ eq_or_less (W m') (W m ++ [c]) (shape b m A -> shape true m' (A ++ [Ch c])).
  Proof.
    intros Hb (S1 & S2 & S3) Hbr Hc H. unfold astep in H. rewrite Hbr, mt_step_char in H by exact Hc.
    destruct (if c =? c_newline then add32 p (mt_cursor m) 1 else Ok (mt_cursor m)) as [x|e| |]; cbn [bind] in H; try discriminate. injection H as <-.
    split; [unfold side; cbn [mt_st mt_text]; repeat split; auto; [discriminate|intros _; apply in_dollar_snoc; auto]|].
    unfold W, shape. cbn [mt_st mt_text]. rewrite map_app. cbn [map].
    destruct (ms_mode (mt_st m)) as [[|]|[|]| |]; try discriminate Hbr; cbn [opening closing].
    - left. rewrite !app_nil_r, <- !app_assoc. split; [reflexivity|].
      intros (A0 & B & T0 & HB & HO & ->). exists A0, B. do 3 (split; [assumption|]). nrm. reflexivity.
    - left. rewrite !app_nil_r, <- !app_assoc. split; [reflexivity|].
      intros (A0 & e & B & T0 & He & HB & HO & ->). exists A0, e, B. do 4 (split; [assumption|]). nrm. reflexivity.
    - right. rewrite <- !app_assoc. do 4 apply strict_pre. cbn [app].
      apply (strict_swap [c_dollar] [c]); [intros [E|[]]; congruence|discriminate|now left].
    - left. rewrite !app_nil_r, <- !app_assoc. split; [reflexivity|]. intros K. apply tidy_app; [exact K|]. apply td_char; [exact Hc|constructor].
  Qed.

  (** closing a dollar block *)
  Lemma bwd_close m t m' : mt_close p rec m t = Ok m' -> small (show2 (ms_buffer (mt_st m)) ++ mt_text m) ->
    ms_mode (mt_st m') = MNone /\ ms_buffer (mt_st m') = [] /\ mt_text m' = [] /\
    exists X, W m' = show_chunks3 (ms_out (mt_st m)) ++ fst (maths_delims Dollars t) ++ X ++ snd (maths_delims Dollars t) /\
      eq_or_less X (show2 (ms_buffer (mt_st m)) ++ mt_text m) (tidy (atoms (ms_buffer (mt_st m)) ++ text_atoms (mt_text m))).
  Proof.
    intros H Hs. apply mt_close_ok in H as (sh & co & Ev & Er & ->). cbn [mt_st ms_mode ms_buffer mt_text]. do 3 (split; [reflexivity|]).
    exists (show_chunks3 co). split.
    - unfold W. cbn [mt_st mt_text ms_out ms_mode ms_buffer opening closing]. rewrite show_chunks3_app, show_chunks3_one, <- app_assoc. cbn [app show2 map concat]. rewrite app_nil_r. reflexivity.
    - assert (Ea : atoms sh = atoms (ms_buffer (mt_st m)) ++ text_atoms (mt_text m)).
      { rewrite (atoms_variants _ _ Ev), atoms_app. f_equal. destruct (mt_text m); [reflexivity|]. cbn [is_empty]. rewrite atoms_cons. cbn [atoms_chunk]. now rewrite app_nil_r. }
      assert (Es : show2 sh = show2 (ms_buffer (mt_st m)) ++ mt_text m) by (rewrite <- show_atoms_atoms, Ea, show_atoms_app, show_text_atoms, show_atoms_atoms; reflexivity).
      rewrite <- Es, <- Ea in *. apply exact_eol, GR; assumption.
  Qed.
  Lemma bwd_dollar m b A m' : okb b (MC c_dollar) -> side b m -> is_br (ms_mode (mt_st m)) = false -> small (show2 (ms_buffer (mt_st m)) ++ mt_text m) ->
    astep p rec m (MC c_dollar) = Ok m' ->
    side true m' /\ eq_or_less (W m') (W m ++ [c_dollar]) (shape b m A -> shape true m' (A ++ [Ch c_dollar])).
  Proof.
    intros Hb (S1 & S2 & S3) Hbr Hs H. unfold astep in H. rewrite Hbr, mt_step_dollar in H. specialize (S3 Hbr).
    assert (C : forall m', ms_mode (mt_st m') = MNone -> ms_buffer (mt_st m') = [] -> mt_text m' = [] -> side true m').
    { intros m0 E1 E2 E3. unfold side. rewrite E3. repeat split; auto. }
    destruct (ms_mode (mt_st m)) as [[|]|[|]| |] eqn:Em; try discriminate Hbr.
    - (* single *)
      destruct (is_empty (mt_text m) && is_empty (ms_buffer (mt_st m))) eqn:Ee.
      + injection H as <-. apply andb_true_iff in Ee as [E1 E2]. destruct (mt_text m) eqn:Et; [|discriminate E1]. destruct (ms_buffer (mt_st m)) eqn:Ebf; [|discriminate E2].
        split; [unfold side, mt_set_mode; cbn [mt_st mt_text ms_mode]; rewrite Et; repeat split; auto; discriminate|].
        left. unfold W, shape, mt_set_mode. cbn [mt_st mt_text ms_mode ms_out ms_buffer opening closing]. rewrite Em, Et, Ebf. cbn [opening closing show2 map concat app]. split; [now rewrite <- app_assoc|].
        intros (A0 & B & T0 & HB & HO & ->). exists A0, B, []. split; [exact T0|]. split; [now apply edges_of_others|]. split; [reflexivity|]. split; [reflexivity|].
        cbn [app map]. rewrite app_nil_r, <- app_assoc. reflexivity.
      + apply bwd_close in H as (M1 & M2 & M3 & X & HX & EX); [|exact Hs]. split; [auto|]. rewrite HX. unfold W. rewrite Em. cbn [opening closing maths_delims fst snd]. rewrite app_nil_r.
        match goal with |- eq_or_less ?a ?b _ => replace b with (show_chunks3 (ms_out (mt_st m)) ++ [c_dollar] ++ (show2 (ms_buffer (mt_st m)) ++ mt_text m) ++ [c_dollar]) by (rewrite <- !app_assoc; reflexivity) end.
        apply eol_pre, eol_pre, eol_post. eapply eol_mono; [|exact EX]. intros Ht. unfold shape. rewrite M1, Em.
        intros (A0 & B & T0 & HB & HO & ->). rewrite <- app_assoc. apply tidy_app; [exact T0|]. cbn [app]. rewrite <- app_assoc. apply td_inline; [exact HB|exact S3| |now rewrite HO|constructor].
        rewrite HO. destruct (mt_text m); [left|right; discriminate]. destruct (ms_buffer (mt_st m)) as [|[? []] ?]; [discriminate Ee|discriminate..].
    - (* double *)
      injection H as <-. split; [unfold side, mt_set_mode; cbn [mt_st mt_text ms_mode]; repeat split; auto; discriminate|].
      left. unfold W, shape, mt_set_mode. cbn [mt_st mt_text ms_mode ms_out ms_buffer opening closing]. rewrite Em. cbn [opening closing]. split; [rewrite app_nil_r, <- !app_assoc; reflexivity|].
      intros (A0 & e & B & T0 & He & HB & HO & ->). exists A0, e, B, []. do 4 (split; [assumption|]). split; [reflexivity|]. split; [now left|].
      nrm. reflexivity.
    - (* closing *)
      apply bwd_close in H as (M1 & M2 & M3 & X & HX & EX); [|exact Hs]. split; [auto|]. rewrite HX. unfold W. rewrite Em. cbn [opening closing maths_delims fst snd].
      match goal with |- eq_or_less ?a ?b _ => replace b with (show_chunks3 (ms_out (mt_st m)) ++ [c_dollar; c_dollar] ++ (show2 (ms_buffer (mt_st m)) ++ mt_text m) ++ [c_dollar; c_dollar]) by (rewrite <- !app_assoc; reflexivity) end.
      apply eol_pre, eol_pre, eol_post. eapply eol_mono; [|exact EX]. intros Ht. unfold shape. rewrite M1, Em.
      intros (A0 & e & B & e' & T0 & He & HB & HO & He' & Hx & ->). rewrite <- app_assoc. apply tidy_app; [exact T0|].
      cbn [app]. nrm. apply td_display; auto; [now rewrite HO|constructor].
    - (* none *)
      injection H as <-. unfold mt_set_mode. cbn [mt_st mt_text mt_cursor]. rewrite push_str_text, push_str_buffer.
      split; [unfold side; cbn [mt_st mt_text ms_mode]; repeat split; auto; discriminate|].
      left. unfold W, shape. cbn [mt_st mt_text ms_mode ms_out ms_buffer opening closing]. rewrite Em, (S2 eq_refl). cbn [opening closing show2 map concat app]. rewrite !app_nil_r. split.
      + change (show_chunks3 (ms_out (mt_st m)) ++ mt_text m) with (V m). rewrite <- push_str_V. unfold V. rewrite push_str_text, app_nil_r. reflexivity.
      + intros K. exists A, []. repeat split; auto.
  Qed.

  (** commands, scopes and environments *)
  Lemma bwd_other m l v b A m' : okb b (MO l v) -> side b m -> small (W m ++ show_variant2 v) -> astep p rec m (MO l v) = Ok m' ->
    side false m' /\ eq_or_less (W m') (W m ++ show_variant2 v) (shape b m A -> shape false m' (A ++ [Other v])).
  Proof.
    intros [-> Hnt] (S1 & S2 & S3) Hs H. cbn [astep] in H. rewrite m_step_other in H by exact Hnt. specialize (S1 eq_refl).
    assert (P : ms_mode (mt_st m) <> MNone -> m' = set_st m (m_push_buffer (mt_st m) (mkChunk2 l v)) -> side false m').
    { intros Hm ->. unfold side, set_st, m_push_buffer. cbn [mt_st mt_text ms_mode ms_buffer]. repeat split; auto. intros K. now elim Hm. }
    assert (Hat : forall bf, atoms (bf ++ [mkChunk2 l v]) = atoms bf ++ [Other v]).
    { intros bf. rewrite atoms_app, atoms_cons. f_equal. destruct v; try reflexivity. destruct Hnt. }
    assert (Hsh : forall bf, show2 (bf ++ [mkChunk2 l v]) = show2 bf ++ show_variant2 v) by (intros bf; rewrite show2_app, show2_one; reflexivity).
    unfold m_other in H.
    assert (BR : forall t, ms_mode (mt_st m) = br t ->
      (let* st := match kind v with
        | Some (o, t0) => if teqb t0 t then if o then let* d := add32 p (ms_depth (mt_st m)) 1 in Ok (m_set_depth (mt_st m) d)
            else if ms_depth (mt_st m) =? 1 then m_close_brackets rec (mt_st m) t else let* d := sub32 p (ms_depth (mt_st m)) 1 in Ok (m_set_depth (mt_st m) d)
            else Ok (m_push_buffer (mt_st m) (mkChunk2 l v))
        | None => Ok (m_push_buffer (mt_st m) (mkChunk2 l v)) end in Ok (set_st m st)) = Ok m' ->
      side false m' /\ eq_or_less (W m') (W m ++ show_variant2 v) (shape false m A -> shape false m' (A ++ [Other v]))).
    { clear H. intros t Em H.
      assert (Hsd : forall d, m' = set_st m (m_set_depth (mt_st m) d) ->
        side false m' /\ eq_or_less (W m') (W m ++ show_variant2 v) (shape false m A -> shape false m' (A ++ [Other v]))).
      { intros d ->. split; [unfold side, set_st, m_set_depth; cbn [mt_st mt_text ms_mode ms_buffer]; auto|]. right.
        change (W (set_st m (m_set_depth (mt_st m) d))) with (W m). apply strict_nil_l. now apply show_variant_ne. }
      assert (Hpb : (forall o, kind v <> Some (o, t)) -> m' = set_st m (m_push_buffer (mt_st m) (mkChunk2 l v)) ->
        side false m' /\ eq_or_less (W m') (W m ++ show_variant2 v) (shape false m A -> shape false m' (A ++ [Other v]))).
      { intros Hk E. split; [apply P; [rewrite Em; now destruct t|exact E]|]. subst m'. left.
        assert (Hk1 : ~ has_label [opener t] v /\ ~ has_label [closer t] v).
        { split; intros [args ->]; [apply (Hk true)|apply (Hk false)]; destruct t; reflexivity. }
        unfold W, shape, set_st, m_push_buffer. cbn [mt_st mt_text ms_mode ms_out ms_buffer]. rewrite Em, S1, Hsh, Hat. split; [destruct t; cbn [br opening closing]; cbn [app]; rewrite !app_nil_r; nrm; reflexivity|].
        destruct t; cbn [br]; intros (A0 & T0 & -> & Hn); exists A0; (split; [exact T0|split; [rewrite !app_nil_r, <- !app_assoc; reflexivity|]]);
          (intros l' v' Hi; apply in_app_or in Hi as [Hi|[Hi|[]]]; [eauto|injection Hi as <- <-; exact Hk1]). }
      destruct (kind v) as [[o t0]|] eqn:Ek; [|cbn [bind] in H; injection H as <-; apply Hpb; [discriminate|reflexivity]].
      destruct (teqb t0 t) eqn:Et; [|cbn [bind] in H; injection H as <-; apply Hpb; [intros o' K; injection K as <- <-; destruct t0; discriminate Et|reflexivity]].
      assert (t0 = t) as -> by (destruct t0, t; try discriminate Et; reflexivity). clear Et. destruct o.
      - destruct (add32 p (ms_depth (mt_st m)) 1) as [d|er| |]; cbn [bind] in H; try discriminate. injection H as <-. now apply (Hsd d).
      - destruct (ms_depth (mt_st m) =? 1).
        2:{ destruct (sub32 p (ms_depth (mt_st m)) 1) as [d|er| |]; cbn [bind] in H; try discriminate. injection H as <-. now apply (Hsd d). }
        unfold m_close_brackets in H. destruct (rec (ms_buffer (mt_st m))) as [co|er| |] eqn:Er; cbn [bind] in H; try discriminate. injection H as <-.
        split; [unfold side, set_st; cbn [mt_st mt_text ms_mode ms_buffer]; repeat split; auto; intros _; rewrite S1; intros []|].
        assert (Ev : exists args, v = Command2 (mkCommand2 [closer t] args)).
        { clear - Ek. unfold kind in Ek. destruct v as [s|[lab args]|s|e]; try discriminate Ek.
          destruct (str_eqb lab [c_lround]) eqn:E1; [discriminate Ek|]. destruct (str_eqb lab [c_lsquare]) eqn:E2; [discriminate Ek|].
          destruct (str_eqb lab [c_rround]) eqn:E3; [apply str_eqb_iff in E3; subst; injection Ek as <-; eexists; reflexivity|].
          destruct (str_eqb lab [c_rsquare]) eqn:E4; [apply str_eqb_iff in E4; subst; injection Ek as <-; eexists; reflexivity|]. discriminate Ek. }
        destruct Ev as [args ->].
        assert (Hw : W m = show_chunks3 (ms_out (mt_st m)) ++ fst (maths_delims Brackets t) ++ show2 (ms_buffer (mt_st m))).
        { unfold W. rewrite Em, S1. destruct t; cbn [br opening closing maths_delims fst app]; rewrite app_nil_r; reflexivity. }
        assert (Hv : show_variant2 (Command2 (mkCommand2 [closer t] args)) = snd (maths_delims Brackets t) ++ show_args2 args) by (destruct t; reflexivity).
        rewrite Hv, Hw in *. apply small_app in Hs as [Hs _]. apply small_app in Hs as [_ Hs]. apply small_app in Hs as [_ Hs].
        apply GR in Er; [|exact Hs]. apply exact_eol in Er.
        unfold W at 1. unfold set_st at 1 2 3 4 5. cbn [mt_st mt_text ms_out ms_mode ms_buffer opening closing]. rewrite S1, show_chunks3_app, show_chunks3_one. cbn [show2 map concat app]. rewrite app_nil_r.
        change (show_chunk3 _) with (fst (maths_delims Brackets t) ++ show_chunks3 co ++ snd (maths_delims Brackets t)).
        destruct args as [|a args].
        + change (show_args2 []) with (@nil N). rewrite app_nil_r, <- !app_assoc. apply eol_pre, eol_pre, eol_post. eapply eol_mono; [|exact Er].
          intros Ht. unfold shape, set_st. cbn [mt_st ms_mode mt_text]. rewrite Em.
          destruct t; cbn [br]; intros (A0 & T0 & -> & Hn); rewrite app_nil_r; cbn [app]; rewrite <- app_assoc; (apply tidy_app; [exact T0|]); cbn [app].
          * apply (td_brackets Inline); [exact Hn|exact Ht|constructor].
          * apply (td_brackets Outline); [exact Hn|exact Ht|constructor].
        + right. eapply strict_trans_r; [|rewrite !app_assoc; apply strict_nil_l; apply show_args_ne; discriminate].
          rewrite <- !app_assoc. apply below_app; [apply below_refl|]. apply below_app; [apply below_refl|]. apply below_app; [|apply below_refl]. apply (eol_below _ _ _ Er). }
    destruct (ms_mode (mt_st m)) as [[|]|[|]| |] eqn:Em.
    - apply (BR Inline); [reflexivity|exact H].
    - cbn [bind] in H. injection H as <-. split; [apply P; [discriminate|reflexivity]|]. left. unfold W, shape, set_st, m_push_buffer. cbn [mt_st mt_text ms_mode ms_out ms_buffer]. rewrite Em, S1, Hsh, Hat. cbn [opening closing map].
      split; [rewrite !app_nil_r, <- !app_assoc; reflexivity|]. intros (A0 & B & T0 & HB & HO & ->). exists A0, (B ++ [Other v]). rewrite others_snoc, HO. split; [exact T0|]. split; [now apply body_snoc|].
      split; [reflexivity|]. rewrite !app_nil_r, <- !app_assoc. reflexivity.
    - apply (BR Outline); [reflexivity|exact H].
    - cbn [bind] in H. injection H as <-. split; [apply P; [discriminate|reflexivity]|]. left. unfold W, shape, set_st, m_push_buffer. cbn [mt_st mt_text ms_mode ms_out ms_buffer]. rewrite Em, S1, Hsh, Hat. cbn [opening closing map].
      split; [rewrite !app_nil_r, <- !app_assoc; reflexivity|]. intros (A0 & e & B & T0 & He & HB & HO & ->). exists A0, e, (B ++ [Other v]). rewrite others_snoc, HO. split; [exact T0|]. split; [exact He|]. split; [now apply body_snoc|].
      split; [reflexivity|]. rewrite !app_nil_r, <- !app_assoc. cbn [app]. rewrite <- !app_assoc. reflexivity.
    - cbn [bind] in H. injection H as <-. split; [apply P; [discriminate|reflexivity]|]. right. unfold W, set_st, m_push_buffer. cbn [mt_st mt_text ms_mode ms_out ms_buffer]. rewrite Em, S1, Hsh. cbn [opening closing app].
      nrm. apply strict_pre. apply (strict_pre [c_dollar; c_dollar]). apply strict_pre. apply strict_past. now apply show_variant_pos.
    - specialize (S2 eq_refl). assert (Hw : W m = show_chunks3 (ms_out (mt_st m))) by (unfold W; rewrite Em, S1, S2; cbn [opening closing show2 map concat app]; apply app_nil_r).
      rewrite Hw in *. destruct (kind v) as [[[|] t]|] eqn:Ek; cbn [bind] in H; try discriminate.
      + injection H as <-.
        split; [unfold side, set_st; cbn [mt_st mt_text ms_mode ms_buffer]; repeat split; auto; destruct t; discriminate|].
        assert (Ev : exists args, v = Command2 (mkCommand2 [opener t] args)).
        { clear - Ek. unfold kind in Ek. destruct v as [s|[lab args]|s|e]; try discriminate Ek.
          destruct (str_eqb lab [c_lround]) eqn:E1; [apply str_eqb_iff in E1; subst; injection Ek as <-; eexists; reflexivity|].
          destruct (str_eqb lab [c_lsquare]) eqn:E2; [apply str_eqb_iff in E2; subst; injection Ek as <-; eexists; reflexivity|].
          destruct (str_eqb lab [c_rround]) eqn:E3; [discriminate Ek|]. destruct (str_eqb lab [c_rsquare]) eqn:E4; discriminate Ek. }
        destruct Ev as [args ->]. replace (show_variant2 _) with (fst (maths_delims Brackets t) ++ show_args2 args) by (destruct t; reflexivity).
        assert (Hw' : W (set_st m (mkM (ms_out (mt_st m)) (br t) 1 (ms_buffer (mt_st m)) l)) = show_chunks3 (ms_out (mt_st m)) ++ fst (maths_delims Brackets t)).
        { unfold W, set_st. cbn [mt_st mt_text ms_out ms_mode ms_buffer]. rewrite S1, S2. destruct t; reflexivity. }
        rewrite Hw'. destruct args as [|a args].
        * left. change (show_args2 []) with (@nil N). rewrite app_nil_r. split; [reflexivity|]. unfold shape, set_st. cbn [mt_st ms_mode mt_text ms_buffer]. rewrite Em, S2. intros K.
          destruct t; cbn [br]; exists A; (split; [exact K|split; [reflexivity|intros ? ? []]]).
        * right. rewrite app_assoc. apply strict_nil_l, show_args_ne. discriminate.
      + destruct (conv_variant p rec v) as [v3|er| |] eqn:Ec; cbn [bind] in H; try discriminate. injection H as <-.
        split; [unfold side, set_st, m_push_out; cbn [mt_st mt_text ms_mode ms_buffer]; repeat split; auto|].
        apply small_app in Hs as [_ Hs]. apply (conv_exact p rec GR) in Ec; [|exact Hs]. apply exact_eol in Ec.
        unfold W, set_st, m_push_out. cbn [mt_st mt_text ms_out ms_mode ms_buffer]. rewrite Em, S1, S2, show_chunks3_app, show_chunks3_one. cbn [opening closing show2 map concat app show_chunk3]. rewrite app_nil_r.
        apply eol_pre. eapply eol_mono; [|exact Ec]. intros Hi. unfold shape. cbn [mt_st ms_mode]. rewrite Em. intros K.
        apply tidy_app; [exact K|]. apply td_other; [now apply kind_plain|exact Hi|constructor].
  Qed.

  (** texts in bracket mode *)
  Lemma bwd_br m a b A m' : okb b a -> side b m -> is_br (ms_mode (mt_st m)) = true -> is_other (erase a) = false -> astep p rec m a = Ok m' ->
    side (nextb a) m' /\ eq_or_less (W m') (W m ++ show_atom (erase a)) (shape b m A -> shape (nextb a) m' (A ++ [erase a])).
  Proof.
    intros Hb (S1 & S2 & S3) Hbr Ho H. destruct a as [l|c|l|l v]; try discriminate Ho; unfold astep in H; rewrite Hbr in H; injection H as <-; cbn [nextb erase show_atom okb] in *; subst b.
    - split; [unfold side; cbn [mt_st mt_text]; repeat split; auto; discriminate|]. left. rewrite app_nil_r. split; [reflexivity|].
      unfold shape. cbn [mt_st mt_text]. rewrite (S1 eq_refl).
      destruct (ms_mode (mt_st m)) as [[|]|[|]| |]; try discriminate Hbr; intros (A0 & T0 & -> & Hn); exists A0; (split; [exact T0|split; [|exact Hn]]); rewrite app_nil_r, <- app_assoc; reflexivity.
    - split; [unfold side; cbn [mt_st mt_text]; repeat split; auto; [discriminate|rewrite Hbr; discriminate]|]. left.
      unfold shape, W. cbn [mt_st mt_text]. rewrite map_app.
      destruct (ms_mode (mt_st m)) as [[|]|[|]| |]; try discriminate Hbr; cbn [opening closing]; rewrite !app_nil_r, <- !app_assoc; (split; [reflexivity|]);
        intros (A0 & T0 & -> & Hn); exists A0; (split; [exact T0|split; [|exact Hn]]); nrm; reflexivity.
    - split.
      { unfold side, m_push_buffer. cbn [mt_st mt_text ms_mode ms_buffer]. repeat split; auto. intros K. rewrite K in Hbr. discriminate Hbr. }
      left. unfold shape, W, m_push_buffer. cbn [mt_st mt_text ms_mode ms_out ms_buffer]. rewrite show2_app, show2_one, atoms_app, atoms_cons. cbn [atoms_chunk show_chunk2 show_variant2].
      destruct (ms_mode (mt_st m)) as [[|]|[|]| |]; try discriminate Hbr; cbn [opening closing app]; rewrite !app_nil_r; nrm; (split; [reflexivity|]);
        intros (A0 & T0 & -> & Hn); exists A0;
        (split; [exact T0|split; [rewrite ?app_nil_r; nrm; reflexivity|]]);
        (intros l' v' Hi; apply in_app_or in Hi as [Hi|[Hi|[]]]; [eauto|injection Hi as <- <-; split; intros [args E]; discriminate E]).
  Qed.

  Lemma bwd_step m a b A m' : okb b a -> side b m -> small (W m ++ show_atom (erase a)) -> astep p rec m a = Ok m' ->
    side (nextb a) m' /\ eq_or_less (W m') (W m ++ show_atom (erase a)) (shape b m A -> shape (nextb a) m' (A ++ [erase a])).
  Proof.
    intros Hb Hsd Hs H. destruct (is_other (erase a)) eqn:Ho.
    - destruct a as [l|c|l|l v]; try discriminate Ho. apply bwd_other with (l := l); assumption.
    - destruct (is_br (ms_mode (mt_st m))) eqn:Hbr; [now apply bwd_br|].
      destruct a as [l|c|l|l v]; try discriminate Ho.
      + cbn [erase show_atom] in *. rewrite app_nil_r. apply bwd_edge; auto.
      + destruct (N.eq_dec c c_dollar) as [->|Hc]; [|now apply bwd_char]. cbn [erase show_atom nextb]. apply bwd_dollar; auto.
        apply small_app in Hs as [Hs _]. unfold W in Hs. apply small_app in Hs as [_ Hs]. apply small_app in Hs as [_ Hs]. rewrite app_assoc in Hs. now apply small_app in Hs as [Hs _].
      + cbn [erase show_atom] in *. rewrite app_nil_r. apply bwd_edge; auto.
  Qed.
  Lemma wf_okb b a M r : wf_run b (a :: M) = Some r -> okb b a /\ wf_run (nextb a) M = Some r.
  Proof. destruct a as [l|c|l|l v], b; cbn [wf_run okb nextb]; try discriminate; auto. destruct v; try discriminate; intros H; (split; [split; [reflexivity|exact I]|exact H]). Qed.
  Lemma bwd M : forall A m b r m', wf_run b M = Some r -> side b m -> eq_or_less (W m) (show_atoms A) (shape b m A) -> small (show_atoms (A ++ map erase M)) ->
    foldM (astep p rec) m M = Ok m' ->
    side r m' /\ eq_or_less (W m') (show_atoms (A ++ map erase M)) (shape r m' (A ++ map erase M)).
  Proof.
    induction M as [|a M IH]; intros A m b r m' Hw Hsd HD Hs HF; cbn [foldM map] in *.
    - cbn [wf_run] in Hw. injection Hw as <-. injection HF as <-. rewrite app_nil_r. auto.
    - apply wf_okb in Hw as [Hb Hw]. destruct (astep p rec m a) as [m1|e| |] eqn:F1; cbn [bind] in HF; try discriminate.
      replace (A ++ erase a :: map erase M) with ((A ++ [erase a]) ++ map erase M) in * by (rewrite <- app_assoc; reflexivity).
      assert (Hs1 : small (show_atoms (A ++ [erase a]))) by (rewrite show_atoms_app in Hs; now apply small_app in Hs as [Hs _]).
      assert (Ea : show_atoms (A ++ [erase a]) = show_atoms A ++ show_atom (erase a)) by (rewrite show_atoms_app; f_equal; cbn [show_atoms map concat]; unfold show_atoms; cbn [map concat]; apply app_nil_r).
      destruct (bwd_step m a b A m1 Hb Hsd) as [Hsd1 D1]; [|exact F1|].
      { rewrite Ea in Hs1. eapply small_below; [|exact Hs1]. apply below_app; [apply (eol_below _ _ _ HD)|apply below_refl]. }
      apply (IH (A ++ [erase a]) m1 (nextb a) r m' Hw Hsd1); [|exact Hs|exact HF].
      rewrite Ea. destruct HD as [[HD1 HD2]|HD].
      + rewrite <- HD1. eapply eol_mono; [|exact D1]. auto.
      + right. eapply strict_trans_r; [apply (eol_below _ _ _ D1)|]. now apply strict_post.
  Qed.
End Bwd.

(** ** The two directions together *)
Lemma step_good p rec : good_rec rec -> good_rec (fun cs => let* st := foldM (m_step p rec) minit cs in m_finish p st).
Proof.
  intros GR cs out Hs H.
  destruct (foldM_atoms p rec cs minit 0 0) as [EF ET]. rewrite EF in H. clear EF.
  destruct (foldM (astep p rec) (mkMT minit 0 [] 0) (matoms cs)) as [m|e| |] eqn:F; cbn [bind] in H; try discriminate.
  specialize (ET m eq_refl). unfold m_finish in H. destruct (ms_mode (mt_st m)) as [?|?| |] eqn:Em; cbn [is_none negb] in H; try discriminate.
  assert (Hw : W m = show_chunks3 (ms_out (mt_st m)) ++ show2 (ms_buffer (mt_st m))) by (unfold W; rewrite Em, ET; cbn [opening closing app]; now rewrite app_nil_r).
  assert (Hs' : small (show_atoms (atoms cs))) by now rewrite show_atoms_atoms.
  assert (B : side false m /\ eq_or_less (W m) (show_atoms (atoms cs)) (shape false m (atoms cs))).
  { pose proof (bwd p rec GR (matoms cs) [] (mkMT minit 0 [] 0) false false m (wf_matoms cs)) as B. rewrite erase_matoms in B. cbn [app] in B. apply B; [|left|exact Hs'|exact F].
    - repeat split; auto.
    - split; [reflexivity|]. cbn. constructor. }
  destruct B as [(_ & Sb & _) B]. rewrite Hw, (Sb Em) in B. cbn [show2 map concat] in B. rewrite app_nil_r in B.
  assert (Ho : show_chunks3 out = show_chunks3 (ms_out (mt_st m))).
  { apply (paragraph_show_any p) in H; [exact H|]. apply eol_below in B. apply (small_below _ _ B Hs'). }
  rewrite Ho, <- show_atoms_atoms. destruct B as [[B1 B2]|B].
  - left. split; [exact B1|]. unfold shape in B2. now rewrite Em in B2.
  - right. split; [exact B|]. intros Ht. apply (strict_irrefl _ _ B).
    destruct (fwd p rec GR (atoms cs) Ht (matoms cs) false false (mkMT minit 0 [] 0) m (erase_matoms cs) (wf_matoms cs)) as [_ J]; [repeat split; auto|exact Hs'|exact F|].
    unfold V in J. rewrite ET in J. cbn in J. now rewrite app_nil_r in J.
Qed.
Theorem maths_fuel_good n p : good_rec (maths_fuel n p).
Proof.
  induction n as [|n IH]; [intros cs out _ H; discriminate H|]. apply (step_good p _ IH).
Qed.
Theorem maths_exact p cs out : small (show2 cs) -> maths_from_chunks p cs = Ok out -> (show_chunks3 out = show2 cs <-> tidy (atoms cs)).
Proof. intros Hs H. apply exact_iff. apply (maths_fuel_good (S (size2 cs)) p); assumption. Qed.
Theorem maths_never_more p cs out : small (show2 cs) -> maths_from_chunks p cs = Ok out ->
  below (show_chunks3 out) (show2 cs).
Proof. intros Hs H. eapply exact_below. apply (maths_fuel_good (S (size2 cs)) p); assumption. Qed.
Corollary maths_not_longer p cs out : small (show2 cs) -> maths_from_chunks p cs = Ok out ->
  (length (show_chunks3 out) <= length (show2 cs))%nat.
Proof. intros Hs H. destruct (maths_never_more p cs out Hs H) as [K _]. lia. Qed.
