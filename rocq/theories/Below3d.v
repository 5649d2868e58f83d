(** * Below3d: documents and sources further down (C72) *)
From Verif Require Import Base Ast1 Parse1 Ast2 Ast3 SpecDoc1 SpecDoc2 SpecDoc3 Spec2 SpecMaths3 SpecPar3 SpecReads SpecClass3 SpecRead3 SpecWrap SpecConcat SpecBelow3 Lines Tok Refine1 Facts1 Facts2 Env2 Par3 Maths3 MathsRun Mono MathsRec Dollars Reads Class3 Options3 Doc3 Read3 Keep3 ReadsW KeepW SpecCanon1 Good2 Concat1 Concat2 Below3.
From Coq Require Import Lia.

Lemma maths_par p cs : in_range cs -> u32_lines cs ->
  (let* x := maths_from_chunks p cs in paragraph_from_chunks p x) = maths_from_chunks p cs.
Proof.
  intros R U. destruct p.
  - destruct (maths_reads_exists cs R) as [r H]. apply (proj1 reads_run) in H. destruct (P1_maths _ _ H R) as [-> E]. exact E.
  - destruct (wmaths_reads_exists cs (conj R U)) as [r H]. apply (proj1 wreads_run) in H. destruct (wP1_maths _ _ H (conj R U)) as [-> E]. exact E.
Qed.
Lemma u32_sub a b : (forall c, In c a -> In c b) -> u32_lines b -> u32_lines a.
Proof. intros I H. inversion H as [x H1 H2]; subst. constructor; intros; [eapply H1|eapply H2]; eauto. Qed.
Lemma range_any a b : (forall c, In c a -> In c b) -> (ncmd a <= ncmd b)%nat -> in_range b -> in_range a.
Proof. intros. eapply range_sub; eassumption. Qed.

Section K.
Context (p : profile) (k : N) (a : list chunk2).
Notation dn2 := (map (below2 k)).
Notation dn3 := (map (below3 k)).

(** the state when the document is further down *)
Definition low (st : dstate) : dstate := mkD (ds_construct st) (a ++ dn2 (ds_pre st)) (dn2 (ds_trail st)) (ds_trailing st).
Definition lowered {A B} (P : A -> B -> Prop) (x : outcome error A) (y : outcome error B) : Prop :=
  match x with
  | Ok u => exists v, y = Ok v /\ P u v
  | Err e => exists e', y = Err e' /\ err_type e' = err_type e /\ (err_line e' = err_line e \/ err_line e' = err_line e + k)
  | Panic => y = Panic
  | OutOfFuel => y = OutOfFuel
  end.
Lemma low_pre st c : low (d_push_pre st c) = d_push_pre (low st) (below2 k c).
Proof. unfold low, d_push_pre. cbn [ds_construct ds_pre ds_trail ds_trailing]. now rewrite map_app, app_assoc. Qed.
Lemma low_other st c : low (d_push_other st c) = d_push_other (low st) (below2 k c).
Proof.
  unfold d_push_other. change (ds_trailing (low st)) with (ds_trailing st). destruct (negb (ds_trailing st)); [apply low_pre|].
  unfold low. cbn [ds_construct ds_pre ds_trail ds_trailing]. now rewrite map_app.
Qed.
Lemma class_args_below l args : forall co, lowered eq (foldM (class_arg_step l) co args) (foldM (class_arg_step (l + k)) co args).
Proof.
  induction args as [|[pre [cs v]] args IH]; intros [cls opts]; cbn [foldM]; [exists (cls, opts); now split|].
  destruct v; cbn [class_arg_step];
    first [cbn [bind]; apply IH|destruct cls; cbn [bind]; [eexists; split; [reflexivity|]; cbn; auto|apply IH]].
Qed.
Lemma step_low st c : lowered (fun x y => y = low x) (d_step p st c) (d_step p (low st) (below2 k c)).
Proof.
  destruct c as [l v]. cbn [below2]. unfold d_step.
  destruct v as [s|[lab args]|s|e]; try (cbn [lowered]; eexists; split; [reflexivity|]; symmetry; apply low_other).
  - change (ds_trailing (low st)) with (ds_trailing st). change (ds_construct (low st)) with (ds_construct st). cbn [label2 arguments2].
    destruct (str_eqb lab s_documentclass && negb (ds_trailing st)); [|eexists; split; [reflexivity|]; symmetry; apply low_other].
    destruct (d_class (ds_construct st)); [eexists; split; [reflexivity|]; cbn; auto|].
    pose proof (class_args_below l args (None, d_options (ds_construct st))) as H.
    destruct (foldM (class_arg_step l) _ args) as [co|e| |]; cbn [lowered bind] in *; [|destruct H as (e' & -> & H); eexists; split; [reflexivity|exact H]|rewrite H; reflexivity..].
    destruct H as (v & -> & <-). cbn [bind]. eexists. split; [reflexivity|]. rewrite low_pre. reflexivity.
  - destruct (str_eqb (env_label2 e) s_document); [|eexists; split; [reflexivity|]; symmetry; apply low_other].
    destruct (env3_try_from p (maths_from_chunks p) e) as [[? ? ? ? ?]|er| |]; cbn [bind lowered]; try reflexivity; [eexists; split; reflexivity|]. eexists. split; [reflexivity|auto].
Qed.
Lemma fold_low d : forall st, lowered (fun x y => y = low x) (foldM (d_step p) st d) (foldM (d_step p) (low st) (dn2 d)).
Proof.
  induction d as [|c d IH]; intros st; cbn [foldM map]; [eexists; split; reflexivity|].
  pose proof (step_low st c) as H. destruct (d_step p st c) as [st'|e| |]; cbn [lowered bind] in *; [|destruct H as (e' & -> & H); eexists; split; [reflexivity|exact H]|rewrite H; reflexivity..].
  destruct H as (v & -> & ->). cbn [bind]. apply IH.
Qed.
(** what is collected is part of the document *)
Lemma step_in st c st' : d_step p st c = Ok st' ->
  (forall x, In x (ds_pre st') -> In x (ds_pre st) \/ x = c) /\ (forall x, In x (ds_trail st') -> In x (ds_trail st) \/ x = c) /\
  (ncmd (ds_pre st') + ncmd (ds_trail st') <= ncmd (ds_pre st) + ncmd (ds_trail st) + ncmd [c])%nat.
Proof.
  assert (P : forall st, (forall x, In x (ds_pre (d_push_pre st c)) -> In x (ds_pre st) \/ x = c) /\ (forall x, In x (ds_trail (d_push_pre st c)) -> In x (ds_trail st) \/ x = c) /\
    (ncmd (ds_pre (d_push_pre st c)) + ncmd (ds_trail (d_push_pre st c)) <= ncmd (ds_pre st) + ncmd (ds_trail st) + ncmd [c])%nat).
  { intros s0. unfold d_push_pre. cbn [ds_pre ds_trail]. split; [intros x H; apply in_app_or in H as [H|[<-|[]]]; auto|]. split; [auto|]. rewrite ncmd_app. lia. }
  assert (O : forall st, (forall x, In x (ds_pre (d_push_other st c)) -> In x (ds_pre st) \/ x = c) /\ (forall x, In x (ds_trail (d_push_other st c)) -> In x (ds_trail st) \/ x = c) /\
    (ncmd (ds_pre (d_push_other st c)) + ncmd (ds_trail (d_push_other st c)) <= ncmd (ds_pre st) + ncmd (ds_trail st) + ncmd [c])%nat).
  { intros s0. unfold d_push_other. destruct (negb _); [apply P|]. cbn [ds_pre ds_trail]. split; [auto|]. split; [intros x H; apply in_app_or in H as [H|[<-|[]]]; auto|]. rewrite ncmd_app. lia. }
  destruct c as [l v]. unfold d_step. destruct v as [s|[lab args]|s|e]; try (intros E; injection E as <-; apply O).
  - cbn [label2 arguments2]. destruct (_ && _); [|intros E; injection E as <-; apply O]. destruct (d_class _); [discriminate|].
    destruct (foldM _ _ _); cbn [bind]; try discriminate. intros E. injection E as <-. match goal with |- context [d_push_pre ?s0 _] => exact (P s0) end.
  - destruct (str_eqb _ _); [|intros E; injection E as <-; apply O]. destruct (env3_try_from _ _ _) as [[? ? ? ? ?]| | |]; cbn [bind]; try discriminate.
    intros E. injection E as <-. cbn [ds_pre ds_trail]. split; [auto|]. split; [auto|lia].
Qed.
Lemma fold_in d : forall st st', foldM (d_step p) st d = Ok st' ->
  (forall x, In x (ds_pre st') -> In x (ds_pre st ++ d)) /\ (forall x, In x (ds_trail st') -> In x (ds_trail st ++ d)) /\
  (ncmd (ds_pre st') + ncmd (ds_trail st') <= ncmd (ds_pre st) + ncmd (ds_trail st) + ncmd d)%nat.
Proof.
  induction d as [|c d IH]; intros st st'; cbn [foldM]; [intros E; injection E as <-; split; [intros; now rewrite app_nil_r|split; [intros; now rewrite app_nil_r|cbn; lia]]|].
  destruct (d_step p st c) as [s1|e| |] eqn:E1; cbn [bind]; try discriminate. intros E. apply step_in in E1 as (A1 & A2 & A3). apply IH in E as (B1 & B2 & B3).
  split; [intros x H; apply B1 in H; apply in_app_or in H as [H|H]; [apply A1 in H as [H| ->]|]; apply in_or_app; cbn; auto|].
  split; [intros x H; apply B2 in H; apply in_app_or in H as [H|H]; [apply A2 in H as [H| ->]|]; apply in_or_app; cbn; auto|].
  change (c :: d) with ([c] ++ d). rewrite ncmd_app. lia.
Qed.
Lemma ncmd_below cs : ncmd (dn2 cs) = ncmd cs.
Proof. induction cs as [|[l v] cs IH]; [reflexivity|]. cbn [map below2]. now rewrite !ncmd_cons, IH. Qed.

Lemma sections_plain st : in_range (ds_pre st) -> u32_lines (ds_pre st) -> in_range (ds_trail st) -> u32_lines (ds_trail st) ->
  sections p st = let* pre := maths_from_chunks p (ds_pre st) in let* trail := maths_from_chunks p (ds_trail st) in
    let c := ds_construct st in Ok (mkDoc3 (d_class c) (d_options c) pre (d_body c) (d_body_args c) (d_begin_prec c) (d_end_prec c) trail).
Proof.
  intros R1 U1 R2 U2. unfold sections. rewrite <- bind_bind, maths_par by assumption. destruct (maths_from_chunks p (ds_pre st)); cbn [bind]; try reflexivity.
  rewrite <- bind_bind, maths_par by assumption. reflexivity.
Qed.
Theorem document_below d oa : in_range (a ++ dn2 d) -> u32_lines (a ++ dn2 d) -> (forall c, In c d -> 1 <= line_no2 c) ->
  (forall c, In c a -> ~ is_document c) -> class_commands a = [] -> maths_from_chunks p a = Ok oa ->
  match try_from3 p d with
  | Ok d3 => try_from3 p (a ++ dn2 d) = Ok (below_document3 oa k d3)
  | Err e => exists e', try_from3 p (a ++ dn2 d) = Err e' /\ err_type e' = err_type e
  | Panic => try_from3 p (a ++ dn2 d) = Panic
  | OutOfFuel => False
  end.
Proof.
  intros R U L Hd Hc Ha. rewrite !try_from3_sections, foldM_app'.
  assert (E0 : foldM (d_step p) dinit a = Ok (low dinit)).
  { rewrite dinit_base, (fold_pre p a (proj2 (Forall_forall _ _) Hd)), Hc. cbn [foldM bind app]. unfold low. cbn. now rewrite app_nil_r. }
  rewrite E0. cbn [bind]. pose proof (fold_low d dinit) as H.
  destruct (foldM (d_step p) dinit d) as [st|e| |] eqn:E; cbn [lowered bind] in *.
  - destruct H as (v & -> & ->). cbn [bind]. apply fold_in in E as (I1 & I2 & I3). cbn [dinit ds_pre ds_trail app ncmd] in *.
    assert (SP : forall x, In x (a ++ dn2 (ds_pre st)) -> In x (a ++ dn2 d)).
    { intros x H. apply in_app_or in H as [H|H]; apply in_or_app; [auto|right]. apply in_map_iff in H as (y & <- & H). now apply in_map, I1. }
    assert (ST : forall x, In x (dn2 (ds_trail st)) -> In x (a ++ dn2 d)).
    { intros x H. apply in_or_app; right. apply in_map_iff in H as (y & <- & H). now apply in_map, I2. }
    change (ncmd []) with 0%nat in I3.
    assert (RP : in_range (a ++ dn2 (ds_pre st))) by (apply (range_any _ (a ++ dn2 d)); [exact SP|rewrite !ncmd_app, !ncmd_below; lia|exact R]).
    assert (RT : in_range (dn2 (ds_trail st))) by (apply (range_any _ (a ++ dn2 d)); [exact ST|rewrite !ncmd_app, !ncmd_below; lia|exact R]).
    pose proof (u32_sub _ _ SP U) as UP. pose proof (u32_sub _ _ ST U) as UT. pose proof (range_app _ _ RP) as RP'. 
    assert (UP' : u32_lines (dn2 (ds_pre st))) by (apply (u32_sub _ (a ++ dn2 (ds_pre st))); [intros; apply in_or_app; auto|exact UP]).
    rewrite (sections_plain (low st)) by assumption. rewrite (sections_plain st) by (eapply up_range || eapply up_u32; eassumption).
    cbn [low ds_pre ds_trail ds_construct].
    pose proof (lists_below k p (ds_pre st) RP' UP' (fun c H => L c (I1 c H))) as LP. pose proof (lists_below k p (ds_trail st) RT UT (fun c H => L c (I2 c H))) as LT.
    pose proof (maths_app p a (dn2 (ds_pre st)) oa Ha) as MA.
    destruct (maths_from_chunks p (ds_pre st)) as [op|e| |]; cbn [bind]; [|destruct LP as (e' & LP & T & _); rewrite LP in MA; destruct MA as (e2 & -> & T2); exists e2; cbn [bind]; split; congruence|rewrite LP in MA; rewrite MA; reflexivity|contradiction].
    rewrite LP in MA. rewrite MA. cbn [bind].
    destruct (maths_from_chunks p (ds_trail st)) as [ot|e| |]; cbn [bind]; [|destruct LT as (e' & -> & T & _); exists e'; cbn [bind]; now split|rewrite LT; reflexivity|contradiction].
    rewrite LT. reflexivity.
  - destruct H as (e' & -> & H & _). exists e'. now split.
  - now rewrite H.
  - exfalso. apply (proj1 (try_from3_runs p d)). rewrite try_from3_sections, E. reflexivity.
Qed.
End K.

(** ** Sources *)
Lemma parsed_low p s d : source_fits s -> from_str2 p s = Ok d -> forall c, In c d -> 1 <= line_no2 c.
Proof.
  intros B H c Hc. apply in_split in Hc as (pre & post & E). assert (W : within2 d d) by constructor. pose proof (from_str2_placed p s d B H d W pre c post E) as P.
  destruct c as [l [?|?|?|[? ? ? ? ?]]]; cbn [placed2 line_no2] in *; lia.
Qed.
Lemma alone_preamble p d sd : in_range d -> u32_lines d -> (forall c, In c d -> ~ is_document c) -> class_commands d = [] -> try_from3 p d = Ok sd ->
  maths_from_chunks p d = Ok (d_preamable sd).
Proof.
  intros R U Hd Hc. rewrite try_from3_sections, dinit_base, (fold_pre p d (proj2 (Forall_forall _ _) Hd)), Hc. cbn [foldM bind app]. unfold sections. cbn [ds_pre ds_construct ds_trail].
  rewrite <- bind_bind, maths_par by assumption. destruct (maths_from_chunks p d) as [o|e| |]; cbn [bind]; try discriminate.
  destruct (let* trail := maths_from_chunks p [] in paragraph_from_chunks p trail) eqn:E; rewrite <- bind_bind, E; cbn [bind]; try discriminate. intros K. injection K as <-. reflexivity.
Qed.

Theorem source_below p s t a d sd : source_fits (s ++ t) -> count_newlines (s ++ t) < 2147483648 ->
  from_str2 p s = Ok a -> from_str2 p t = Ok d -> from_str2 p (s ++ t) = Ok (a ++ map (below2 (count_newlines s)) d) ->
  (forall c, In c a -> ~ is_document c) -> class_commands a = [] -> from_str3 p s = Ok sd ->
  match from_str3 p t with
  | Ok d3 => from_str3 p (s ++ t) = Ok (below_document3 (d_preamable sd) (count_newlines s) d3)
  | Err e => exists e', from_str3 p (s ++ t) = Err e' /\ err_type e' = err_type e
  | Panic => from_str3 p (s ++ t) = Panic
  | OutOfFuel => False
  end.
Proof.
  intros B N Hs Ht Hx Hd Hc H3. destruct (Concat1.fits_app _ _ B) as [Bs Bt]. unfold from_str3 in *. rewrite Ht, Hx, Hs in *. cbn [bind] in *.
  destruct (parsed_fits p _ _ B N Hx) as [R U]. rewrite count_newlines_app in N. assert (N1 : count_newlines s < 2147483648) by lia.
  destruct (parsed_fits p _ _ Bs N1 Hs) as [Rs Us].
  apply (document_below p (count_newlines s) a d (d_preamable sd) R U (parsed_low p t d Bt Ht) Hd Hc). now apply alone_preamble.
Qed.

Theorem source_settled p s t a1 a sd : source_fits (s ++ t) -> count_newlines (s ++ t) < 2147483648 -> clean_end s ->
  from_str1 p s = Ok a1 -> SpecConcat.settled a1 -> from_str2 p s = Ok a -> (forall d, from_str2 p t = Ok d -> ~ seam a d) ->
  (forall c, In c a -> ~ is_document c) -> class_commands a = [] -> from_str3 p s = Ok sd ->
  match from_str3 p t with
  | Ok d3 => from_str3 p (s ++ t) = Ok (below_document3 (d_preamable sd) (count_newlines s) d3)
  | Err e => exists e', from_str3 p (s ++ t) = Err e' /\ err_type e' = err_type e
  | Panic => from_str3 p (s ++ t) = Panic
  | OutOfFuel => False
  end.
Proof.
  intros B N C H1 S H2 NS Hd Hc H3. assert (T : try_from2 p a1 = Ok a) by (unfold from_str2 in H2; rewrite H1 in H2; exact H2).
  destruct (Concat1.fits_app _ _ B) as [Bs Bt]. destruct (from_str2_total p t Bt) as [[d Ht]|[e Ht]].
  - destruct (concat_ok2 p p p s t a1 a d B C S H1 T Ht) as (x & G & Hx). apply (source_below p s t a d sd B N H2 Ht); [|exact Hd|exact Hc|exact H3].
    rewrite Hx. f_equal. specialize (NS d Ht). inversion G as [d0 l x0 l' y e Ea Ee|d0 e K]; subst; [|reflexivity].
    exfalso. apply NS. destruct d as [|[l0 v0] d]; [discriminate|]. injection Ee as _ Ev _. subst. do 6 eexists. split; reflexivity.
  - destruct (concat_error2 p p p s t a1 a e B C S H1 T Ht) as (e' & Hx & K & _). unfold from_str3. rewrite Ht, Hx. cbn [bind]. eauto.
Qed.
Theorem source_word p s t a0 l x lab args b1 a sd : source_fits (s ++ t) -> count_newlines (s ++ t) < 2147483648 -> clean_end s ->
  from_str1 p s = Ok (a0 ++ [mkChunk1 l (Command1 (mkCommand1 (x :: lab) args))]) -> is_ascii_alphabetic x = true -> from_str2 p s = Ok a ->
  from_str1 p t = Ok b1 -> after_word (negb (is_empty args)) b1 = true ->
  (forall c, In c a -> ~ is_document c) -> class_commands a = [] -> from_str3 p s = Ok sd ->
  match from_str3 p t with
  | Ok d3 => from_str3 p (s ++ t) = Ok (below_document3 (d_preamable sd) (count_newlines s) d3)
  | Err e => exists e', from_str3 p (s ++ t) = Err e' /\ err_type e' = err_type e
  | Panic => from_str3 p (s ++ t) = Panic
  | OutOfFuel => False
  end.
Proof.
  intros B N C H1 Hx H2 Hb Ha Hd Hc H3. pose proof (concat_word p p p s t a0 l x lab args b1 B C H1 Hx Hb Ha) as Hst.
  destruct (Concat1.fits_app _ _ B) as [Bs Bt].
  assert (T : try_from2 p (a0 ++ [mkChunk1 l (Command1 (mkCommand1 (x :: lab) args))]) = Ok a) by (unfold from_str2 in H2; rewrite H1 in H2; exact H2).
  apply (try_from2_converts p _ a) in T; [|exists p, s; auto].
  destruct (from_str2_total p t Bt) as [[d Ht]|[e Ht]].
  - apply (source_below p s t a d sd B N H2 Ht); [|exact Hd|exact Hc|exact H3]. unfold from_str2 in Ht |- *. rewrite Hb in Ht. rewrite Hst. cbn [bind] in *.
    apply (try_from2_converts p b1 d) in Ht; [|exists p, t; auto]. apply (proj1 (converts_below_both (count_newlines s))) in Ht.
    apply (try_from2_converts p _ _); [exists p, (s ++ t); auto|]. pose proof (converts_app _ _ T _ _ Ht) as K. rewrite <- app_assoc in K. exact K.
  - unfold from_str3. rewrite Ht. unfold from_str2 in Ht |- *. rewrite Hb in Ht. rewrite Hst. cbn [bind] in *.
    apply (try_from2_rejects p b1 e) in Ht; [|exists p, t; auto]. apply (rejects_below (count_newlines s)) in Ht as (e' & Ht & K & _).
    pose proof (rejects_after _ _ _ _ T Ht) as R. rewrite <- app_assoc in R. exists e'. split; [|exact K].
    assert (R2 : try_from2 p (a0 ++ mkChunk1 l (Command1 (mkCommand1 (x :: lab) args)) :: map (below1 (count_newlines s)) b1) = Err e') by (apply (try_from2_rejects p _ _); [exists p, (s ++ t); auto|exact R]).
    rewrite R2. reflexivity.
Qed.
