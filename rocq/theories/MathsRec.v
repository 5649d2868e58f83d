(** * MathsRec: maths recognition chunk by chunk *)
From Verif Require Import Base Ast1 Parse1 Ast2 Ast3 SpecMaths3 Ind Lines Eqb Refine1 Facts1 Valid1 Par3 Maths3 MathsRun Mono.
From Coq Require Import Lia.

(** ** The recursion equation, free of fuel *)
Lemma maths_fuel_rec p n x : leq false (maths_fuel n p x) (maths_from_chunks p x).
Proof.
  unfold maths_from_chunks. destruct (Nat.lt_ge_cases (size2 x) n) as [H|H].
  - destruct (maths_fuel_leq false p p (or_introl eq_refl) (S (size2 x)) n x) as [K|K]; [right; split; [reflexivity|exact H]|..].
    + exfalso. revert K. apply (maths_fuel_runs p). lia.
    + right. now symmetry.
  - apply maths_fuel_leq; [now left|]. right. split; [reflexivity|lia].
Qed.
Theorem maths_unfold p cs : maths_from_chunks p cs =
  (let* st := foldM (m_step p (maths_from_chunks p)) minit cs in m_finish p st).
Proof.
  assert (K : leq false (maths_from_chunks p cs) (let* st := foldM (m_step p (maths_from_chunks p)) minit cs in m_finish p st)).
  { unfold maths_from_chunks at 1. cbn [maths_fuel]. cbv zeta. apply leq_bind; [|intros; apply leq_refl].
    apply leq_foldM. intros. apply m_step_leq; [now left|]. intros. apply maths_fuel_rec. }
  destruct K as [K|K]; [|exact K]. exfalso. revert K. apply maths_runs.
Qed.

(** ** Paragraphs distribute over concatenation *)
Lemma par_chunk_frame {E} p new c : @par_chunk E p new c = let* o := @par_chunk E p [] c in Ok (new ++ o).
Proof.
  destruct c as [L v]. destruct v; try reflexivity. cbn [par_chunk].
  assert (F : forall s a line text tline buf bline consec,
    foldM (@par_step E p) (mkPar (new ++ a) line text tline buf bline consec) s =
    let* st := foldM (@par_step E p) (mkPar a line text tline buf bline consec) s in
    Ok (mkPar (new ++ pa_new st) (pa_line st) (pa_text st) (pa_text_line st) (pa_buf st) (pa_buf_line st) (pa_consec st))).
  { clear. induction s as [|c s IH]; intros; cbn [foldM]; [reflexivity|]. unfold par_step at 1 3.
    destruct ((c =? c_newline) && (consec =? 1)%Z).
    { destruct (inc_i32 p consec) as [z|e| |]; cbn [bind]; try reflexivity. destruct (add32 p line 1) as [l|e| |]; cbn [bind]; try reflexivity.
      destruct (negb (is_empty text)); [rewrite <- app_assoc|]; apply IH. }
    destruct (c =? c_newline).
    { destruct (inc_i32 p consec) as [z|e| |]; cbn [bind]; try reflexivity. destruct (add32 p line 1) as [l|e| |]; cbn [bind]; try reflexivity. apply IH. }
    destruct (is_whitespace c && (consec =? 0)%Z); [apply IH|]. destruct (is_whitespace c); [apply IH|].
    destruct (consec =? 0)%Z; [apply IH|]. destruct (consec =? 1)%Z; [apply IH|]. cbn [bind]. rewrite <- app_assoc. apply IH. }
  specialize (F s [] L [] L [] L 0%Z). rewrite app_nil_r in F. rewrite F. clear F.
  destruct (foldM (par_step p) _ s) as [st|e| |]; cbn [bind]; try reflexivity.
  destruct st as [n line text tline buf bline consec]. cbn [pa_new pa_line pa_text pa_text_line pa_buf pa_buf_line pa_consec par_finish].
  f_equal. destruct (negb (is_empty buf)).
  - destruct (consec >? 1)%Z; [now rewrite <- app_assoc|]. destruct (negb (is_empty (text ++ buf))); [now rewrite <- app_assoc|reflexivity].
  - destruct (negb (is_empty text)); [|reflexivity]. destruct (negb (is_empty (text ++ buf))); [now rewrite <- app_assoc|reflexivity].
Qed.
Lemma par_cons {E} p c cs : @paragraph_from_chunks E p (c :: cs) = let* a := @par_chunk E p [] c in let* b := paragraph_from_chunks p cs in Ok (a ++ b).
Proof.
  assert (F : forall cs new, foldM (@par_chunk E p) new cs = let* b := foldM (par_chunk p) [] cs in Ok (new ++ b)).
  { clear. induction cs as [|c cs IH]; intros new; cbn [foldM]; [cbn [bind]; now rewrite app_nil_r|]. rewrite par_chunk_frame.
    destruct (par_chunk p [] c) as [o|e| |]; cbn [bind]; try reflexivity. rewrite IH, (IH o). destruct (foldM _ [] cs); cbn [bind]; try reflexivity. now rewrite app_assoc. }
  unfold paragraph_from_chunks. cbn [foldM]. destruct (par_chunk p [] c) as [o|e| |]; cbn [bind]; try reflexivity. apply F.
Qed.
Lemma par_app {E} p a b : @paragraph_from_chunks E p (a ++ b) =
  let* x := paragraph_from_chunks p a in let* y := paragraph_from_chunks p b in Ok (x ++ y).
Proof.
  induction a as [|c a IH]; cbn [app].
  - change (paragraph_from_chunks p []) with (@Ok E (list chunk3) []). cbn [bind app]. now destruct (paragraph_from_chunks p b).
  - rewrite !par_cons, IH. destruct (par_chunk p [] c) as [o|e| |]; cbn [bind]; try reflexivity.
    destruct (paragraph_from_chunks p a) as [x|e| |]; cbn [bind]; try reflexivity.
    destruct (paragraph_from_chunks p b) as [y|e| |]; cbn [bind]; try reflexivity. now rewrite app_assoc.
Qed.

(** ** What the chunks after a block see of the state: neither the output, nor a stale depth or line *)
Definition sim (o : list chunk3) (st st' : mstate) : Prop :=
  ms_out st = o ++ ms_out st' /\ ms_mode st = ms_mode st' /\ ms_buffer st = ms_buffer st' /\
  (is_br (ms_mode st') = true -> ms_depth st = ms_depth st' /\ ms_bline st = ms_bline st').
Definition simM (o : list chunk3) (m m' : mtext) : Prop :=
  sim o (mt_st m) (mt_st m') /\ mt_cursor m = mt_cursor m' /\ mt_text m = mt_text m' /\ mt_line m = mt_line m'.
Definition same {A} (R : A -> A -> Prop) (x y : outcome error A) : Prop :=
  match y with
  | Ok t' => exists t, x = Ok t /\ R t t'
  | Err e => x = Err e
  | Panic => x = Panic
  | OutOfFuel => x = OutOfFuel
  end.
Lemma same_bind {A B} (R : A -> A -> Prop) (Q : B -> B -> Prop) x y f g :
  same R x y -> (forall a b, R a b -> same Q (f a) (g b)) -> same Q (bind x f) (bind y g).
Proof.
  intros H K. destruct y as [b|e| |]; cbn [same] in H; [|subst x; reflexivity..]. destruct H as (a & -> & H). cbn [bind]. now apply K.
Qed.
Lemma same_eq {A B} (Q : B -> B -> Prop) (x : outcome error A) f g :
  (forall a, same Q (f a) (g a)) -> same Q (bind x f) (bind x g).
Proof. intros K. destruct x; cbn [bind]; [apply K|reflexivity..]. Qed.
Lemma same_ok {A} (R : A -> A -> Prop) a b : R a b -> same R (Ok a) (Ok b). Proof. intros H. now exists a. Qed.
Lemma same_foldM {S A} (R : S -> S -> Prop) (f : S -> A -> outcome error S) l :
  (forall s s' a, R s s' -> same R (f s a) (f s' a)) -> forall s s', R s s' -> same R (foldM f s l) (foldM f s' l).
Proof.
  intros H. induction l as [|a l IH]; intros s s' K; cbn [foldM]; [now apply same_ok|]. apply (same_bind R); [now apply H|]. intros; now apply IH.
Qed.

Section Sim.
  Context (p : profile) (rec : list chunk2 -> outcome error (list chunk3)) (o : list chunk3).
  Ltac split_sim := repeat split.
  Lemma push_out_sim c st st' : sim o st st' -> sim o (m_push_out st c) (m_push_out st' c).
  Proof. intros (H1 & H2 & H3 & H4). unfold m_push_out. split; [cbn [ms_out]; rewrite H1; now rewrite app_assoc|]. split; [exact H2|]. split; [exact H3|exact H4]. Qed.
  Lemma push_buffer_sim c st st' : sim o st st' -> sim o (m_push_buffer st c) (m_push_buffer st' c).
  Proof. intros (H1 & H2 & H3 & H4). unfold m_push_buffer. split; [exact H1|]. split; [exact H2|]. split; [cbn [ms_buffer]; now rewrite H3|exact H4]. Qed.
  Lemma set_depth_sim d st st' : sim o st st' -> sim o (m_set_depth st d) (m_set_depth st' d).
  Proof. intros (H1 & H2 & H3 & H4). unfold m_set_depth. split; [exact H1|]. split; [exact H2|]. split; [exact H3|]. cbn [ms_mode ms_depth ms_bline]. intros K. split; [reflexivity|now apply H4]. Qed.
  Lemma push_str_sim m m' : simM o m m' -> simM o (mt_push_str m) (mt_push_str m').
  Proof.
    intros (H1 & H2 & H3 & H4). unfold mt_push_str. rewrite H3. destruct (negb (is_empty (mt_text m'))); [|now repeat split; try apply H1].
    split; [rewrite H4; cbn [mt_st]; now apply push_out_sim|]. cbn [mt_cursor mt_text mt_line]. auto.
  Qed.
  Lemma set_mode_sim d m m' : is_br d = false -> simM o m m' -> simM o (mt_set_mode m d) (mt_set_mode m' d).
  Proof.
    intros Hd ((H1 & H2 & H3 & H4) & H5 & H6 & H7). unfold mt_set_mode. split; [|cbn; auto]. cbn [mt_st].
    split; [exact H1|]. split; [reflexivity|]. split; [exact H3|]. cbn [ms_mode]. rewrite Hd. discriminate.
  Qed.
  Lemma close_sim t m m' : simM o m m' -> same (simM o) (mt_close p rec m t) (mt_close p rec m' t).
  Proof.
    intros ((H1 & H2 & H3 & H4) & H5 & H6 & H7). unfold mt_close. rewrite H6, H3, H7. apply same_eq. intros sh. apply same_eq. intros co.
    apply same_ok. split; [|cbn; rewrite H5; auto]. cbn [mt_st]. split; [cbn [ms_out]; rewrite H1; now rewrite app_assoc|]. repeat split. discriminate. discriminate.
  Qed.
  Lemma mt_step_sim c m m' : simM o m m' -> same (simM o) (mt_step p rec m c) (mt_step p rec m' c).
  Proof.
    intros H. destruct (N.eq_dec c c_dollar) as [->|Hc].
    - rewrite !mt_step_dollar. assert (Hm : ms_mode (mt_st m) = ms_mode (mt_st m')) by apply H. rewrite Hm.
      destruct (ms_mode (mt_st m')) as [[|]|[|]| |].
      + now apply same_ok.
      + destruct H as (H1 & H2 & H3 & H4). assert (Hb : ms_buffer (mt_st m) = ms_buffer (mt_st m')) by apply H1. rewrite H3, Hb.
        destruct (is_empty _ && is_empty _); [apply same_ok, set_mode_sim; [reflexivity|split; auto]|].
        apply close_sim. split; auto.
      + now apply same_ok.
      + now apply same_ok, set_mode_sim.
      + now apply close_sim.
      + cbv zeta. apply same_ok. pose proof (set_mode_sim (SingleDollar Dollars) _ _ eq_refl (push_str_sim _ _ H)) as (K1 & K2 & K3 & K4).
        split; [exact K1|]. cbn [mt_cursor mt_text mt_line]. auto.
    - rewrite !mt_step_char by exact Hc. destruct H as (H1 & H2 & H3 & H4). rewrite H2. apply same_eq. intros cur. apply same_ok. split; [exact H1|].
      cbn [mt_cursor mt_text mt_line]. rewrite H3. auto.
  Qed.
  Lemma m_step_sim c st st' : sim o st st' -> same (sim o) (m_step p rec st c) (m_step p rec st' c).
  Proof.
    intros H. destruct c as [l v]. assert (Hm : ms_mode st = ms_mode st') by apply H. assert (Hb : ms_buffer st = ms_buffer st') by apply H.
    destruct (match v with Text2 _ => true | _ => false end) eqn:Ev.
    - destruct v as [s| | |]; try discriminate. unfold m_step. rewrite Hm. destruct (is_single_br (ms_mode st') || is_double_br (ms_mode st')); cbn [negb].
      + now apply same_ok, push_buffer_sim.
      + unfold m_text. apply (same_bind (simM o)).
        * apply same_foldM; [intros; now apply mt_step_sim|]. split; [exact H|auto].
        * intros a b K. apply same_ok. now apply push_str_sim.
    - assert (Hv : not_text v) by (destruct v; [discriminate|exact I..]). rewrite !m_step_other by exact Hv. unfold m_other. rewrite Hm, Hb.
      assert (BR : forall t, is_br (ms_mode st') = true -> same (sim o)
        (match kind v with
         | Some (o0, t0) => if teqb t0 t then if o0 then let* d := add32 p (ms_depth st) 1 in Ok (m_set_depth st d)
             else if ms_depth st =? 1 then m_close_brackets rec st t else let* d := sub32 p (ms_depth st) 1 in Ok (m_set_depth st d)
             else Ok (m_push_buffer st (mkChunk2 l v))
         | None => Ok (m_push_buffer st (mkChunk2 l v)) end)
        (match kind v with
         | Some (o0, t0) => if teqb t0 t then if o0 then let* d := add32 p (ms_depth st') 1 in Ok (m_set_depth st' d)
             else if ms_depth st' =? 1 then m_close_brackets rec st' t else let* d := sub32 p (ms_depth st') 1 in Ok (m_set_depth st' d)
             else Ok (m_push_buffer st' (mkChunk2 l v))
         | None => Ok (m_push_buffer st' (mkChunk2 l v)) end)).
      { intros t Hbr. assert (HD : ms_depth st = ms_depth st' /\ ms_bline st = ms_bline st') by (apply H; exact Hbr). destruct HD as [HD HL]. rewrite HD.
        destruct (kind v) as [[op t0]|]; [destruct (teqb t0 t); [destruct op|]|]; try (now apply same_ok, push_buffer_sim).
        - apply same_eq. intros; now apply same_ok, set_depth_sim.
        - destruct (ms_depth st' =? 1); [|apply same_eq; intros; now apply same_ok, set_depth_sim].
          unfold m_close_brackets. rewrite Hb, HL. apply same_eq. intros co. apply same_ok. split; [cbn [ms_out]; rewrite (proj1 H); now rewrite app_assoc|]. repeat split. }
      destruct (ms_mode st') as [[|]|[|]| |] eqn:Em; try (now apply same_ok, push_buffer_sim); try (apply BR; reflexivity).
      destruct (kind v) as [[[|] t]|].
      + apply same_ok. split; [apply H|]. repeat split.
      + reflexivity.
      + apply same_eq. intros v3. now apply same_ok, push_out_sim.
  Qed.
  Lemma fold_sim cs st st' : sim o st st' -> same (sim o) (foldM (m_step p rec) st cs) (foldM (m_step p rec) st' cs).
  Proof. apply same_foldM. intros; now apply m_step_sim. Qed.
End Sim.

(** in text mode nothing is buffered *)
Definition clean (st : mstate) : Prop := ms_mode st = MNone -> ms_buffer st = [].
Lemma clean_fold p rec cs : forall st st', clean st -> foldM (m_step p rec) st cs = Ok st' -> clean st'.
Proof.
  assert (T : forall s m m', clean (mt_st m) -> foldM (mt_step p rec) m s = Ok m' -> clean (mt_st m')).
  { induction s as [|c s IH]; intros m m' H E; cbn [foldM] in E; [injection E as <-; exact H|].
    destruct (mt_step p rec m c) as [m1|e| |] eqn:Es; cbn [bind] in E; try discriminate. apply (IH m1); [|exact E]. clear IH E.
    destruct (N.eq_dec c c_dollar) as [->|Hc].
    - rewrite mt_step_dollar in Es.
      assert (CL : forall t, mt_close p rec m t = Ok m1 -> clean (mt_st m1)) by (intros t K; apply mt_close_ok in K as (sh & co & _ & _ & ->); intros _; reflexivity).
      destruct (ms_mode (mt_st m)) as [[|]|[|]| |] eqn:Em; eauto.
      + injection Es as <-. exact H.
      + destruct (is_empty _ && is_empty _); [injection Es as <-; intros K; discriminate K|eauto].
      + injection Es as <-. exact H.
      + injection Es as <-. intros K. discriminate K.
      + injection Es as <-. intros K. discriminate K.
    - rewrite mt_step_char in Es by exact Hc. destruct (if c =? c_newline then _ else _) as [x|e| |]; cbn [bind] in Es; try discriminate. injection Es as <-. exact H. }
  induction cs as [|[l v] cs IH]; intros st st' H E; cbn [foldM] in E; [injection E as <-; exact H|].
  destruct (m_step p rec st (mkChunk2 l v)) as [st1|e| |] eqn:Es; cbn [bind] in E; try discriminate. apply (IH st1); [|exact E]. clear IH E.
  destruct (match v with Text2 _ => true | _ => false end) eqn:Ev.
  - destruct v as [s| | |]; try discriminate. unfold m_step in Es. destruct (is_single_br (ms_mode st) || is_double_br (ms_mode st)) eqn:Eb; cbn [negb] in Es.
    + injection Es as <-. intros K. cbn in K. rewrite K in Eb. discriminate Eb.
    + unfold m_text in Es. destruct (foldM (mt_step p rec) _ s) as [m|e| |] eqn:Ef; cbn [bind] in Es; try discriminate. injection Es as <-.
      assert (K : clean (mt_st m)) by (eapply T; [|exact Ef]; exact H). unfold clean in *. rewrite push_str_mode. intros K2. rewrite <- (K K2). unfold mt_push_str. now destruct (negb _).
  - assert (Hv : not_text v) by (destruct v; [discriminate|exact I..]). rewrite m_step_other in Es by exact Hv. unfold m_other in Es.
    assert (BR : forall t, ms_mode st <> MNone ->
        match kind v with
         | Some (o0, t0) => if teqb t0 t then if o0 then let* d := add32 p (ms_depth st) 1 in Ok (m_set_depth st d)
             else if ms_depth st =? 1 then m_close_brackets rec st t else let* d := sub32 p (ms_depth st) 1 in Ok (m_set_depth st d)
             else Ok (m_push_buffer st (mkChunk2 l v))
         | None => Ok (m_push_buffer st (mkChunk2 l v)) end = Ok st1 -> clean st1).
    { intros t Hn. destruct (kind v) as [[op t0]|]; [destruct (teqb t0 t); [destruct op|]|].
      - destruct (add32 p _ 1); cbn [bind]; try discriminate. intros E. injection E as <-. intros K. now elim Hn.
      - destruct (ms_depth st =? 1).
        + unfold m_close_brackets. destruct (rec _); cbn [bind]; try discriminate. intros E. injection E as <-. intros _. reflexivity.
        + destruct (sub32 p _ 1); cbn [bind]; try discriminate. intros E. injection E as <-. intros K. now elim Hn.
      - intros E. injection E as <-. intros K. now elim Hn.
      - intros E. injection E as <-. intros K. now elim Hn. }
    destruct (ms_mode st) as [[|]|[|]| |] eqn:Em; try (injection Es as <-; intros K; cbn in K; congruence); try (eapply BR; [|exact Es]; discriminate).
    destruct (kind v) as [[[|] t]|]; [injection Es as <-; intros K; destruct t; discriminate K|discriminate|].
    destruct (conv_variant p rec v) as [v3|e| |]; cbn [bind] in Es; try discriminate. injection Es as <-. intros _. cbn. now apply H.
Qed.

(** ** Bracket blocks *)
Lemma kind_opener t args : kind (Command2 (mkCommand2 [opener t] args)) = Some (true, t). Proof. now destruct t. Qed.
Lemma kind_closer t args : kind (Command2 (mkCommand2 [closer t] args)) = Some (false, t). Proof. now destruct t. Qed.
Lemma kind_some v b t : kind v = Some (b, t) -> has_label [if b then opener t else closer t] v.
Proof.
  unfold kind. destruct v as [s|[lab args]|s|e]; try discriminate.
  destruct (str_eqb lab [c_lround]) eqn:E1; [apply str_eqb_iff in E1; subst; intros K; injection K as <- <-; now exists args|].
  destruct (str_eqb lab [c_lsquare]) eqn:E2; [apply str_eqb_iff in E2; subst; intros K; injection K as <- <-; now exists args|].
  destruct (str_eqb lab [c_rround]) eqn:E3; [apply str_eqb_iff in E3; subst; intros K; injection K as <- <-; now exists args|].
  destruct (str_eqb lab [c_rsquare]) eqn:E4; [apply str_eqb_iff in E4; subst; intros K; injection K as <- <-; now exists args|discriminate].
Qed.
Lemma kind_label (b : bool) t v : has_label [if b then opener t else closer t] v -> kind v = Some (b, t).
Proof. intros [args ->]. destruct b; [apply kind_opener|apply kind_closer]. Qed.

(** +1 for an opener of kind [t], -1 for a closer *)
Definition delta (t : maths_type) (v : variant2) : option bool :=
  match kind v with Some (b, t0) => if teqb t0 t then Some b else None | None => None end.
Lemma teqb_iff a b : teqb a b = true <-> a = b. Proof. destruct a, b; cbn; split; congruence. Qed.
Lemma delta_open t v : delta t v = Some true <-> has_label [opener t] v.
Proof.
  unfold delta. split.
  - destruct (kind v) as [[b t0]|] eqn:E; [|discriminate]. destruct (teqb t0 t) eqn:Et; [|discriminate]. apply teqb_iff in Et. subst. intros K. injection K as ->. exact (kind_some _ _ _ E).
  - intros H. rewrite (kind_label true t v H). now rewrite (proj2 (teqb_iff t t) eq_refl).
Qed.
Lemma delta_close t v : delta t v = Some false <-> has_label [closer t] v.
Proof.
  unfold delta. split.
  - destruct (kind v) as [[b t0]|] eqn:E; [|discriminate]. destruct (teqb t0 t) eqn:Et; [|discriminate]. apply teqb_iff in Et. subst. intros K. injection K as ->. exact (kind_some _ _ _ E).
  - intros H. rewrite (kind_label false t v H). now rewrite (proj2 (teqb_iff t t) eq_refl).
Qed.
Lemma br_step p rec t o d buf bl l v : m_step p rec (mkM o (br t) d buf bl) (mkChunk2 l v) =
  match delta t v with
  | None => Ok (mkM o (br t) d (buf ++ [mkChunk2 l v]) bl)
  | Some true => let* d := add32 p d 1 in Ok (mkM o (br t) d buf bl)
  | Some false => if d =? 1 then let* co := rec buf in Ok (mkM (o ++ [mkChunk3 bl (Maths3 (mkMaths3 Brackets t co))]) MNone 0 [] bl)
                  else let* d := sub32 p d 1 in Ok (mkM o (br t) d buf bl)
  end.
Proof.
  destruct (match v with Text2 _ => true | _ => false end) eqn:Ev.
  - destruct v; try discriminate. now destruct t.
  - assert (Hv : not_text v) by (destruct v; [discriminate|exact I..]). rewrite m_step_other by exact Hv. unfold m_other, delta.
    destruct t; cbn [br ms_mode]; (destruct (kind v) as [[op t0]|]; [|reflexivity]); destruct (teqb t0 _); try reflexivity; destruct op; reflexivity.
Qed.

Lemma nesting_fold p rec t o bl d body kept d' : nesting t d body kept d' -> d + N.of_nat (length body) < two32 ->
  forall buf, foldM (m_step p rec) (mkM o (br t) d buf bl) body = Ok (mkM o (br t) d' (buf ++ kept) bl).
Proof.
  induction 1 as [d|d l v body k d' Hv H IH|d l v body k d' Hv Hd H IH|d l v body k d' H1 H2 H IH]; intros HL buf; cbn [foldM]; try rewrite br_step.
  - now rewrite app_nil_r.
  - rewrite (proj2 (delta_open t v) Hv). rewrite add32_ok by (cbn [length] in HL; lia). cbn [bind]. apply IH. cbn [length] in HL. lia.
  - rewrite (proj2 (delta_close t v) Hv). destruct (N.eqb_spec (d + 1) 1) as [K|K]; [lia|]. rewrite sub32_ok by lia. cbn [bind]. replace (d + 1 - 1) with d by lia. apply IH. cbn [length] in HL. lia.
  - destruct (delta t v) as [[|]|] eqn:E; [apply delta_open in E; now elim H1|apply delta_close in E; now elim H2|]. cbn [bind]. rewrite IH by (cbn [length] in HL; lia).
    now rewrite <- app_assoc.
Qed.
Lemma no_same_fold p rec t o bl d body : (forall l v, In (mkChunk2 l v) body -> ~ has_label [opener t] v /\ ~ has_label [closer t] v) ->
  forall buf, foldM (m_step p rec) (mkM o (br t) d buf bl) body = Ok (mkM o (br t) d (buf ++ body) bl).
Proof.
  induction body as [|[l v] body IH]; intros H buf; cbn [foldM]; [now rewrite app_nil_r|]. rewrite br_step. destruct (H l v (or_introl eq_refl)) as [H1 H2].
  destruct (delta t v) as [[|]|] eqn:E; [apply delta_open in E; now elim H1|apply delta_close in E; now elim H2|]. cbn [bind]. rewrite IH; [now rewrite <- app_assoc|]. intros l' v' Hi. apply (H l'). now right.
Qed.

(** the state after a list that converts *)
Lemma maths_ok_state p cs out : maths_from_chunks p cs = Ok out ->
  exists st, foldM (m_step p (maths_from_chunks p)) minit cs = Ok st /\ ms_mode st = MNone /\ ms_buffer st = [] /\
    paragraph_from_chunks p (ms_out st) = @Ok error _ out.
Proof.
  rewrite maths_unfold. destruct (foldM _ minit cs) as [st|e| |] eqn:Ef; cbn [bind]; try discriminate. unfold m_finish.
  destruct (is_none (ms_mode st)) eqn:En; cbn [negb]; [|discriminate]. intros E. exists st. assert (ms_mode st = MNone) by (destruct (ms_mode st); try discriminate En; reflexivity).
  repeat split; try assumption. eapply clean_fold; [|exact Ef|assumption]. intros _. reflexivity.
Qed.
Lemma foldM_app' {E A T} (f : T -> A -> outcome E T) s a b : foldM f s (a ++ b) = let* s' := foldM f s a in foldM f s' b.
Proof. revert s. induction a as [|x a IH]; intros s; cbn [app foldM]; [reflexivity|]. destruct (f s x); cbn [bind]; [apply IH|reflexivity..]. Qed.

(** text mode: what follows a converted list is read as if it stood alone *)
Lemma maths_app p a b oa : maths_from_chunks p a = Ok oa ->
  match maths_from_chunks p b with
  | Ok ob => maths_from_chunks p (a ++ b) = Ok (oa ++ ob)
  | Err e => exists e', maths_from_chunks p (a ++ b) = Err e' /\ err_type e' = err_type e
  | Panic => maths_from_chunks p (a ++ b) = Panic
  | OutOfFuel => False
  end.
Proof.
  intros Ha. apply maths_ok_state in Ha as (st & Ef & Hm & Hb & Hp).
  assert (HO : maths_from_chunks p b <> OutOfFuel) by apply maths_runs. revert HO.
  rewrite (maths_unfold p (a ++ b)), (maths_unfold p b), foldM_app', Ef. cbn [bind].
  assert (S : sim (ms_out st) st minit) by (split; [cbn; now rewrite app_nil_r|]; split; [exact Hm|]; split; [exact Hb|discriminate]).
  apply (fold_sim p (maths_from_chunks p) (ms_out st) b) in S. destruct (foldM _ minit b) as [st1|e| |]; cbn [same] in S; cbn [bind].
  - destruct S as (st2 & -> & S1 & S2 & S3 & S4). cbn [bind]. unfold m_finish. rewrite S2. destruct (negb (is_none (ms_mode st1))); [intros _; eexists; split; reflexivity|].
    rewrite S1, par_app, Hp. cbn [bind]. destruct (runs_par (E:=error) p (ms_out st1)) as [R1 R2]. destruct (paragraph_from_chunks p (ms_out st1)) as [ob|e| |] eqn:Eb; cbn [bind]; try reflexivity.
    + intros _. exists e. split; reflexivity.
    + congruence.
  - rewrite S. cbn [bind]. intros _. exists e. now split.
  - rewrite S. now cbn [bind].
  - congruence.
Qed.

Lemma maths_app_ok p a b oa ob : maths_from_chunks p a = Ok oa -> maths_from_chunks p b = Ok ob -> maths_from_chunks p (a ++ b) = Ok (oa ++ ob).
Proof. intros Ha Hb. pose proof (maths_app p a b oa Ha) as M. now rewrite Hb in M. Qed.

(** ** C30 *)
Theorem brackets_nested p t pre l args body kept l' args' co o : nesting t 1 body kept 1 -> N.of_nat (length body) + 1 < two32 ->
  maths_from_chunks p pre = Ok o -> maths_from_chunks p kept = Ok co ->
  maths_from_chunks p (pre ++ mkChunk2 l (Command2 (mkCommand2 [opener t] args)) :: body ++ [mkChunk2 l' (Command2 (mkCommand2 [closer t] args'))]) =
  Ok (o ++ [mkChunk3 l (Maths3 (mkMaths3 Brackets t co))]).
Proof.
  intros HN HL Ho Hco. assert (K : maths_from_chunks p (mkChunk2 l (Command2 (mkCommand2 [opener t] args)) :: body ++ [mkChunk2 l' (Command2 (mkCommand2 [closer t] args'))])
    = Ok [mkChunk3 l (Maths3 (mkMaths3 Brackets t co))]).
  { rewrite maths_unfold. unfold minit. cbn [foldM]. rewrite m_step_other by exact I. unfold m_other at 1. cbn [ms_mode]. rewrite kind_opener. cbn [bind ms_out ms_buffer]. rewrite foldM_app'.
    rewrite (nesting_fold p _ t [] l 1 body kept 1 HN) by lia. cbn [bind foldM app]. rewrite br_step. rewrite (proj2 (delta_close t _)) by (exists args'; reflexivity).
    change (1 =? 1) with true. cbn iota. cbn [app]. rewrite Hco. reflexivity. }
  exact (maths_app_ok _ _ _ _ _ Ho K).
Qed.
Theorem brackets_block p t pre l args body l' args' post o co o2 :
  (forall l v, In (mkChunk2 l v) body -> ~ has_label [opener t] v /\ ~ has_label [closer t] v) ->
  maths_from_chunks p pre = Ok o -> maths_from_chunks p body = Ok co -> maths_from_chunks p post = Ok o2 ->
  maths_from_chunks p (pre ++ mkChunk2 l (Command2 (mkCommand2 [opener t] args)) :: body ++ mkChunk2 l' (Command2 (mkCommand2 [closer t] args')) :: post) =
  Ok (o ++ mkChunk3 l (Maths3 (mkMaths3 Brackets t co)) :: o2).
Proof.
  intros HN Ho Hco Hp. assert (K : maths_from_chunks p (mkChunk2 l (Command2 (mkCommand2 [opener t] args)) :: body ++ [mkChunk2 l' (Command2 (mkCommand2 [closer t] args'))])
    = Ok [mkChunk3 l (Maths3 (mkMaths3 Brackets t co))]).
  { rewrite maths_unfold. unfold minit. cbn [foldM]. rewrite m_step_other by exact I. unfold m_other at 1. cbn [ms_mode]. rewrite kind_opener. cbn [bind ms_out ms_buffer]. rewrite foldM_app'.
    rewrite (no_same_fold p _ t [] l 1 body HN). cbn [bind foldM app]. rewrite br_step. rewrite (proj2 (delta_close t _)) by (exists args'; reflexivity).
    change (1 =? 1) with true. cbn iota. cbn [app]. rewrite Hco. reflexivity. }
  pose proof (maths_app_ok _ _ _ _ _ Ho (maths_app_ok _ _ _ _ _ K Hp)) as M2. cbn [app] in M2. rewrite <- M2. f_equal. f_equal. f_equal. now rewrite <- app_assoc.
Qed.
Theorem brackets_body_fails p t pre l args body l' args' post o :
  (forall l v, In (mkChunk2 l v) body -> ~ has_label [opener t] v /\ ~ has_label [closer t] v) ->
  maths_from_chunks p pre = Ok o -> (forall co, maths_from_chunks p body <> Ok co) ->
  maths_from_chunks p (pre ++ mkChunk2 l (Command2 (mkCommand2 [opener t] args)) :: body ++ mkChunk2 l' (Command2 (mkCommand2 [closer t] args')) :: post) =
  maths_from_chunks p body.
Proof.
  intros HN Ho Hco. apply maths_ok_state in Ho as (st & Ef & Hm & Hb & Hp). rewrite maths_unfold, foldM_app', Ef. cbn [bind foldM].
  rewrite m_step_other by exact I. unfold m_other at 1. rewrite Hm, kind_opener, Hb. cbn [bind]. rewrite foldM_app', (no_same_fold p _ t _ l 1 body HN). cbn [bind foldM app]. rewrite br_step.
  rewrite (proj2 (delta_close t _)) by (exists args'; reflexivity). change (1 =? 1) with true. cbn iota.
  destruct (maths_from_chunks p body) as [co|e| |]; cbn [bind]; try reflexivity. now elim (Hco co).
Qed.
Theorem stray_closer p t pre l args post o : maths_from_chunks p pre = Ok o ->
  maths_from_chunks p (pre ++ mkChunk2 l (Command2 (mkCommand2 [closer t] args)) :: post) = Err (mkError l UnexpectedMathsEnd).
Proof.
  intros Ho. apply maths_ok_state in Ho as (st & Ef & Hm & Hb & Hp). rewrite maths_unfold, foldM_app', Ef. cbn [bind foldM].
  rewrite m_step_other by exact I. unfold m_other at 1. rewrite Hm, kind_closer. reflexivity.
Qed.
Theorem unclosed_brackets p t pre l args body kept d o : maths_from_chunks p pre = Ok o ->
  nesting t 1 body kept d -> N.of_nat (length body) + 1 < two32 ->
  maths_from_chunks p (pre ++ mkChunk2 l (Command2 (mkCommand2 [opener t] args)) :: body) = Err (mkError l UnclosedMaths).
Proof.
  intros Ho HN HL. apply maths_ok_state in Ho as (st & Ef & Hm & Hb & Hp). rewrite maths_unfold, foldM_app', Ef. cbn [bind foldM].
  rewrite m_step_other by exact I. unfold m_other at 1. rewrite Hm, kind_opener, Hb. cbn [bind]. rewrite (nesting_fold p _ t _ l 1 body kept d HN) by lia. cbn [bind].
  now destruct t.
Qed.
Theorem unclosed_simple p t pre l args body o : maths_from_chunks p pre = Ok o ->
  (forall l v, In (mkChunk2 l v) body -> ~ has_label [opener t] v /\ ~ has_label [closer t] v) ->
  maths_from_chunks p (pre ++ mkChunk2 l (Command2 (mkCommand2 [opener t] args)) :: body) = Err (mkError l UnclosedMaths).
Proof.
  intros Ho HN. apply maths_ok_state in Ho as (st & Ef & Hm & Hb & Hp). rewrite maths_unfold, foldM_app', Ef. cbn [bind foldM].
  rewrite m_step_other by exact I. unfold m_other at 1. rewrite Hm, kind_opener, Hb. cbn [bind]. rewrite (no_same_fold p _ t _ l 1 body HN). cbn [bind].
  now destruct t.
Qed.
Lemma maths_app_err p a b oa e : maths_from_chunks p a = Ok oa -> maths_from_chunks p b = Err e ->
  exists e', maths_from_chunks p (a ++ b) = Err e' /\ err_type e' = err_type e.
Proof. intros Ha Hb. pose proof (maths_app p a b oa Ha) as M. now rewrite Hb in M. Qed.
