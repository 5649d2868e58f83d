(** * Prefix3: stage 3 of a beginning of a source, and of the whole source *)
From Coq Require Import Lia.
From Verif Require Import Base Ast1 Parse1 Ast2 Ast3 Valid1 Valid2 MathsRun MathsRec SpecPrefix.
Local Open Scope N_scope.

Lemma par_no_err p cs : @no_err error _ (paragraph_from_chunks p cs).
Proof.
  unfold paragraph_from_chunks. apply no_err_foldM. apply Forall_forall. intros [l v] _ new. destruct v; try apply no_err_ok. cbn [par_chunk].
  apply no_err_bind; [|intros; apply no_err_ok]. apply no_err_foldM. apply Forall_forall. intros c _ [n li t tl b bl k]. unfold par_step, inc_i32, add32, overflow32.
  destruct p; repeat match goal with |- context [if ?b then _ else _] => destruct b; cbn [bind] end; intros e; discriminate.
Qed.

Section Prefix3.
  Context (p : profile).
  Notation rec := (maths_from_chunks p).
  Definition cmd2 l lab args := mkChunk2 l (Command2 (mkCommand2 lab args)).

  Lemma text_more st l s u e : m_step p rec st (mkChunk2 l (Text2 s)) = Err e -> forall s', m_step p rec st (mkChunk2 l (Text2 (s ++ u))) <> Ok s'.
  Proof.
    cbn [m_step]. destruct (negb (is_single_br (ms_mode st) || is_double_br (ms_mode st))); [|discriminate]. unfold m_text. intros H s'. rewrite foldM_app'.
    destruct (foldM (mt_step p rec) _ s); cbn [bind] in *; try discriminate.
  Qed.
  Lemma blank_ok st l w e : blank w -> m_step p rec st (mkChunk2 l (Text2 w)) <> Err e.
  Proof.
    intros B. cbn [m_step]. destruct (negb (is_single_br (ms_mode st) || is_double_br (ms_mode st))); [|discriminate]. unfold m_text.
    revert e. fold (@no_err error mstate (let* m := foldM (mt_step p rec) (mkMT st l [] l) w in Ok (mt_st (mt_push_str m)))). apply no_err_bind; [|intros; apply no_err_ok].
    apply no_err_foldM. unfold blank in B. rewrite Forall_forall in *. intros c C m. unfold mt_step. specialize (B c C).
    assert (D : (c =? c_dollar) = false). { apply N.eqb_neq. intros ->. discriminate B. } rewrite D. apply no_err_bind; [|intros; apply no_err_ok].
    destruct (c =? c_newline); [|apply no_err_ok]. apply no_err_bind; [apply no_err_add32|intros; apply no_err_ok].
  Qed.
  Lemma cmd_more3 st l lab args more e : m_step p rec st (cmd2 l lab args) = Err e -> forall s', m_step p rec st (cmd2 l lab (args ++ more)) <> Ok s'.
  Proof.
    unfold cmd2. cbn [m_step label2]. intros H s'.
    repeat match type of H with (if ?b then _ else _) = _ => destruct b; [rewrite H; discriminate|] end.
    destruct (is_none (ms_mode st)); [|discriminate]. unfold command3_try_from, args3_try_from in *. rewrite Conv2.mapM_app.
    destruct (mapM _ args) as [a| | |]; cbn [bind] in *; try discriminate.
  Qed.
  Lemma word_ok st l lab e : word lab -> m_step p rec st (cmd2 l lab []) <> Err e.
  Proof.
    intros (c & w & -> & A). unfold cmd2. cbn [m_step label2].
    assert (X : forall d, is_ascii_alphabetic d = false -> str_eqb (c :: w) [d] = false).
    { intros d D. apply str_eqb_neq. intros E. injection E as -> _. congruence. }
    rewrite (X c_rround), (X c_rsquare), (X c_lround), (X c_lsquare) by reflexivity. cbn [andb orb]. rewrite andb_false_r.
    destruct (is_none (ms_mode st)); discriminate.
  Qed.
  Lemma maths_tail a t1 r e x : maths_from_chunks p (a ++ t1) = Err e -> maths_from_chunks p (a ++ r) = Ok x ->
    continues2 t1 r \/ (exists l lab, t1 = [cmd2 l lab []] /\ word lab) -> err_type e = UnclosedMaths.
  Proof.
    rewrite !maths_unfold, !foldM_app'. destruct (foldM (m_step p rec) minit a) as [st| | |]; cbn [bind]; try discriminate. intros H H' C.
    destruct (foldM (m_step p rec) st t1) as [s1|e1| |] eqn:F; cbn [bind] in H; try discriminate.
    - unfold m_finish in H. destruct (negb (is_none (ms_mode s1))); [injection H as <-; reflexivity|]. now apply par_no_err in H.
    - injection H as ->. exfalso.
      assert (G : forall c b, m_step p rec st c = Err e -> (forall s', m_step p rec st b <> Ok s') -> forall r', r <> b :: r').
      { intros c b _ K r' ->. cbn [foldM] in H'. destruct (m_step p rec st b) as [s'| | |]; cbn [bind] in H'; try discriminate. now destruct (K s'). }
      destruct C as [C|(l & lab & -> & W)].
      2:{ cbn [foldM] in F. destruct (m_step p rec st (cmd2 l lab [])) eqn:M; cbn [bind] in F; try discriminate. injection F as ->. exact (word_ok _ _ _ _ W M). }
      destruct C as [r|l s u r|l lab args more r|l lab u args r W|l lab u l' env r W E U L|l' l'' w u r W|l lab args l' w u sc more r W]; cbn [foldM] in F; try discriminate.
      + destruct (m_step p rec st (mkChunk2 l (Text2 s))) eqn:M; cbn [bind] in F; try discriminate. injection F as ->. exact (G _ _ M (text_more _ _ _ u _ M) _ eq_refl).
      + destruct (m_step p rec st (mkChunk2 l (Command2 (mkCommand2 lab args)))) eqn:M; cbn [bind] in F; try discriminate. injection F as ->. exact (G _ _ M (cmd_more3 _ _ _ _ more _ M) _ eq_refl).
      + destruct (m_step p rec st (mkChunk2 l (Command2 (mkCommand2 lab [])))) eqn:M; cbn [bind] in F; try discriminate. exact (word_ok _ _ _ _ W M).
      + destruct (m_step p rec st (mkChunk2 l (Command2 (mkCommand2 lab [])))) eqn:M; cbn [bind] in F; try discriminate. exact (word_ok _ _ _ _ W M).
      + destruct (m_step p rec st (mkChunk2 l' (Text2 w))) eqn:M; cbn [bind] in F; try discriminate. exact (blank_ok _ _ _ _ W M).
      + destruct (m_step p rec st (mkChunk2 l (Command2 (mkCommand2 lab args)))) as [s1| | |] eqn:M; cbn [bind] in F; try discriminate.
        * destruct (m_step p rec s1 (mkChunk2 l' (Text2 w))) eqn:M'; cbn [bind] in F; try discriminate. exact (blank_ok _ _ _ _ W M').
        * injection F as ->. exact (G _ _ M (cmd_more3 _ _ _ _ ((w ++ u, sc) :: more) _ M) _ eq_refl).
  Qed.

  (** ** The sections *)
  Definition plainc (c : chunk2) : Prop := match c with mkChunk2 _ (Environment2 _) => False | _ => True end.
  Lemma d_plain st c st1 : d_step p st c = Ok st1 -> plainc c ->
    ds_trailing st1 = ds_trailing st /\ ds_pre st1 = ds_pre st ++ (if ds_trailing st then [] else [c]) /\ ds_trail st1 = ds_trail st ++ (if ds_trailing st then [c] else []).
  Proof.
    assert (O : forall s, Ok (d_push_other st c) = @Ok error _ s -> ds_trailing s = ds_trailing st /\ ds_pre s = ds_pre st ++ (if ds_trailing st then [] else [c]) /\ ds_trail s = ds_trail st ++ (if ds_trailing st then [c] else [])).
    { intros s H. injection H as <-. unfold d_push_other, d_push_pre. destruct (ds_trailing st) eqn:T; cbn; rewrite ?app_nil_r; auto. }
    destruct c as [l v]. destruct v as [t|[lab args]|sc|env]; cbn [d_step plainc label2 arguments2]; try contradiction; auto.
    destruct (str_eqb lab s_documentclass && negb (ds_trailing st)) eqn:Q; [|auto]. apply andb_true_iff in Q as [_ T]. apply negb_true_iff in T.
    destruct (d_class (ds_construct st)); [discriminate|]. destruct (foldM (class_arg_step l) _ args); cbn [bind]; try discriminate. intros H _. injection H as <-. cbn. rewrite T, app_nil_r. auto.
  Qed.
  Lemma d_grows r : forall st st2, foldM (d_step p) st r = Ok st2 -> exists a b, ds_pre st2 = ds_pre st ++ a /\ ds_trail st2 = ds_trail st ++ b /\ (ds_trailing st = true -> a = []).
  Proof.
    induction r as [|c r IH]; intros st st2; cbn [foldM].
    - intros H. injection H as <-. exists [], []. rewrite !app_nil_r. auto.
    - destruct (d_step p st c) as [s1| | |] eqn:D; cbn [bind]; try discriminate. intros H. destruct (IH _ _ H) as (a & b & -> & -> & K).
      assert (Z : exists a0 b0, ds_pre s1 = ds_pre st ++ a0 /\ ds_trail s1 = ds_trail st ++ b0 /\ (ds_trailing st = true -> a0 = [] /\ ds_trailing s1 = true)).
      { assert (X : plainc c -> exists a0 b0, ds_pre s1 = ds_pre st ++ a0 /\ ds_trail s1 = ds_trail st ++ b0 /\ (ds_trailing st = true -> a0 = [] /\ ds_trailing s1 = true)).
        { intros P. destruct (d_plain _ _ _ D P) as (T & -> & ->). eexists. eexists. split; [reflexivity|]. split; [reflexivity|]. rewrite T. intros ->. auto. }
        destruct c as [l v]. destruct v as [t|cm|sc|env]; try (apply X; exact I). cbn [d_step] in D. destruct (str_eqb (env_label2 env) s_document).
        - destruct (env3_try_from p rec env) as [[? ? ? ? ?]| | |]; cbn [bind] in D; try discriminate. injection D as <-. cbn. exists [], []. rewrite !app_nil_r. auto.
        - injection D as <-. unfold d_push_other, d_push_pre. destruct (ds_trailing st); cbn.
          + exists [], [mkChunk2 l (Environment2 env)]. rewrite app_nil_r. auto.
          + exists [mkChunk2 l (Environment2 env)], []. rewrite app_nil_r. repeat split; discriminate. }
      destruct Z as (a0 & b0 & -> & -> & Z). exists (a0 ++ a), (b0 ++ b). rewrite !app_assoc. repeat split. intros T. destruct (Z T) as [-> T1]. now rewrite (K T1).
  Qed.
  Lemma d_no_trail r : forall st st2, foldM (d_step p) st r = Ok st2 -> (ds_trailing st = false -> ds_trail st = []) -> ds_trailing st2 = false -> ds_trail st2 = [].
  Proof.
    induction r as [|c r IH]; intros st st2; cbn [foldM]; [intros H; injection H as <-; auto|].
    destruct (d_step p st c) as [s1| | |] eqn:D; cbn [bind]; try discriminate. intros H K. apply (IH _ _ H). clear H st2 IH r.
    assert (X : plainc c -> ds_trailing s1 = false -> ds_trail s1 = []).
    { intros P. destruct (d_plain _ _ _ D P) as (-> & _ & ->). intros T. rewrite T, (K T). reflexivity. }
    destruct c as [l v]. destruct v as [t|cm|sc|env]; try (apply X; exact I). cbn [d_step] in D. destruct (str_eqb (env_label2 env) s_document).
    - destruct (env3_try_from p rec env) as [[? ? ? ? ?]| | |]; cbn [bind] in D; try discriminate. injection D as <-. discriminate.
    - injection D as <-. unfold d_push_other, d_push_pre. destruct (ds_trailing st) eqn:T; cbn; [congruence|]. intros _. exact (K eq_refl).
  Qed.
  Lemma class_more st l lab args more e : d_step p st (cmd2 l lab args) = Err e ->
    (forall s', d_step p st (cmd2 l lab (args ++ more)) <> Ok s') /\ (args = [] -> err_type e = DoubleDocumentClass /\ lab = s_documentclass).
  Proof.
    unfold cmd2. cbn [d_step label2 arguments2]. destruct (str_eqb lab s_documentclass && negb (ds_trailing st)) eqn:Q; [|discriminate]. apply andb_true_iff in Q as [Q _]. apply str_eqb_eq in Q.
    destruct (d_class (ds_construct st)); [intros H; injection H as <-; split; [discriminate|auto]|]. intros H. split.
    - intros s'. rewrite foldM_app'. destruct (foldM (class_arg_step l) _ args); cbn [bind] in *; try discriminate.
    - intros ->. discriminate.
  Qed.
  Lemma d_text st l t e : d_step p st (mkChunk2 l (Text2 t)) <> Err e.
  Proof. discriminate. Qed.
  Lemma swap_rest t c r r' : continues2 t (c :: r) -> continues2 t (c :: r').
  Proof. intros C. inversion C; subst; try constructor; try assumption. eapply ct2_begin; eassumption. Qed.

  Lemma completed3 same tail rest e x : continues2 tail rest -> try_from3 p (same ++ tail) = Err e -> try_from3 p (same ++ rest) = Ok x ->
    err_type e = UnclosedMaths \/ (err_type e = DoubleDocumentClass /\ exists l, tail = [cmd2 l s_documentclass []]).
  Proof.
    intros C. unfold try_from3. rewrite !foldM_app'. destruct (foldM (d_step p) dinit same) as [st| | |] eqn:D0; cbn [bind]; try discriminate.
    assert (NT := d_no_trail same dinit st D0 (fun _ => eq_refl)).
    destruct (foldM (d_step p) st tail) as [s1|e1| |] eqn:F; cbn [bind]; try discriminate; intros H H'.
    - left. destruct (foldM (d_step p) st rest) as [s2| | |] eqn:F'; cbn [bind] in H'; try discriminate.
      (* what the sections of the two get *)
      assert (P : ds_trailing s1 = ds_trailing st /\ ds_pre s1 = ds_pre st ++ (if ds_trailing st then [] else tail) /\ ds_trail s1 = ds_trail st ++ (if ds_trailing st then tail else [])).
      { assert (Forall plainc tail) as P by (destruct C; repeat constructor). clear - P F. revert st F. induction tail as [|c t IH]; intros st; cbn [foldM].
        - intros F. injection F as <-. destruct (ds_trailing st); now rewrite !app_nil_r.
        - inversion P; subst. destruct (d_step p st c) as [s0| | |] eqn:D; cbn [bind]; try discriminate. intros F. destruct (d_plain _ _ _ D ltac:(assumption)) as (T & Ep & Et).
          destruct (IH ltac:(assumption) _ F) as (T' & -> & ->). rewrite T', T, Ep, Et. split; [reflexivity|]. destruct (ds_trailing st); now rewrite <- !app_assoc. }
      assert (R : exists r, (continues2 tail r \/ (exists l lab, tail = [cmd2 l lab []] /\ word lab)) /\
        if ds_trailing st then ds_pre s2 = ds_pre st /\ ds_trail s2 = ds_trail st ++ r else ds_pre s2 = ds_pre st ++ r).
      { assert (G : forall c r, rest = c :: r -> plainc c -> exists r', if ds_trailing st then ds_pre s2 = ds_pre st /\ ds_trail s2 = ds_trail st ++ c :: r' else ds_pre s2 = ds_pre st ++ c :: r').
        { intros c r -> Pc. cbn [foldM] in F'. destruct (d_step p st c) as [s0| | |] eqn:D; cbn [bind] in F'; try discriminate. destruct (d_plain _ _ _ D Pc) as (T & Ep & Et).
          destruct (d_grows _ _ _ F') as (a & b & -> & -> & K). rewrite Ep, Et. destruct (ds_trailing st).
          - exists b. rewrite <- !app_assoc, (K T). split; [now rewrite app_nil_r|reflexivity].
          - exists a. now rewrite <- app_assoc. }
        assert (G2 : exists r, if ds_trailing st then ds_pre s2 = ds_pre st /\ ds_trail s2 = ds_trail st ++ r else ds_pre s2 = ds_pre st ++ r).
        { destruct (d_grows _ _ _ F') as (a & b & -> & -> & K). destruct (ds_trailing st); [exists b|now exists a]. rewrite (K eq_refl). split; [apply app_nil_r|reflexivity]. }
        destruct C as [r|l s u r|l lab args more r|l lab u args r W|l lab u l' env r W E U L|l' l'' w u r W|l lab args l' w u sc more r W].
        1:{ destruct G2 as (r' & G2). exists r'. split; [left; constructor|exact G2]. }
        4:{ destruct G2 as (r' & G2). exists r'. split; [right; now exists l, lab|exact G2]. }
        all: destruct (G _ _ eq_refl I) as (r' & G'); eexists; (split; [left|exact G']); now constructor. }
      destruct P as (_ & P1 & P2). destruct R as (r & R & R').
      destruct (ds_trailing st) eqn:T.
      + destruct R' as [R1 R2]. rewrite P1, P2, app_nil_r in H. rewrite R1, R2 in H'.
        destruct (maths_from_chunks p (ds_pre st)) as [pre| | |]; cbn [bind] in H, H'; try discriminate. destruct (paragraph_from_chunks p pre) as [pre2| | |]; cbn [bind] in H, H'; try discriminate.
        destruct (maths_from_chunks p (ds_trail st ++ r)) as [y| | |] eqn:Y; cbn [bind] in H'; try discriminate.
        destruct (maths_from_chunks p (ds_trail st ++ tail)) as [z|e1| |] eqn:Z; cbn [bind] in H; try discriminate.
        * destruct (paragraph_from_chunks p z) eqn:Pz; cbn [bind] in H; try discriminate. now apply par_no_err in Pz.
        * injection H as ->. exact (maths_tail _ _ _ _ _ Z Y R).
      + rewrite P1, P2, (NT eq_refl) in H. rewrite R' in H'.
        destruct (maths_from_chunks p (ds_pre st ++ r)) as [y| | |] eqn:Y; cbn [bind] in H'; try discriminate.
        destruct (maths_from_chunks p (ds_pre st ++ tail)) as [z|e1| |] eqn:Z; cbn [bind] in H; try discriminate.
        * destruct (paragraph_from_chunks p z) eqn:Pz; cbn [bind] in H; try discriminate. now apply par_no_err in Pz.
        * injection H as ->. exact (maths_tail _ _ _ _ _ Z Y R).
    - injection H as ->. destruct (foldM (d_step p) st rest) as [s2| | |] eqn:F'; cbn [bind] in H'; try discriminate. clear H'.
      assert (G : forall l lab args more r b, rest = cmd2 l lab (args ++ more) :: r -> tail = cmd2 l lab args :: b -> (b = [] \/ exists l w, b = [mkChunk2 l (Text2 w)]) -> False).
      { intros l lab args more r b -> -> B. cbn [foldM] in F, F'. destruct (d_step p st (cmd2 l lab args)) as [s0| | |] eqn:D; cbn [bind] in F; try discriminate.
        - destruct B as [->|(l0 & w & ->)]; discriminate.
        - destruct (class_more _ _ _ _ more _ D) as [K _]. destruct (d_step p st (cmd2 l lab (args ++ more))) as [s0| | |] eqn:D'; cbn [bind] in F'; try discriminate. exact (K _ eq_refl). }
      assert (G2 : forall l lab, tail = [cmd2 l lab []] -> err_type e = DoubleDocumentClass /\ exists l, tail = [cmd2 l s_documentclass []]).
      { intros l lab ->. cbn [foldM] in F. destruct (d_step p st (cmd2 l lab [])) as [s0| | |] eqn:D; cbn [bind] in F; try discriminate. injection F as ->.
        destruct (class_more _ _ _ _ [] _ D) as [_ K]. destruct (K eq_refl) as [K1 ->]. eauto. }
      destruct C as [r|l s u r|l lab args more r|l lab u args r W|l lab u l' env r W E U L|l' l'' w u r W|l lab args l' w u sc more r W]; try discriminate.
      + destruct (G _ _ _ _ _ _ eq_refl eq_refl (or_introl eq_refl)).
      + right. exact (G2 _ _ eq_refl).
      + right. exact (G2 _ _ eq_refl).
      + destruct (G _ _ _ _ _ _ eq_refl eq_refl (or_intror (ex_intro _ l' (ex_intro _ w eq_refl)))).
  Qed.
End Prefix3.
