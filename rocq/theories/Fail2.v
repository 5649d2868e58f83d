(** * Fail2: exact description of the errors of the stage-1 to stage-2 conversion,
      and its termination *)
From Verif Require Import Base Ast1 Parse1 Ast2 Spec2 Ind Valid1 Valid2 Eqb Conv2.
Open Scope N_scope.

Inductive fails (p : profile) : list chunk1 -> error -> Prop :=
| fl_here pre pre' c post e : conv p pre pre' -> bad_here [] c e -> fails p (pre ++ c :: post) e
| fl_scope pre pre' l cs v post e L : conv p pre pre' -> fails p cs e -> add32 p (err_line e) l = @Ok error N L ->
    fails p (pre ++ mkChunk1 l (Scope1 (mkScope1 cs v)) :: post) (mkError L (err_type e))
| fl_cmd pre pre' l lab args post e : conv p pre pre' -> lab <> s_begin -> lab <> s_end -> fails_args p args e ->
    fails p (pre ++ mkChunk1 l (Command1 (mkCommand1 lab args)) :: post) e
| fl_open pre pre' l pb lab args b b1 c post e start inner : conv p pre pre' ->
    startM p l ((pb, mkScope1 lab Curly1) :: args) = Ok start ->
    opens inner b -> mapM (rebaseM p start) b = Ok b1 -> bad_here (inner ++ [lab]) c e ->
    fails p (pre ++ begin_cmd l pb lab args :: b ++ c :: post) e
| fl_unclosed pre pre' l pb lab args b b1 start inner : conv p pre pre' ->
    startM p l ((pb, mkScope1 lab Curly1) :: args) = Ok start ->
    opens inner b -> mapM (rebaseM p start) b = Ok b1 ->
    fails p (pre ++ begin_cmd l pb lab args :: b) (mkError start (UnclosedEnvironment (show1 lab)))
| fl_env_arg pre pre' l pb lab args b b1 l' pe post e start : conv p pre pre' ->
    startM p l ((pb, mkScope1 lab Curly1) :: args) = Ok start ->
    opens [] b -> mapM (rebaseM p start) b = Ok b1 -> fails_args p args e ->
    fails p (pre ++ begin_cmd l pb lab args :: b ++ end_cmd l' pe lab :: post) e
| fl_env_body pre pre' l pb lab args args' b b1 l' pe post e start L : conv p pre pre' ->
    startM p l ((pb, mkScope1 lab Curly1) :: args) = Ok start ->
    opens [] b -> mapM (rebaseM p start) b = Ok b1 -> conv_args p args args' -> fails p b1 e ->
    add32 p (err_line e) start = @Ok error N L ->
    fails p (pre ++ begin_cmd l pb lab args :: b ++ end_cmd l' pe lab :: post) (mkError L (err_type e))
with fails_args (p : profile) : list (str * scope1) -> error -> Prop :=
| fa_here pre cs v args e : fails p cs e -> fails_args p ((pre, mkScope1 cs v) :: args) e
| fa_next pre cs v cs' args e : conv p cs cs' -> fails_args p args e -> fails_args p ((pre, mkScope1 cs v) :: args) e.

Scheme fails_mut := Induction for fails Sort Prop
with fails_args_mut := Induction for fails_args Sort Prop.
Combined Scheme fails_both_ind from fails_mut, fails_args_mut.

Lemma conv_app p a a' b b' : conv p a a' -> conv p b b' -> conv p (a ++ b) (a' ++ b').
Proof.
  intros Ha Hb. induction Ha; cbn [app]; auto.
  - constructor; auto.
  - constructor; auto.
  - constructor; auto.
  - rewrite <- app_assoc. cbn [app]. econstructor; eauto.
Qed.

Section Fails.
  Context (p : profile) (rec : list chunk1 -> outcome error document2).

  (** a step that fails while environments are open *)
  Lemma tstep_inner_err st c e : ts_stack st <> [] -> tstep p rec st c = Err e ->
    bad_here (ts_stack st) c e \/
    (exists l pe lab, c = end_cmd l pe lab /\ ts_stack st = [lab] /\
      (args2_try_from rec (ts_args st) = Err e \/
       exists args' e' L, args2_try_from rec (ts_args st) = Ok args' /\ rec (ts_buffer st) = Err e' /\
         add32 p (err_line e') (ts_start st) = @Ok error N L /\ e = mkError L (err_type e'))).
  Proof.
    intros Hs H. destruct c as [l v]. assert (Ie : is_empty (ts_stack st) = false) by (destruct (ts_stack st); [congruence|reflexivity]).
    assert (PB : forall st0 v0, t_push_buffer p st0 l v0 = Err e -> False).
    { intros st0 v0. revert e H. unfold t_push_buffer. intros e _. apply no_err_bind; [apply no_err_sub32|]. intros a.
      apply no_err_bind; [apply no_err_add32|]. intros. apply no_err_ok. }
    destruct v as [s|[lab args]|sc]; cbn [tstep label1 arguments1] in H; rewrite ?Ie in H.
    - now apply PB in H.
    - destruct (negb (str_eqb lab s_begin || str_eqb lab s_end)) eqn:Eb; [now apply PB in H|].
      apply is_be in Eb.
      destruct args as [|[prec [content v]] rest].
      { injection H as <-. left. now apply bh_label. }
      cbn [scope_variant1 chunks1] in H.
      destruct (negb (sv1_eqb v Curly1)) eqn:Ev.
      { injection H as <-. left. apply bh_label; [assumption|]. destruct v; [discriminate| |]; exact I. }
      apply negb_false_iff, sv1_eqb_eq in Ev. subst v.
      destruct Eb as [->| ->].
      + rewrite str_eqb_refl in H. now apply PB in H.
      + change (str_eqb s_end s_begin) with false in H. cbv iota in H.
        destruct (negb (opt_chunks_eqb (hd_error (ts_stack st)) content)) eqn:El.
        { injection H as <-. left. apply bh_unexpected. apply negb_true_iff in El. intros Hh. rewrite Hh in El. cbn in El.
          rewrite (proj2 (chunks1_eqb_eq _ _) eq_refl) in El. discriminate. }
        apply negb_false_iff in El. assert (Hh : hd_error (ts_stack st) = Some content).
        { destruct (hd_error (ts_stack st)); cbn in El; [|discriminate]. apply chunks1_eqb_eq in El. now subst. }
        destruct (1 <? N.of_nat (length ((prec, mkScope1 content Curly1) :: rest))) eqn:En.
        { injection H as <-. left. apply bh_many; [assumption|]. destruct rest; [discriminate|congruence]. }
        assert (rest = []) as ->. { apply N.ltb_ge in En. cbn [length] in En. destruct rest; [reflexivity|cbn [length] in En; lia]. }
        destruct (ts_stack st) as [|lab0 stack] eqn:Est; [congruence|]. injection Hh as ->.
        destruct stack as [|x stack']; cbn [is_empty] in H; [|now apply PB in H].
        right. exists l, prec, content. split; [reflexivity|]. split; [reflexivity|].
        destruct (args2_try_from rec (ts_args st)) as [args'|e'| |]; cbn [bind] in H; try discriminate.
        2:{ left. now injection H as ->. }
        right. unfold shift_err in H. destruct (rec (ts_buffer st)) as [ct|e'| |]; cbn [map_err bind] in H; try discriminate.
        destruct (add32 p (err_line e') (ts_start st)) as [L| | |] eqn:EL; cbn [bind] in H; try discriminate.
        { injection H as <-. exists args', e', L. repeat split; assumption. }
        exfalso. exact (no_err_add32 _ _ _ _ EL).
    - now apply PB in H.
  Qed.

  Lemma bad_here_step st c e : bad_here (ts_stack st) c e -> tstep p rec st c = Err e.
  Proof.
    intros H. inversion H as [l lab args Hlab Hargs|l pe lab args Hh|l pe lab args Hh Hn]; subst; clear H; cbn [tstep label1 arguments1].
    - replace (negb (str_eqb lab s_begin || str_eqb lab s_end)) with false
        by (symmetry; apply negb_false_iff, orb_true_iff; rewrite !str_eqb_iff; exact Hlab).
      destruct args as [|[prec [content v]] rest]; [reflexivity|]. cbn [scope_variant1]. destruct v; [contradiction| |]; reflexivity.
    - change (str_eqb (S! "end") s_begin) with false. change (str_eqb (S! "end") s_end) with true. cbn [orb negb scope_variant1 sv1_eqb chunks1].
      replace (opt_chunks_eqb (hd_error (ts_stack st)) lab) with false; [reflexivity|]. symmetry. apply not_true_iff_false. intros E. apply Hh.
      destruct (hd_error (ts_stack st)); cbn in E; [|discriminate]. apply chunks1_eqb_eq in E. now subst.
    - change (str_eqb (S! "end") s_begin) with false. change (str_eqb (S! "end") s_end) with true. cbn [orb negb scope_variant1 sv1_eqb chunks1].
      rewrite Hh. cbn [opt_chunks_eqb]. rewrite (proj2 (chunks1_eqb_eq lab lab) eq_refl). cbn [negb length].
      destruct args as [|a args]; [congruence|]. cbn [length].
      destruct (N.ltb_spec 1 (N.of_nat (S (S (length args))))) as [|F]; [reflexivity|lia].
  Qed.

  (** decomposition of a run that starts with environments open *)
  Lemma inner_split ds : forall st inner lab0 raw,
    ts_stack st = inner ++ [lab0] -> opens inner raw -> mapM (rebaseM p (ts_start st)) raw = Ok (ts_buffer st) ->
    (exists inner' buf, opens inner' (raw ++ ds) /\ mapM (rebaseM p (ts_start st)) (raw ++ ds) = Ok buf /\
       foldM (tstep p rec) st ds = Ok (with_buf st (inner' ++ [lab0]) buf)) \/
    (exists b c rest inner' buf, ds = b ++ c :: rest /\ opens inner' (raw ++ b) /\
       mapM (rebaseM p (ts_start st)) (raw ++ b) = Ok buf /\
       (forall x, tstep p rec (with_buf st (inner' ++ [lab0]) buf) c <> Ok x) /\
       foldM (tstep p rec) st ds = tstep p rec (with_buf st (inner' ++ [lab0]) buf) c) \/
    (exists b l pe rest buf args' content,
       ds = b ++ end_cmd l pe lab0 :: rest /\ opens [] (raw ++ b) /\
       mapM (rebaseM p (ts_start st)) (raw ++ b) = Ok buf /\
       args2_try_from rec (ts_args st) = Ok args' /\ rec buf = Ok content /\
       foldM (tstep p rec) st ds =
       foldM (tstep p rec)
         (mkT (ts_chunks st ++ [mkChunk2 (ts_start st) (Environment2 (mkEnv2 (show1 lab0) args' content (ts_prec st) pe))])
              [] (ts_start st) [] [] []) rest).
  Proof.
    induction ds as [|c ds IH]; intros st inner lab0 raw Hs Ho Hr.
    - left. exists inner, (ts_buffer st). rewrite app_nil_r. repeat split; auto. cbn [foldM]. destruct st; cbn in *. subst. reflexivity.
    - assert (Est : st = with_buf st (inner ++ [lab0]) (ts_buffer st)) by (destruct st; cbn in *; subst; reflexivity).
      destruct (tstep p rec st c) as [st1|e| |] eqn:E.
      2-4: right; left; exists [], c, ds, inner, (ts_buffer st); rewrite app_nil_r, <- Est, E; repeat split; auto; try discriminate;
           cbn [foldM]; now rewrite E.
      assert (Hne : ts_stack st <> []) by (rewrite Hs; now destruct inner).
      apply (tstep_inner p rec) in E as E'; [|assumption].
      cbn [foldM]. rewrite E. cbn [bind].
      assert (K : forall c' inner', rebaseM p (ts_start st) c = Ok c' ->
         st1 = with_buf st (inner' ++ [lab0]) (ts_buffer st ++ [c']) -> opens inner' (raw ++ [c]) ->
    (exists inner' buf, opens inner' (raw ++ c :: ds) /\ mapM (rebaseM p (ts_start st)) (raw ++ c :: ds) = Ok buf /\
       foldM (tstep p rec) st1 ds = Ok (with_buf st (inner' ++ [lab0]) buf)) \/
    (exists b c0 rest inner' buf, c :: ds = b ++ c0 :: rest /\ opens inner' (raw ++ b) /\
       mapM (rebaseM p (ts_start st)) (raw ++ b) = Ok buf /\
       (forall x, tstep p rec (with_buf st (inner' ++ [lab0]) buf) c0 <> Ok x) /\
       foldM (tstep p rec) st1 ds = tstep p rec (with_buf st (inner' ++ [lab0]) buf) c0) \/
    (exists b l pe rest buf args' content,
       c :: ds = b ++ end_cmd l pe lab0 :: rest /\ opens [] (raw ++ b) /\
       mapM (rebaseM p (ts_start st)) (raw ++ b) = Ok buf /\
       args2_try_from rec (ts_args st) = Ok args' /\ rec buf = Ok content /\
       foldM (tstep p rec) st1 ds =
       foldM (tstep p rec)
         (mkT (ts_chunks st ++ [mkChunk2 (ts_start st) (Environment2 (mkEnv2 (show1 lab0) args' content (ts_prec st) pe))])
              [] (ts_start st) [] [] []) rest)).
      { intros c' inner' Hc -> Ho'.
        destruct (IH (with_buf st (inner' ++ [lab0]) (ts_buffer st ++ [c'])) inner' lab0 (raw ++ [c]) eq_refl Ho') as
          [(in2 & buf & A1 & A2 & A3)|[(b & c0 & rest & in2 & buf & -> & A1 & A2 & A3 & A4)|
           (b & l & pe & rest & buf & args' & content & -> & A1 & A2 & A3 & A4 & A5)]].
        - cbn [ts_start with_buf ts_buffer]. apply mapM_app_ok; [exact Hr|]. cbn [mapM]. rewrite Hc. reflexivity.
        - left. rewrite <- app_assoc in A1, A2. cbn [app] in A1, A2. exists in2, buf. repeat split; auto.
        - right; left. rewrite <- app_assoc in A1, A2. cbn [app] in A1, A2. exists (c :: b), c0, rest, in2, buf. repeat split; auto.
        - right; right. exists (c :: b), l, pe, rest, buf, args', content. rewrite <- app_assoc in A1, A2. cbn [app] in A1, A2.
          repeat split; try assumption. }
      destruct E' as [(Hp & c' & Hc & E')|[(l & pb & lab & args & c' & -> & Hc & E')|(l & pe & lab & stack & -> & Hst & [(Hstk & c' & Hc & E')|(-> & args' & content & Ha & Hb & ->)])]].
      + rewrite Hs in E'. apply (K c' inner Hc E'). now constructor.
      + rewrite Hs in E'. apply (K c' (lab :: inner) Hc E'). now constructor.
      + rewrite Hs in Hst. destruct inner as [|i inner']; cbn [app] in Hst.
        { injection Hst as <- <-. congruence. }
        injection Hst as -> <-. apply (K c' inner' Hc E'). now apply op_end with (lab := lab).
      + rewrite Hs in Hst. destruct inner as [|i inner']; cbn [app] in Hst.
        2:{ injection Hst as -> Hst. now destruct inner'. }
        injection Hst as <-. right; right. exists [], l, pe, ds, (ts_buffer st), args', content.
        rewrite !app_nil_r. repeat split; try assumption.
  Qed.

  Context (rec_sound : forall d d2, rec d = Ok d2 -> conv p d d2).
  Context (rec_fails : forall d e, rec d = Err e -> fails p d e).

  Lemma args_fails args : forall e, args2_try_from rec args = Err e -> fails_args p args e.
  Proof.
    induction args as [|[pre [cs v]] args IH]; intros e H; [discriminate|].
    rewrite args2_cons in H. destruct (rec cs) as [cs'|e'| |] eqn:E; cbn [bind] in H; try discriminate.
    - destruct (args2_try_from rec args) as [a'|e'| |]; cbn [bind] in H; try discriminate.
      injection H as ->. eapply fa_next; eauto.
    - injection H as ->. constructor; auto.
  Qed.

  Lemma outer_fails : forall n pre pre' ds st e, (length ds <= n)%nat -> idle st -> conv p pre pre' ->
    (let* stf := foldM (tstep p rec) st ds in tfinish stf) = Err e -> fails p (pre ++ ds) e.
  Proof.
    induction n as [|n IH]; intros pre pre' ds st e Hn Hi Hpre H.
    { destruct ds; [|cbn [length] in Hn; lia]. cbn [foldM bind] in H. destruct Hi as (Hs & _). unfold tfinish in H. rewrite Hs in H. discriminate. }
    destruct ds as [|c ds].
    { cbn [foldM bind] in H. destruct Hi as (Hs & _). unfold tfinish in H. rewrite Hs in H. discriminate. }
    cbn [length] in Hn. cbn [foldM] in H. pose proof Hi as (Hs & Ha & Hb & Hp).
    assert (Next : forall c2, (let* stf := foldM (tstep p rec) (t_push_chunk st c2) ds in tfinish stf) = Err e -> conv p [c] [c2] ->
      fails p (pre ++ c :: ds) e).
    { intros c2 H' Hc. change (c :: ds) with ([c] ++ ds). rewrite app_assoc.
      apply (IH (pre ++ [c]) (pre' ++ [c2]) ds (t_push_chunk st c2)); [lia|now repeat split|now apply conv_app|exact H']. }
    destruct c as [l [s|[lab args]|sc]]; cbn [tstep label1 arguments1] in H; rewrite Hs in H; cbn [is_empty] in H.
    - cbn [bind] in H. apply (Next _ H). repeat constructor.
    - destruct (negb (str_eqb lab s_begin || str_eqb lab s_end)) eqn:Eb.
      { unfold command2_try_from in H. cbn [arguments1 label1] in H. apply is_not_be in Eb as [Eb1 Eb2].
        destruct (args2_try_from rec args) as [args'|e'| |] eqn:Ea; cbn [bind] in H; try discriminate.
        - apply (Next _ H). constructor; auto; [|constructor]. now apply (args_sound p rec).
        - injection H as ->. eapply fl_cmd; eauto. now apply args_fails. }
      apply is_be in Eb.
      destruct args as [|[prec [content v]] rest].
      { injection H as <-. eapply fl_here; eauto. now apply bh_label. }
      cbn [scope_variant1 chunks1] in H.
      destruct (negb (sv1_eqb v Curly1)) eqn:Ev.
      { injection H as <-. eapply fl_here; eauto. apply bh_label; [assumption|]. destruct v; [discriminate| |]; exact I. }
      apply negb_false_iff, sv1_eqb_eq in Ev. subst v.
      destruct Eb as [->| ->].
      2:{ change (str_eqb s_end s_begin) with false in H. cbn [hd_error opt_chunks_eqb negb] in H. injection H as <-.
          eapply fl_here; eauto. apply bh_unexpected. discriminate. }
      rewrite str_eqb_refl in H. fold (startM p l ((prec, mkScope1 content Curly1) :: rest)) in H.
      destruct (startM p l ((prec, mkScope1 content Curly1) :: rest)) as [start|e'| |] eqn:Es; cbn [bind] in H; try discriminate.
      2:{ exfalso. exact (no_err_add32 _ _ _ _ Es). }
      rewrite Hb in H. cbn [ts_chunks ts_stack ts_buffer] in H.
      match type of H with context [foldM _ ?s _] => destruct (inner_split ds s [] content [] eq_refl op_nil eq_refl) as
          [(in2 & buf & A1 & A2 & A3)|[(b & c0 & rest' & in2 & buf & -> & A1 & A2 & A3 & A4)|
           (b & l' & pe & rest' & buf & args' & ct & -> & A1 & A2 & A3 & A4 & A5)]] end.
      + rewrite A3 in H. cbn [bind] in H. unfold tfinish, last_opt in H. cbn [ts_stack with_buf ts_start app] in *.
        rewrite rev_app_distr in H. cbn [rev app] in H. injection H as <-.
        eapply fl_unclosed; eauto.
      + rewrite A4 in H. cbn [app ts_start with_buf] in *.
        match type of H with bind ?x _ = _ => destruct x as [y|e'| |] eqn:Et end; cbn [bind] in H; try discriminate.
        { now elim (A3 y). }
        injection H as ->. apply tstep_inner_err in Et; [|cbn; now destruct in2].
        cbn [with_buf ts_stack ts_args ts_buffer ts_start] in Et.
        destruct Et as [Hbad|(l' & pe & lab & -> & Est & [Er|(args' & e' & L & Er & Eb & EL & ->)])].
        * eapply fl_open; eauto.
        * destruct in2 as [|x in2]; cbn [app] in Est; [|injection Est as _ Est; now destruct in2]. injection Est as ->.
          eapply fl_env_arg; eauto. now apply args_fails.
        * destruct in2 as [|x in2]; cbn [app] in Est; [|injection Est as _ Est; now destruct in2]. injection Est as ->.
          apply (fl_env_body p pre pre' l prec lab rest args' b buf l' pe rest' e' start L); auto. now apply (args_sound p rec).
      + rewrite A5 in H. cbn [ts_start ts_args ts_prec ts_chunks app] in *.
        rewrite app_length in Hn. cbn [length] in Hn.
        assert (Hc : conv p (begin_cmd l prec content rest :: b ++ [end_cmd l' pe content])
                            [mkChunk2 start (Environment2 (mkEnv2 (show1 content) args' ct prec pe))]).
        { eapply (cv_env p l prec content rest args' b buf ct l' pe [] [] start); auto; [now apply (args_sound p rec)|constructor]. }
        match type of H with context [foldM _ ?s _] => eapply (IH (pre ++ begin_cmd l prec content rest :: b ++ [end_cmd l' pe content]) _ rest' s) in H end; [ | lia | now repeat split | eapply conv_app; [exact Hpre|exact Hc]].
        rewrite <- app_assoc in H. cbn [app] in H. rewrite <- app_assoc in H. exact H.
    - unfold shift_err, scope2_try_from in H. destruct sc as [cs v]. cbn [chunks1 scope_variant1] in H.
      destruct (rec cs) as [cs'|e'| |] eqn:E; cbn [bind map_err] in H; try discriminate.
      + apply (Next _ H). constructor; auto. constructor.
      + destruct (add32 p (err_line e') l) as [L|e''| |] eqn:EL; cbn [bind] in H; try discriminate.
        * injection H as <-. eapply fl_scope; eauto.
        * exfalso. exact (no_err_add32 _ _ _ _ EL).
  Qed.
End Fails.

Lemma try_from2_fuel_fails fuel p : forall d e, try_from2_fuel fuel p d = Err e -> fails p d e.
Proof.
  induction fuel as [|fuel IH]; intros d e H; cbn [try_from2_fuel] in H; [discriminate|].
  apply (outer_fails p _ (try_from2_fuel_sound fuel p) IH (length d) [] [] d tinit e (le_n _)); [now repeat split|constructor|exact H].
Qed.

(** ** Every described failure happens *)
Lemma size_mid a c b : size1 (a ++ c :: b) = (size1 a + size_chunk1 c + size1 b)%nat.
Proof. rewrite size1_app, size1_cons. lia. Qed.
Lemma size_scope_chunk l cs v : size_chunk1 (mkChunk1 l (Scope1 (mkScope1 cs v))) = (2 + size1 cs)%nat.
Proof. reflexivity. Qed.
Lemma size_cmd_chunk l lab args : size_chunk1 (mkChunk1 l (Command1 (mkCommand1 lab args))) = (2 + size_args1 args)%nat.
Proof. reflexivity. Qed.
Lemma size_args_cons pre cs v args : size_args1 ((pre, mkScope1 cs v) :: args) = (S (size1 cs) + size_args1 args)%nat.
Proof. reflexivity. Qed.

Definition runs_to (p : profile) (fuel : nat) (d : list chunk1) : outcome error document2 :=
  let* st := foldM (tstep p (try_from2_fuel fuel p)) tinit d in tfinish st.

Lemma tinit_idle : idle tinit.
Proof. now repeat split. Qed.

Lemma begin_opens p rec st l pb lab args b b1 start inner post : idle st ->
  startM p l ((pb, mkScope1 lab Curly1) :: args) = Ok start ->
  opens inner b -> mapM (rebaseM p start) b = Ok b1 ->
  foldM (tstep p rec) st (begin_cmd l pb lab args :: b ++ post) =
  foldM (tstep p rec) (mkT (ts_chunks st) (inner ++ [lab]) start args b1 pb) post.
Proof.
  intros (Hs & Ha & Hb & Hp) Hst Ho Hr.
  cbn [foldM]. unfold begin_cmd at 1. cbn [tstep label1 arguments1 scope_variant1 chunks1].
  change (str_eqb (S! "begin") s_begin) with true. cbn [orb negb sv1_eqb]. rewrite Hs. cbn [is_empty].
  fold (startM p l ((pb, mkScope1 lab Curly1) :: args)). rewrite Hst. cbn [bind ts_chunks ts_stack ts_buffer].
  rewrite foldM_app. rewrite (inner_complete p _ inner b Ho _ b1); [|discriminate|exact Hr]. cbn [bind].
  unfold with_buf. cbn. now rewrite Hb.
Qed.

Lemma fails_complete p :
  (forall d e, fails p d e -> forall fuel, (size1 d <= fuel)%nat -> runs_to p fuel d = Err e) /\
  (forall args e, fails_args p args e -> forall fuel, (size_args1 args <= fuel)%nat ->
     args2_try_from (try_from2_fuel fuel p) args = Err e).
Proof.
  assert (Pre : forall pre pre' fuel, conv p pre pre' -> (size1 pre <= fuel)%nat ->
    exists st, idle st /\ forall post, foldM (tstep p (try_from2_fuel fuel p)) tinit (pre ++ post) = foldM (tstep p (try_from2_fuel fuel p)) st post).
  { intros pre pre' fuel Hc Hf. destruct (proj1 (conv_complete p) _ _ Hc fuel Hf tinit tinit_idle) as (st & E & Hi & _).
    exists st. split; [exact Hi|]. intros post. now rewrite foldM_app, E. }
  assert (Rec : forall d e, (forall fuel, (size1 d <= fuel)%nat -> runs_to p fuel d = Err e) ->
     forall fuel, (size1 d < fuel)%nat -> try_from2_fuel fuel p d = Err e).
  { intros d e H [|fuel] Hf; [lia|]. apply H. lia. }
  apply fails_both_ind.
  - intros pre pre' c post e Hc Hb fuel Hf. rewrite size_mid in Hf. unfold runs_to.
    destruct (Pre _ _ fuel Hc ltac:(lia)) as (st & (Hs & _) & Heq); rewrite Heq; clear Heq. cbn [foldM].
    rewrite (bad_here_step p _ st c e); [reflexivity|now rewrite Hs].
  - intros pre pre' l cs v post e L Hc _ IH HL fuel Hf. rewrite size_mid, size_scope_chunk in Hf. unfold runs_to.
    destruct (Pre _ _ fuel Hc ltac:(lia)) as (st & (Hs & _) & Heq); rewrite Heq; clear Heq. cbn [foldM tstep]. rewrite Hs. cbn [is_empty].
    unfold scope2_try_from. cbn [chunks1]. rewrite (Rec _ _ IH fuel) by lia. unfold shift_err. cbn [bind map_err]. rewrite HL. reflexivity.
  - intros pre pre' l lab args post e Hc H1 H2 _ IH fuel Hf. rewrite size_mid, size_cmd_chunk in Hf. unfold runs_to.
    destruct (Pre _ _ fuel Hc ltac:(lia)) as (st & (Hs & _) & Heq); rewrite Heq; clear Heq. cbn [foldM tstep label1]. rewrite Hs. cbn [is_empty].
    rewrite (proj2 (is_not_be lab) (conj H1 H2)). unfold command2_try_from. cbn [arguments1 label1]. rewrite (IH fuel) by lia. reflexivity.
  - intros pre pre' l pb lab args b b1 c post e start inner Hc Hst Ho Hr Hb fuel Hf. unfold runs_to. rewrite size1_app in Hf.
    destruct (Pre _ _ fuel Hc ltac:(lia)) as (st & Hi & Heq); rewrite Heq; clear Heq.
    rewrite (begin_opens p _ st l pb lab args b b1 start inner (c :: post) Hi Hst Ho Hr). cbn [foldM].
    erewrite bad_here_step; [reflexivity|exact Hb].
  - intros pre pre' l pb lab args b b1 start inner Hc Hst Ho Hr fuel Hf. unfold runs_to. rewrite size1_app in Hf.
    destruct (Pre _ _ fuel Hc ltac:(lia)) as (st & Hi & Heq); rewrite Heq; clear Heq. rewrite <- (app_nil_r b).
    rewrite (begin_opens p _ st l pb lab args b b1 start inner [] Hi Hst Ho Hr). cbn [foldM bind].
    unfold tfinish, last_opt. cbn [ts_stack]. rewrite rev_app_distr. reflexivity.
  - intros pre pre' l pb lab args b b1 l' pe post e start Hc Hst Ho Hr _ IH fuel Hf. unfold runs_to.
    rewrite size1_app, size1_cons, size_begin, size1_app in Hf.
    destruct (Pre _ _ fuel Hc ltac:(lia)) as (st & Hi & Heq); rewrite Heq; clear Heq.
    rewrite (begin_opens p _ st l pb lab args b b1 start [] _ Hi Hst Ho Hr). cbn [foldM].
    unfold end_cmd at 1. cbn [tstep label1 arguments1 scope_variant1 chunks1].
    change (str_eqb (S! "end") s_begin) with false. change (str_eqb (S! "end") s_end) with true. cbn [orb negb sv1_eqb].
    cbn [ts_stack ts_chunks ts_start ts_args ts_buffer ts_prec app hd_error opt_chunks_eqb].
    rewrite (proj2 (chunks1_eqb_eq lab lab) eq_refl). cbn [negb length].
    change (1 <? N.of_nat 1) with false. cbv iota. cbn [is_empty].
    rewrite (IH fuel) by lia. reflexivity.
  - intros pre pre' l pb lab args args' b b1 l' pe post e start L Hc Hst Ho Hr Hargs _ IH HL fuel Hf. unfold runs_to.
    rewrite size1_app, size1_cons, size_begin, size1_app in Hf.
    destruct (Pre _ _ fuel Hc ltac:(lia)) as (st & Hi & Heq); rewrite Heq; clear Heq.
    rewrite (begin_opens p _ st l pb lab args b b1 start [] _ Hi Hst Ho Hr). cbn [foldM].
    unfold end_cmd at 1. cbn [tstep label1 arguments1 scope_variant1 chunks1].
    change (str_eqb (S! "end") s_begin) with false. change (str_eqb (S! "end") s_end) with true. cbn [orb negb sv1_eqb].
    cbn [ts_stack ts_chunks ts_start ts_args ts_buffer ts_prec app hd_error opt_chunks_eqb].
    rewrite (proj2 (chunks1_eqb_eq lab lab) eq_refl). cbn [negb length].
    change (1 <? N.of_nat 1) with false. cbv iota. cbn [is_empty].
    rewrite (proj2 (conv_complete p) _ _ Hargs fuel) by lia. cbn [bind].
    pose proof (mapM_rebase_size _ _ _ _ Hr) as Hsz. rewrite (Rec _ _ IH fuel) by lia. unfold shift_err. cbn [bind map_err]. rewrite HL. reflexivity.
  - intros pre cs v args e _ IH fuel Hf. rewrite size_args_cons in Hf. rewrite args2_cons, (Rec _ _ IH fuel) by lia. reflexivity.
  - intros pre cs v cs' args e Hc _ IH fuel Hf. rewrite size_args_cons in Hf. rewrite args2_cons.
    assert (E : try_from2_fuel fuel p cs = Ok cs').
    { destruct fuel as [|fuel]; [lia|]. cbn [try_from2_fuel].
      destruct (proj1 (conv_complete p) _ _ Hc fuel ltac:(lia) tinit tinit_idle) as (st & -> & (Hi & _) & Hch).
      cbn [bind]. unfold tfinish. now rewrite Hi, Hch. }
    rewrite E. cbn [bind]. rewrite (IH fuel) by lia. reflexivity.
Qed.

Theorem try_from2_err_iff p d e : try_from2 p d = Err e <-> fails p d e.
Proof.
  split; [apply try_from2_fuel_fails|]. intros H. exact (proj1 (fails_complete p) d e H (size1 d) (le_n _)).
Qed.

(** ** Termination *)
Lemma bind_not_oof {E A B} (x : outcome E A) (f : A -> outcome E B) :
  x <> OutOfFuel -> (forall a, x = Ok a -> f a <> OutOfFuel) -> bind x f <> OutOfFuel.
Proof. destruct x; cbn; auto; discriminate. Qed.
Lemma add32_not_oof {E} p a b : @add32 E p a b <> OutOfFuel.
Proof. unfold add32, overflow32. destruct (_ <? _), p; discriminate. Qed.
Lemma sub32_not_oof {E} p a b : @sub32 E p a b <> OutOfFuel.
Proof. unfold sub32, overflow32. destruct (_ <=? _), p; discriminate. Qed.
Lemma mapM_not_oof {E A B} (f : A -> outcome E B) l : Forall (fun x => f x <> OutOfFuel) l -> mapM f l <> OutOfFuel.
Proof.
  induction 1 as [|x l Hx _ IH]; cbn [mapM]; [discriminate|]. apply bind_not_oof; auto. intros y _.
  apply bind_not_oof; auto. discriminate.
Qed.

Section Terminate.
  Context (p : profile) (rec : list chunk1 -> outcome error document2) (n : nat).
  Context (rec_ok : forall d, (size1 d < n)%nat -> rec d <> OutOfFuel).

  Lemma args_not_oof args : (size_args1 args <= n)%nat -> args2_try_from rec args <> OutOfFuel.
  Proof.
    induction args as [|[pre [cs v]] args IH]; [discriminate|]. rewrite size_args_cons, args2_cons. intros H.
    apply bind_not_oof; [apply rec_ok; lia|]. intros cs' _. apply bind_not_oof; [apply IH; lia|discriminate].
  Qed.
  Lemma shift_not_oof {A} L (x : outcome error A) : x <> OutOfFuel -> shift_err p L x <> OutOfFuel.
  Proof.
    intros H. unfold shift_err. destruct x; cbn [map_err]; auto.
    pose proof (@add32_not_oof error p (err_line e) L). destruct (add32 p (err_line e) L); cbn; congruence.
  Qed.
  Definition meas (st : tstate) : nat :=
    (size1 (ts_buffer st) + size_args1 (ts_args st) + if is_empty (ts_stack st) then 0 else 1)%nat.

  Lemma push_buffer_not_oof st l v : t_push_buffer p st l v <> OutOfFuel.
  Proof. unfold t_push_buffer. apply bind_not_oof; [apply sub32_not_oof|]. intros. apply bind_not_oof; [apply add32_not_oof|discriminate]. Qed.
  Lemma push_buffer_meas st l v st' : t_push_buffer p st l v = Ok st' -> meas st' = (meas st + size_chunk1 (mkChunk1 l v))%nat.
  Proof.
    rewrite push_buffer_eq. destruct (rebaseM p (ts_start st) (mkChunk1 l v)) as [c| | |] eqn:E; cbn [bind]; try discriminate.
    intros H. injection H as <-. apply rebaseM_size in E. unfold meas. cbn [ts_buffer ts_args ts_stack]. rewrite size1_app, size1_cons, E.
    change (size1 []) with 0%nat. lia.
  Qed.

  Lemma tstep_oof st c : (meas st + size_chunk1 c <= n)%nat -> (ts_stack st = [] -> ts_args st = []) ->
    tstep p rec st c <> OutOfFuel /\
    forall st', tstep p rec st c = Ok st' -> (meas st' <= meas st + size_chunk1 c)%nat /\ (ts_stack st' = [] -> ts_args st' = []).
  Proof.
    intros Hn Hi. destruct c as [l v].
    assert (PB : forall st0 v0, meas st0 = meas st -> ts_stack st0 <> [] -> v0 = v -> t_push_buffer p st0 l v0 <> OutOfFuel /\
      forall st', t_push_buffer p st0 l v0 = Ok st' -> (meas st' <= meas st + size_chunk1 (mkChunk1 l v))%nat /\ (ts_stack st' = [] -> ts_args st' = [])).
    { intros st0 v0 Hm Hs ->. split; [apply push_buffer_not_oof|]. intros st' H. split.
      - rewrite (push_buffer_meas _ _ _ _ H). lia.
      - rewrite push_buffer_eq in H. destruct (rebaseM p (ts_start st0) (mkChunk1 l v)); cbn [bind] in H; try discriminate.
        injection H as <-. cbn [ts_stack]. contradiction. }
    assert (PC : forall c2, (meas (t_push_chunk st c2) <= meas st + size_chunk1 (mkChunk1 l v))%nat /\ (ts_stack (t_push_chunk st c2) = [] -> ts_args (t_push_chunk st c2) = [])).
    { intros c2. split; [unfold meas; cbn [t_push_chunk ts_buffer ts_args ts_stack]; lia|exact Hi]. }
    destruct v as [s|[lab args]|[cs v]]; cbn [tstep label1 arguments1].
    - destruct (is_empty (ts_stack st)) eqn:Ie.
      + split; [discriminate|]. intros st' H. injection H as <-. apply PC.
      + apply PB; auto. intros E. now rewrite E in Ie.
    - rewrite size_cmd_chunk in Hn. destruct (negb (str_eqb lab s_begin || str_eqb lab s_end)) eqn:Eb.
      { destruct (is_empty (ts_stack st)) eqn:Ie.
        - unfold command2_try_from. cbn [arguments1]. assert (A : args2_try_from rec args <> OutOfFuel) by (apply args_not_oof; lia).
          destruct (args2_try_from rec args); cbn [bind]; split; try discriminate; try congruence.
          intros st' H. injection H as <-. apply PC.
        - apply PB; auto. intros E. now rewrite E in Ie. }
      destruct args as [|[prec [content v]] rest]; [split; discriminate|]. cbn [scope_variant1 chunks1].
      destruct (negb (sv1_eqb v Curly1)); [split; discriminate|].
      destruct (str_eqb lab s_begin).
      + destruct (is_empty (ts_stack st)) eqn:Ie.
        * pose proof (@add32_not_oof error p) as A. match goal with |- bind ?x _ <> _ /\ _ => set (y := x) end.
          assert (Hy : y <> OutOfFuel) by apply A. destruct y; cbn [bind]; split; try discriminate; try congruence.
          intros st' H. injection H as <-. split; [|discriminate]. unfold meas. cbn [ts_buffer ts_args ts_stack is_empty].
          rewrite size_cmd_chunk, size_args_cons. lia.
        * apply PB; [|discriminate|reflexivity]. unfold meas. cbn [ts_buffer ts_args ts_stack is_empty]. now rewrite Ie.
      + destruct (negb (opt_chunks_eqb (hd_error (ts_stack st)) content)) eqn:El; [split; discriminate|].
        destruct (1 <? _); [split; discriminate|].
        destruct (ts_stack st) as [|lab0 stack] eqn:Est; [discriminate|].
        destruct (is_empty stack) eqn:Ie.
        * assert (A : args2_try_from rec (ts_args st) <> OutOfFuel) by (apply args_not_oof; unfold meas in Hn; rewrite Est in Hn; cbn [is_empty] in Hn; lia).
          assert (B : shift_err p (ts_start st) (rec (ts_buffer st)) <> OutOfFuel) by (apply shift_not_oof, rec_ok; unfold meas in Hn; rewrite Est in Hn; cbn [is_empty] in Hn; lia).
          destruct (args2_try_from rec (ts_args st)); cbn [bind]; try (split; [congruence|discriminate]).
          destruct (shift_err p (ts_start st) (rec (ts_buffer st))); cbn [bind]; try (split; [congruence|discriminate]).
          split; [discriminate|]. intros st' H. injection H as <-. cbn [ts_stack ts_args]. split; [|auto].
          unfold meas. cbn [ts_buffer ts_args ts_stack]. rewrite Ie. change (size1 []) with 0%nat. change (size_args1 []) with 0%nat. lia.
        * apply PB; [| |reflexivity]; [unfold meas; cbn [ts_buffer ts_args ts_stack is_empty]; rewrite Ie, Est; reflexivity|].
          cbn [ts_stack]. intros E. now rewrite E in Ie.
    - rewrite size_scope_chunk in Hn. destruct (is_empty (ts_stack st)) eqn:Ie.
      + unfold scope2_try_from. cbn [chunks1].
        assert (A : rec cs <> OutOfFuel) by (apply rec_ok; lia).
        match goal with |- bind ?x _ <> _ /\ _ => assert (B : x <> OutOfFuel) end.
        { apply shift_not_oof. destruct (rec cs); cbn; congruence. }
        match goal with |- bind ?x _ <> _ /\ _ => destruct x end; cbn [bind]; split; try discriminate; try congruence.
        intros st' H. injection H as <-. apply PC.
      + apply PB; auto. intros E. now rewrite E in Ie.
  Qed.

  Lemma run_not_oof ds : forall st, (meas st + size1 ds <= n)%nat -> (ts_stack st = [] -> ts_args st = []) ->
    foldM (tstep p rec) st ds <> OutOfFuel.
  Proof.
    induction ds as [|c ds IH]; intros st Hn Hi; cbn [foldM]; [discriminate|]. rewrite size1_cons in Hn.
    destruct (tstep_oof st c) as [A B]; [lia|assumption|].
    apply bind_not_oof; [exact A|]. intros st' E. destruct (B st' E) as [B1 B2]. apply IH; [lia|assumption].
  Qed.
End Terminate.

Lemma try_from2_fuel_total fuel p : forall d, (size1 d < fuel)%nat -> try_from2_fuel fuel p d <> OutOfFuel.
Proof.
  induction fuel as [|fuel IH]; intros d Hd; [lia|]. cbn [try_from2_fuel].
  apply bind_not_oof.
  - apply (run_not_oof p _ fuel IH); [|reflexivity]. unfold meas. cbn [tinit ts_buffer ts_args ts_stack is_empty].
    change (size1 []) with 0%nat. change (size_args1 []) with 0%nat. lia.
  - intros st _. unfold tfinish. destruct (last_opt (ts_stack st)); discriminate.
Qed.
Theorem try_from2_total p d : try_from2 p d <> OutOfFuel.
Proof. apply try_from2_fuel_total. lia. Qed.

(** ** Without overflow checks the conversion never panics *)
Lemma bind_not_panic {E A B} (x : outcome E A) (f : A -> outcome E B) :
  x <> Panic -> (forall a, x = Ok a -> f a <> Panic) -> bind x f <> Panic.
Proof. destruct x; cbn; auto; discriminate. Qed.
Lemma add32_release {E} a b : exists c, @add32 E Release a b = Ok c.
Proof. unfold add32, overflow32. destruct (_ <? _); eauto. Qed.
Lemma sub32_release {E} a b : exists c, @sub32 E Release a b = Ok c.
Proof. unfold sub32, overflow32. destruct (_ <=? _); eauto. Qed.

Section NoPanic.
  Context (rec : list chunk1 -> outcome error document2) (rec_ok : forall d, rec d <> Panic).

  Lemma args_not_panic args : args2_try_from rec args <> Panic.
  Proof.
    induction args as [|[pre [cs v]] args IH]; [discriminate|]. rewrite args2_cons.
    apply bind_not_panic; [apply rec_ok|]. intros cs' _. apply bind_not_panic; [exact IH|discriminate].
  Qed.
  Lemma shift_not_panic {A} L (x : outcome error A) : x <> Panic -> shift_err Release L x <> Panic.
  Proof.
    intros H. unfold shift_err. destruct x; cbn [map_err]; auto.
    destruct (@add32_release error (err_line e) L) as [c ->]. discriminate.
  Qed.
  Lemma push_buffer_not_panic st l v : t_push_buffer Release st l v <> Panic.
  Proof.
    unfold t_push_buffer. destruct (@sub32_release error l (ts_start st)) as [a ->]. cbn [bind].
    destruct (@add32_release error a 1) as [b ->]. discriminate.
  Qed.
  Lemma tstep_not_panic st c : tstep Release rec st c <> Panic.
  Proof.
    destruct c as [l [s|[lab args]|[cs v]]]; cbn [tstep label1 arguments1].
    - destruct (is_empty (ts_stack st)); [discriminate|apply push_buffer_not_panic].
    - destruct (negb (str_eqb lab s_begin || str_eqb lab s_end)).
      { destruct (is_empty (ts_stack st)); [|apply push_buffer_not_panic].
        apply bind_not_panic; [|discriminate]. apply bind_not_panic; [apply args_not_panic|discriminate]. }
      destruct args as [|[prec [content v]] rest]; [discriminate|]. cbn [scope_variant1 chunks1].
      destruct (negb (sv1_eqb v Curly1)); [discriminate|].
      destruct (str_eqb lab s_begin).
      + destruct (is_empty (ts_stack st)); [|apply push_buffer_not_panic].
        apply bind_not_panic; [|discriminate]. match goal with |- add32 _ ?a ?b <> _ => destruct (@add32_release error a b) as [x ->] end. discriminate.
      + destruct (negb (opt_chunks_eqb (hd_error (ts_stack st)) content)) eqn:El; [discriminate|].
        destruct (1 <? _); [discriminate|].
        destruct (ts_stack st) as [|lab0 stack]; [discriminate|].
        destruct (is_empty stack); [|apply push_buffer_not_panic].
        apply bind_not_panic; [apply args_not_panic|]. intros a _.
        apply bind_not_panic; [apply shift_not_panic, rec_ok|discriminate].
    - destruct (is_empty (ts_stack st)); [|apply push_buffer_not_panic].
      apply bind_not_panic; [|discriminate]. apply shift_not_panic. apply bind_not_panic; [apply rec_ok|discriminate].
  Qed.
  Lemma run_not_panic ds : forall st, foldM (tstep Release rec) st ds <> Panic.
  Proof.
    induction ds as [|c ds IH]; intros st; cbn [foldM]; [discriminate|]. apply bind_not_panic; [apply tstep_not_panic|].
    intros st' _. apply IH.
  Qed.
End NoPanic.

Theorem try_from2_release_no_panic d : try_from2 Release d <> Panic.
Proof.
  unfold try_from2. generalize (S (size1 d)) as fuel. intros fuel. revert d.
  induction fuel as [|fuel IH]; intros d; cbn [try_from2_fuel]; [discriminate|].
  apply bind_not_panic; [now apply run_not_panic|]. intros st _. unfold tfinish. destruct (last_opt (ts_stack st)); discriminate.
Qed.

Lemma try_from2_release d : (exists d2, try_from2 Release d = Ok d2) \/ (exists e, try_from2 Release d = Err e).
Proof.
  pose proof (try_from2_release_no_panic d). pose proof (try_from2_total Release d).
  destruct (try_from2 Release d); eauto; congruence.
Qed.
