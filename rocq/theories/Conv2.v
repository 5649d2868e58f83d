(** * Conv2: the stage-1 to stage-2 conversion loop against its declarative description *)
From Verif Require Import Base Ast1 Parse1 Ast2 Spec2 Ind Valid2 Eqb.
Open Scope N_scope.

Definition rebaseM (p : profile) (start : N) (c : chunk1) : outcome error chunk1 :=
  match c with mkChunk1 l v =>
    let* l := sub32 p l start in let* l := add32 p l 1 in Ok (mkChunk1 l v) end.
Definition startM (p : profile) (l : N) (args : list (str * scope1)) : outcome error N :=
  add32 p l (as_u32 (fold_right N.add 0
     (map (fun a => match a with (prec, arg) => count_newlines prec + count_newlines (show_scope1 arg) end) args))).

(** the conversion with the code's machine arithmetic *)
Inductive conv (p : profile) : list chunk1 -> list chunk2 -> Prop :=
| cv_nil : conv p [] []
| cv_text l s d d' : conv p d d' -> conv p (mkChunk1 l (Text1 s) :: d) (mkChunk2 l (Text2 s) :: d')
| cv_scope l cs v cs' d d' : conv p cs cs' -> conv p d d' ->
    conv p (mkChunk1 l (Scope1 (mkScope1 cs v)) :: d)
           (mkChunk2 l (Scope2 (mkScope2 cs' (sv2_of_sv1 v))) :: d')
| cv_cmd l lab args args' d d' : lab <> s_begin -> lab <> s_end ->
    conv_args p args args' -> conv p d d' ->
    conv p (mkChunk1 l (Command1 (mkCommand1 lab args)) :: d)
           (mkChunk2 l (Command2 (mkCommand2 lab args')) :: d')
| cv_env l pb lab args args' body body1 content l' pe d d' start :
    opens [] body ->
    startM p l ((pb, mkScope1 lab Curly1) :: args) = Ok start ->
    mapM (rebaseM p start) body = Ok body1 ->
    conv_args p args args' -> conv p body1 content -> conv p d d' ->
    conv p (begin_cmd l pb lab args :: body ++ end_cmd l' pe lab :: d)
           (mkChunk2 start (Environment2 (mkEnv2 (show1 lab) args' content pb pe)) :: d')
with conv_args (p : profile) : list (str * scope1) -> list (str * scope2) -> Prop :=
| cv_no_args : conv_args p [] []
| cv_arg pre cs v cs' args args' : conv p cs cs' -> conv_args p args args' ->
    conv_args p ((pre, mkScope1 cs v) :: args) ((pre, mkScope2 cs' (sv2_of_sv1 v)) :: args').

Scheme conv_mut := Induction for conv Sort Prop
with conv_args_mut := Induction for conv_args Sort Prop.
Combined Scheme conv_conv_args_ind from conv_mut, conv_args_mut.
Scheme wn_mut := Induction for well_nested Sort Prop
with wn_args_mut := Induction for well_nested_args Sort Prop.
Combined Scheme well_nested_both_ind from wn_mut, wn_args_mut.
Scheme converts_mut := Induction for converts Sort Prop
with converts_args_mut := Induction for converts_args Sort Prop.
Combined Scheme converts_both_ind from converts_mut, converts_args_mut.

(** ** Lists in the outcome monad *)
Lemma mapM_app {E A B} (f : A -> outcome E B) l1 l2 :
  mapM f (l1 ++ l2) = (let* a := mapM f l1 in let* b := mapM f l2 in Ok (a ++ b)).
Proof.
  induction l1 as [|x l1 IH]; cbn [mapM app bind].
  - destruct (mapM f l2); reflexivity.
  - destruct (f x); cbn [bind]; auto. rewrite IH. destruct (mapM f l1); cbn [bind]; auto. destruct (mapM f l2); reflexivity.
Qed.
Lemma mapM_app_ok {E A B} (f : A -> outcome E B) l1 l2 a b :
  mapM f l1 = Ok a -> mapM f l2 = Ok b -> mapM f (l1 ++ l2) = Ok (a ++ b).
Proof. intros H1 H2. now rewrite mapM_app, H1, H2. Qed.
Lemma foldM_app {E A S} (f : S -> A -> outcome E S) l1 l2 : forall s,
  foldM f s (l1 ++ l2) = (let* s' := foldM f s l1 in foldM f s' l2).
Proof.
  induction l1 as [|x l1 IH]; intros s; cbn [foldM app bind]; auto.
  destruct (f s x); cbn [bind]; auto.
Qed.

Section Sound.
  Context (p : profile) (rec : list chunk1 -> outcome error document2).

  Lemma push_buffer_eq st l v : t_push_buffer p st l v =
    (let* c := rebaseM p (ts_start st) (mkChunk1 l v) in
     Ok (mkT (ts_chunks st) (ts_stack st) (ts_start st) (ts_args st) (ts_buffer st ++ [c]) (ts_prec st))).
  Proof.
    unfold t_push_buffer, rebaseM. destruct (sub32 p l (ts_start st)); cbn [bind]; auto.
    destruct (add32 p a 1); reflexivity.
  Qed.

  (** shape of begin/end commands accepted by the loop *)
  Lemma is_be lab : negb (str_eqb lab s_begin || str_eqb lab s_end) = false -> lab = s_begin \/ lab = s_end.
  Proof. rewrite negb_false_iff, orb_true_iff, !str_eqb_iff. auto. Qed.
  Lemma is_not_be lab : negb (str_eqb lab s_begin || str_eqb lab s_end) = true <-> lab <> s_begin /\ lab <> s_end.
  Proof. rewrite negb_true_iff, orb_false_iff, !str_eqb_neq. reflexivity. Qed.

  Definition with_buf (st : tstate) (stack : list (list chunk1)) (buf : list chunk1) : tstate :=
    mkT (ts_chunks st) stack (ts_start st) (ts_args st) buf (ts_prec st).

  (** one step with a non-empty stack *)
  Lemma tstep_inner st c st' : ts_stack st <> [] -> tstep p rec st c = Ok st' ->
    (plain c /\ exists c', rebaseM p (ts_start st) c = Ok c' /\ st' = with_buf st (ts_stack st) (ts_buffer st ++ [c'])) \/
    (exists l pb lab args c', c = begin_cmd l pb lab args /\ rebaseM p (ts_start st) c = Ok c' /\
        st' = with_buf st (lab :: ts_stack st) (ts_buffer st ++ [c'])) \/
    (exists l pe lab stack, c = end_cmd l pe lab /\ ts_stack st = lab :: stack /\
       ((stack <> [] /\ exists c', rebaseM p (ts_start st) c = Ok c' /\
           st' = with_buf st stack (ts_buffer st ++ [c'])) \/
        (stack = [] /\ exists args' content,
           args2_try_from rec (ts_args st) = Ok args' /\ rec (ts_buffer st) = Ok content /\
           st' = mkT (ts_chunks st ++ [mkChunk2 (ts_start st) (Environment2 (mkEnv2 (show1 lab) args' content (ts_prec st) pe))])
                     [] (ts_start st) [] [] []))).
  Proof.
    intros Hs H. destruct c as [l v]. assert (Ie : is_empty (ts_stack st) = false) by (destruct (ts_stack st); [congruence|reflexivity]).
    assert (PB : forall st0 v0, t_push_buffer p st0 l v0 = Ok st' -> exists c', rebaseM p (ts_start st0) (mkChunk1 l v0) = Ok c' /\
                 st' = with_buf st0 (ts_stack st0) (ts_buffer st0 ++ [c'])).
    { intros st0 v0. rewrite push_buffer_eq. destruct (rebaseM p (ts_start st0) (mkChunk1 l v0)) as [c'|e| |]; cbn [bind]; try discriminate.
      intros E. injection E as <-. exists c'. split; reflexivity. }
    destruct v as [s|[lab args]|sc]; cbn [tstep label1 arguments1] in H; rewrite ?Ie in H.
    - left. split; [exact I|]. exact (PB _ _ H).
    - destruct (negb (str_eqb lab s_begin || str_eqb lab s_end)) eqn:Eb.
      { left. split; [now apply is_not_be|]. exact (PB _ _ H). }
      destruct args as [|[prec [content v]] rest]; [discriminate|]. cbn [scope_variant1 chunks1] in H.
      destruct (negb (sv1_eqb v Curly1)) eqn:Ev; [discriminate|].
      apply negb_false_iff, sv1_eqb_eq in Ev. subst v.
      apply is_be in Eb as [->| ->].
      + right. left. rewrite str_eqb_refl in H. apply PB in H as (c' & Hc & ->).
        exists l, prec, content, rest, c'. repeat split; assumption.
      + right. right. change (str_eqb s_end s_begin) with false in H. cbv iota in H.
        destruct (ts_stack st) as [|lab0 stack] eqn:Est; [congruence|]. cbn [hd_error opt_chunks_eqb] in H.
        destruct (chunks1_eqb lab0 content) eqn:El; cbn [negb] in H; [|discriminate].
        apply chunks1_eqb_eq in El. subst lab0.
        destruct (1 <? N.of_nat (length ((prec, mkScope1 content Curly1) :: rest))) eqn:En; [discriminate|].
        assert (rest = []) as ->. { apply N.ltb_ge in En. cbn [length] in En. destruct rest; [reflexivity|cbn [length] in En; lia]. }
        exists l, prec, content, stack. split; [reflexivity|]. split; [reflexivity|].
        destruct stack as [|x stack']; cbn [is_empty] in H.
        * right. split; [reflexivity|].
          destruct (args2_try_from rec (ts_args st)) as [args'|e| |]; cbn [bind] in H; try discriminate.
          unfold shift_err in H. destruct (rec (ts_buffer st)) as [ct|e| |]; cbn [map_err bind] in H; try discriminate.
          { injection H as <-. exists args', ct. repeat split. }
          destruct (add32 p (err_line e) (ts_start st)); cbn in H; discriminate.
        * left. split; [discriminate|]. apply PB in H as (c' & Hc & ->). exists c'. split; [exact Hc|reflexivity].
    - left. split; [exact I|]. exact (PB _ _ H).
  Qed.

  Definition idle (st : tstate) : Prop :=
    ts_stack st = [] /\ ts_args st = [] /\ ts_buffer st = [] /\ ts_prec st = [].

  Lemma inner_sound ds : forall st inner lab0 raw stf,
    ts_stack st = inner ++ [lab0] -> opens inner raw -> mapM (rebaseM p (ts_start st)) raw = Ok (ts_buffer st) ->
    foldM (tstep p rec) st ds = Ok stf ->
    (ts_stack stf <> []) \/
    (exists b l pe rest buf args' content,
       ds = b ++ end_cmd l pe lab0 :: rest /\ opens [] (raw ++ b) /\
       mapM (rebaseM p (ts_start st)) (raw ++ b) = Ok buf /\
       args2_try_from rec (ts_args st) = Ok args' /\ rec buf = Ok content /\
       foldM (tstep p rec)
         (mkT (ts_chunks st ++ [mkChunk2 (ts_start st) (Environment2 (mkEnv2 (show1 lab0) args' content (ts_prec st) pe))])
              [] (ts_start st) [] [] []) rest = Ok stf).
  Proof.
    induction ds as [|c ds IH]; intros st inner lab0 raw stf Hs Ho Hr H; cbn [foldM] in H.
    - injection H as <-. left. rewrite Hs. now destruct inner.
    - destruct (tstep p rec st c) as [st1|e| |] eqn:E; cbn [bind] in H; try discriminate.
      assert (Hne : ts_stack st <> []) by (rewrite Hs; now destruct inner).
      apply tstep_inner in E; [|assumption].
      assert (K : forall c' inner', rebaseM p (ts_start st) c = Ok c' ->
         st1 = with_buf st (inner' ++ [lab0]) (ts_buffer st ++ [c']) -> opens inner' (raw ++ [c]) ->
         (ts_stack stf <> []) \/
         (exists b l pe rest buf args' content,
           c :: ds = b ++ end_cmd l pe lab0 :: rest /\ opens [] (raw ++ b) /\
           mapM (rebaseM p (ts_start st)) (raw ++ b) = Ok buf /\
           args2_try_from rec (ts_args st) = Ok args' /\ rec buf = Ok content /\
           foldM (tstep p rec)
             (mkT (ts_chunks st ++ [mkChunk2 (ts_start st) (Environment2 (mkEnv2 (show1 lab0) args' content (ts_prec st) pe))])
                  [] (ts_start st) [] [] []) rest = Ok stf)).
      { intros c' inner' Hc -> Ho'.
        destruct (IH (with_buf st (inner' ++ [lab0]) (ts_buffer st ++ [c'])) inner' lab0 (raw ++ [c]) stf eq_refl Ho') as [A|(b & l & pe & rest & buf & args' & content & -> & A1 & A2 & A3 & A4 & A5)]; [|exact H| |].
        - cbn [ts_start with_buf ts_buffer]. apply mapM_app_ok; [exact Hr|]. cbn [mapM]. rewrite Hc. reflexivity.
        - now left.
        - right. exists (c :: b), l, pe, rest, buf, args', content. rewrite <- app_assoc in A1, A2. cbn [app] in A1, A2.
          repeat split; try assumption. }
      destruct E as [(Hp & c' & Hc & E)|[(l & pb & lab & args & c' & -> & Hc & E)|(l & pe & lab & stack & -> & Hst & [(Hstk & c' & Hc & E)|(-> & args' & content & Ha & Hb & ->)])]].
      + rewrite Hs in E. apply (K c' inner Hc E). now constructor.
      + rewrite Hs in E. apply (K c' (lab :: inner) Hc E). now constructor.
      + rewrite Hs in Hst. destruct inner as [|i inner']; cbn [app] in Hst.
        { injection Hst as <- <-. congruence. }
        injection Hst as -> <-. apply (K c' inner' Hc E). now apply op_end with (lab := lab).
      + rewrite Hs in Hst. destruct inner as [|i inner']; cbn [app] in Hst.
        2:{ injection Hst as -> Hst. now destruct inner'. }
        injection Hst as <-. right. exists [], l, pe, ds, (ts_buffer st), args', content.
        rewrite !app_nil_r. repeat split; try assumption.
  Qed.

  Context (rec_sound : forall d d2, rec d = Ok d2 -> conv p d d2).

  Lemma args2_cons pre cs v args : args2_try_from rec ((pre, mkScope1 cs v) :: args) =
    (let* cs' := rec cs in let* a := args2_try_from rec args in Ok ((pre, mkScope2 cs' (sv2_of_sv1 v)) :: a)).
  Proof.
    unfold args2_try_from, scope2_try_from. cbn [mapM chunks1 scope_variant1]. destruct (rec cs); reflexivity.
  Qed.
  Lemma args_sound args : forall args', args2_try_from rec args = Ok args' -> conv_args p args args'.
  Proof.
    induction args as [|[pre [cs v]] args IH]; intros args' H.
    - injection H as <-. constructor.
    - rewrite args2_cons in H. destruct (rec cs) as [cs'|e| |] eqn:E; cbn [bind] in H; try discriminate.
      destruct (args2_try_from rec args) as [a'|e| |]; cbn [bind] in H; try discriminate.
      injection H as <-. constructor; auto.
  Qed.

  Lemma outer_sound : forall n ds st stf d2, (length ds <= n)%nat -> idle st ->
    foldM (tstep p rec) st ds = Ok stf -> tfinish stf = Ok d2 ->
    exists d', conv p ds d' /\ d2 = ts_chunks st ++ d'.
  Proof.
    induction n as [|n IH]; intros ds st stf d2 Hn Hi H Hf.
    { destruct ds; [|cbn [length] in Hn; lia]. injection H as <-. destruct Hi as (Hs & _). unfold tfinish in Hf. rewrite Hs in Hf.
      cbn in Hf. injection Hf as <-. exists []. split; [constructor|now rewrite app_nil_r]. }
    destruct ds as [|c ds].
    { injection H as <-. destruct Hi as (Hs & _). unfold tfinish in Hf. rewrite Hs in Hf.
      cbn in Hf. injection Hf as <-. exists []. split; [constructor|now rewrite app_nil_r]. }
    cbn [length] in Hn. cbn [foldM] in H. destruct Hi as (Hs & Ha & Hb & Hp).
    assert (Next : forall c2, foldM (tstep p rec) (t_push_chunk st c2) ds = Ok stf ->
      exists d', conv p ds d' /\ d2 = ts_chunks st ++ c2 :: d').
    { intros c2 H'. destruct (IH ds (t_push_chunk st c2) stf d2) as (d' & A & B); auto; [lia|now repeat split|].
      exists d'. split; [exact A|]. rewrite B. cbn [ts_chunks t_push_chunk]. now rewrite <- app_assoc. }
    destruct c as [l [s|[lab args]|sc]]; cbn [tstep label1 arguments1] in H; rewrite Hs in H; cbn [is_empty] in H.
    - cbn [bind] in H. destruct (Next _ H) as (d' & A & B). exists (mkChunk2 l (Text2 s) :: d'). split; [now constructor|exact B].
    - destruct (negb (str_eqb lab s_begin || str_eqb lab s_end)) eqn:Eb.
      { unfold command2_try_from in H. cbn [arguments1 label1] in H.
        destruct (args2_try_from rec args) as [args'|e| |] eqn:Ea; cbn [bind] in H; try discriminate.
        apply is_not_be in Eb as [Eb1 Eb2]. destruct (Next _ H) as (d' & A & B).
        exists (mkChunk2 l (Command2 (mkCommand2 lab args')) :: d'). split; [|exact B]. constructor; auto. now apply args_sound. }
      destruct args as [|[prec [content v]] rest]; [discriminate|]. cbn [scope_variant1 chunks1] in H.
      destruct (negb (sv1_eqb v Curly1)) eqn:Ev; [discriminate|].
      apply negb_false_iff, sv1_eqb_eq in Ev. subst v.
      apply is_be in Eb as [->| ->].
      2:{ change (str_eqb s_end s_begin) with false in H. discriminate. }
      rewrite str_eqb_refl in H. fold (startM p l ((prec, mkScope1 content Curly1) :: rest)) in H.
      destruct (startM p l ((prec, mkScope1 content Curly1) :: rest)) as [start|e| |] eqn:Es; cbn [bind] in H; try discriminate.
      rewrite Hb in H. cbn [ts_chunks ts_stack ts_buffer] in H.
      apply (inner_sound _ _ [] content []) in H; [|reflexivity|constructor|reflexivity].
      destruct H as [A|(b & l' & pe & rest' & buf & args' & ct & -> & A1 & A2 & A3 & A4 & A5)].
      { unfold tfinish in Hf. exfalso. destruct (ts_stack stf) as [|x xs] eqn:E; [congruence|].
        assert (exists y, last_opt (x :: xs) = Some y) as [y Hy].
        { clear. unfold last_opt. destruct (rev (x :: xs)) eqn:E; [|eauto]. apply (f_equal (@length _)) in E. rewrite rev_length in E. discriminate. }
        rewrite Hy in Hf. discriminate. }
      cbn [ts_start ts_args ts_prec ts_chunks app] in *.
      rewrite app_length in Hn. cbn [length] in Hn.
      apply IH with (d2 := d2) in A5; [|lia|now repeat split|assumption].
      destruct A5 as (d' & B1 & B2). eexists. split.
      { apply (cv_env p l prec content rest args' b buf ct l' pe rest' d' start); auto. now apply args_sound. }
      rewrite B2. cbn [ts_chunks]. now rewrite <- app_assoc.
    - unfold shift_err, scope2_try_from in H. destruct sc as [cs v]. cbn [chunks1 scope_variant1] in H.
      destruct (rec cs) as [cs'|e| |] eqn:E; cbn [bind map_err] in H; try discriminate.
      + destruct (Next _ H) as (d' & A & B). eexists. split; [|exact B]. constructor; auto.
      + destruct (add32 p (err_line e) l); discriminate.
  Qed.
End Sound.

Lemma try_from2_fuel_sound fuel p : forall d d2, try_from2_fuel fuel p d = Ok d2 -> conv p d d2.
Proof.
  induction fuel as [|fuel IH]; intros d d2 H; cbn [try_from2_fuel] in H; [discriminate|].
  destruct (foldM (tstep p (try_from2_fuel fuel p)) tinit d) as [st|e| |] eqn:E; cbn [bind] in H; try discriminate.
  destruct (outer_sound p _ IH (length d) d tinit st d2 (le_n _)) as (d' & A & ->); auto.
  repeat split.
Qed.

(** ** Completeness *)
Section Complete.
  Context (p : profile) (rec : list chunk1 -> outcome error document2).

  Lemma tstep_plain_inner st c c' : ts_stack st <> [] -> plain c -> rebaseM p (ts_start st) c = Ok c' ->
    tstep p rec st c = Ok (with_buf st (ts_stack st) (ts_buffer st ++ [c'])).
  Proof.
    intros Hs Hp Hc. assert (Ie : is_empty (ts_stack st) = false) by (destruct (ts_stack st); [congruence|reflexivity]).
    destruct c as [l [s|[lab args]|sc]]; cbn [tstep label1]; rewrite Ie.
    1,3: rewrite push_buffer_eq, Hc; reflexivity.
    apply is_not_be in Hp. rewrite Hp, push_buffer_eq, Hc. reflexivity.
  Qed.
  Lemma tstep_begin_inner st l pb lab args c' : ts_stack st <> [] -> rebaseM p (ts_start st) (begin_cmd l pb lab args) = Ok c' ->
    tstep p rec st (begin_cmd l pb lab args) = Ok (with_buf st (lab :: ts_stack st) (ts_buffer st ++ [c'])).
  Proof.
    intros Hs Hc. assert (Ie : is_empty (ts_stack st) = false) by (destruct (ts_stack st); [congruence|reflexivity]).
    unfold begin_cmd in *. cbn [tstep label1 arguments1 scope_variant1 chunks1].
    change (str_eqb (S! "begin") s_begin) with true. cbn [orb negb sv1_eqb]. rewrite Ie, push_buffer_eq. cbn [ts_start].
    rewrite Hc. reflexivity.
  Qed.
  Lemma tstep_end_inner st l pe lab stack c' : ts_stack st = lab :: stack -> stack <> [] ->
    rebaseM p (ts_start st) (end_cmd l pe lab) = Ok c' ->
    tstep p rec st (end_cmd l pe lab) = Ok (with_buf st stack (ts_buffer st ++ [c'])).
  Proof.
    intros Hs Hne Hc. assert (Ie : is_empty stack = false) by (destruct stack; [congruence|reflexivity]).
    unfold end_cmd in *. cbn [tstep label1 arguments1 scope_variant1 chunks1].
    change (str_eqb (S! "end") s_begin) with false. change (str_eqb (S! "end") s_end) with true. cbn [orb negb sv1_eqb].
    rewrite Hs. cbn [hd_error opt_chunks_eqb]. rewrite (proj2 (chunks1_eqb_eq lab lab) eq_refl). cbn [negb length].
    change (1 <? N.of_nat 1) with false. cbv iota. rewrite Ie, push_buffer_eq. cbn [ts_start]. rewrite Hc. reflexivity.
  Qed.

  Lemma mapM_snoc_ok {E A B} (f : A -> outcome E B) l x r : mapM f (l ++ [x]) = Ok r ->
    exists a y, mapM f l = Ok a /\ f x = Ok y /\ r = a ++ [y].
  Proof.
    rewrite mapM_app. destruct (mapM f l) as [a|e| |]; cbn [bind mapM]; try discriminate.
    destruct (f x) as [y|e| |]; cbn [bind]; try discriminate. intros H. injection H as <-. eauto 6.
  Qed.

  Lemma inner_complete inner b : opens inner b -> forall st b1, ts_stack st <> [] ->
    mapM (rebaseM p (ts_start st)) b = Ok b1 ->
    foldM (tstep p rec) st b = Ok (with_buf st (inner ++ ts_stack st) (ts_buffer st ++ b1)).
  Proof.
    induction 1 as [|inner b c Ho IH Hp|inner b l pb lab args Ho IH|inner b l pe lab Ho IH]; intros st b1 Hs Hb.
    - injection Hb as <-. cbn [foldM app]. rewrite app_nil_r. destruct st; reflexivity.
    - apply mapM_snoc_ok in Hb as (a & y & Ha & Hy & ->). rewrite foldM_app, (IH st a Hs Ha). cbn [bind foldM].
      erewrite tstep_plain_inner; [|cbn [ts_stack with_buf]; destruct inner; cbn; congruence|exact Hp|exact Hy].
      cbn [bind]. unfold with_buf. cbn. now rewrite app_assoc.
    - apply mapM_snoc_ok in Hb as (a & y & Ha & Hy & ->). rewrite foldM_app, (IH st a Hs Ha). cbn [bind foldM].
      erewrite tstep_begin_inner; [|cbn [ts_stack with_buf]; destruct inner; cbn; congruence|exact Hy].
      cbn [bind]. unfold with_buf. cbn. now rewrite app_assoc.
    - apply mapM_snoc_ok in Hb as (a & y & Ha & Hy & ->). rewrite foldM_app, (IH st a Hs Ha). cbn [bind foldM].
      erewrite tstep_end_inner; [|reflexivity|destruct inner; cbn; congruence|exact Hy].
      cbn [bind]. unfold with_buf. cbn. now rewrite app_assoc.
  Qed.
End Complete.

Lemma size1_app a b : size1 (a ++ b) = (size1 a + size1 b)%nat.
Proof. unfold size1. now rewrite map_app, list_sum_app. Qed.
Lemma size1_cons c d : size1 (c :: d) = (size_chunk1 c + size1 d)%nat.
Proof. reflexivity. Qed.
Definition size_args1 (args : list (str * scope1)) : nat :=
  list_sum (map (fun a => match a with (_, sc) => size_scope1 sc end) args).
Lemma size_begin l pb lab args : size_chunk1 (begin_cmd l pb lab args) = (3 + size1 lab + size_args1 args)%nat.
Proof. reflexivity. Qed.
Lemma rebaseM_size p start c c' : rebaseM p start c = Ok c' -> size_chunk1 c' = size_chunk1 c.
Proof.
  destruct c as [l v]. cbn [rebaseM]. destruct (sub32 p l start); cbn [bind]; try discriminate.
  destruct (add32 p a 1); cbn [bind]; try discriminate. intros H. injection H as <-. reflexivity.
Qed.
Lemma mapM_rebase_size p start b : forall b1, mapM (rebaseM p start) b = Ok b1 -> size1 b1 = size1 b.
Proof.
  induction b as [|c b IH]; cbn [mapM]; intros b1 H.
  - injection H as <-. reflexivity.
  - destruct (rebaseM p start c) as [c'|e| |] eqn:E; cbn [bind] in H; try discriminate.
    destruct (mapM (rebaseM p start) b) as [b'|e| |]; cbn [bind] in H; try discriminate.
    injection H as <-. rewrite !size1_cons, (IH b' eq_refl). now rewrite (rebaseM_size _ _ _ _ E).
Qed.

Lemma conv_complete p :
  (forall d d2, conv p d d2 -> forall fuel, (size1 d <= fuel)%nat -> forall st, idle st ->
     exists st', foldM (tstep p (try_from2_fuel fuel p)) st d = Ok st' /\ idle st' /\ ts_chunks st' = ts_chunks st ++ d2) /\
  (forall args args', conv_args p args args' -> forall fuel, (size_args1 args <= fuel)%nat ->
     args2_try_from (try_from2_fuel fuel p) args = Ok args').
Proof.
  assert (Fin : forall d d2, (forall fuel, (size1 d <= fuel)%nat -> forall st, idle st ->
     exists st', foldM (tstep p (try_from2_fuel fuel p)) st d = Ok st' /\ idle st' /\ ts_chunks st' = ts_chunks st ++ d2) ->
     forall fuel, (size1 d < fuel)%nat -> try_from2_fuel fuel p d = Ok d2).
  { intros d d2 H [|fuel] Hf; [lia|]. destruct (H fuel ltac:(lia) tinit) as (st' & E & (Hi & _) & Hc); [now repeat split|].
    cbn [try_from2_fuel]. rewrite E. cbn [bind]. unfold tfinish. rewrite Hi, Hc. reflexivity. }
  apply conv_conv_args_ind.
  - intros fuel _ st Hi. exists st. split; [reflexivity|]. split; [assumption|]. now rewrite app_nil_r.
  - intros l s d d' _ IH fuel Hf st Hi. cbn [foldM tstep]. pose proof Hi as (Hs & Ha & Hb & Hp). rewrite Hs. cbn [is_empty bind].
    destruct (IH fuel ltac:(rewrite size1_cons in Hf; lia) (t_push_chunk st (mkChunk2 l (Text2 s)))) as (st' & E & Hi' & Hc); [now repeat split|].
    exists st'. split; [exact E|]. split; [exact Hi'|]. rewrite Hc. cbn [t_push_chunk ts_chunks]. now rewrite <- app_assoc.
  - intros l cs v cs' d d' _ IHc _ IH fuel Hf st Hi. cbn [foldM tstep]. pose proof Hi as (Hs & Ha & Hb & Hp). rewrite Hs. cbn [is_empty].
    rewrite size1_cons in Hf. cbn [size_chunk1 size_variant1 size_scope1] in Hf. fold (size1 cs) in Hf.
    unfold scope2_try_from. cbn [chunks1 scope_variant1]. rewrite (Fin cs cs' IHc fuel) by lia. cbn [bind shift_err map_err].
    unfold shift_err. cbn [map_err bind].
    destruct (IH fuel ltac:(lia) (t_push_chunk st (mkChunk2 l (Scope2 (mkScope2 cs' (sv2_of_sv1 v)))))) as (st' & E & Hi' & Hc); [now repeat split|].
    exists st'. split; [exact E|]. split; [exact Hi'|]. rewrite Hc. cbn [t_push_chunk ts_chunks]. now rewrite <- app_assoc.
  - intros l lab args args' d d' Hb0 He0 _ IHa _ IH fuel Hf st Hi. cbn [foldM tstep label1]. pose proof Hi as (Hs & Ha & Hb & Hp). rewrite Hs. cbn [is_empty].
    rewrite size1_cons in Hf. cbn [size_chunk1 size_variant1 size_command1] in Hf. fold (size_args1 args) in Hf.
    rewrite (proj2 (is_not_be lab) (conj Hb0 He0)). unfold command2_try_from. cbn [arguments1 label1].
    rewrite (IHa fuel) by lia. cbn [bind].
    destruct (IH fuel ltac:(lia) (t_push_chunk st (mkChunk2 l (Command2 (mkCommand2 lab args'))))) as (st' & E & Hi' & Hc); [now repeat split|].
    exists st'. split; [exact E|]. split; [exact Hi'|]. rewrite Hc. cbn [t_push_chunk ts_chunks]. now rewrite <- app_assoc.
  - intros l pb lab args args' body body1 content l' pe d d' start Ho Hst Hb1 _ IHa _ IHb _ IH fuel Hf st Hi.
    pose proof Hi as (Hs & Ha & Hb & Hp). rewrite size1_cons, size1_app, size1_cons in Hf.
    rewrite size_begin in Hf.
    pose proof (mapM_rebase_size _ _ _ _ Hb1) as Hsz.
    cbn [foldM]. unfold begin_cmd at 1. cbn [tstep label1 arguments1 scope_variant1 chunks1].
    change (str_eqb (S! "begin") s_begin) with true. cbn [orb negb sv1_eqb]. rewrite Hs. cbn [is_empty].
    fold (startM p l ((pb, mkScope1 lab Curly1) :: args)). rewrite Hst. cbn [bind ts_chunks ts_stack ts_buffer].
    rewrite foldM_app. rewrite (inner_complete p _ [] body Ho _ body1); [|discriminate|exact Hb1]. cbn [bind foldM].
    unfold end_cmd at 1. cbn [tstep label1 arguments1 scope_variant1 chunks1].
    change (str_eqb (S! "end") s_begin) with false. change (str_eqb (S! "end") s_end) with true. cbn [orb negb sv1_eqb].
    unfold with_buf. cbn [ts_stack ts_chunks ts_start ts_args ts_buffer ts_prec app hd_error opt_chunks_eqb].
    rewrite (proj2 (chunks1_eqb_eq lab lab) eq_refl). cbn [negb length].
    change (1 <? N.of_nat 1) with false. cbv iota. cbn [is_empty].
    rewrite (IHa fuel) by lia. cbn [bind]. rewrite Hb. cbn [app].
    rewrite (Fin body1 content IHb fuel) by lia. unfold shift_err. cbn [map_err bind].
    match goal with |- exists st', foldM _ ?s _ = _ /\ _ => destruct (IH fuel ltac:(lia) s) as (st' & E & Hi' & Hc); [now repeat split|] end.
    exists st'. split; [exact E|]. split; [exact Hi'|]. rewrite Hc. cbn [ts_chunks]. now rewrite <- app_assoc.
  - intros fuel _. reflexivity.
  - intros pre cs v cs' args args' _ IHc _ IHa fuel Hf. rewrite args2_cons.
    unfold size_args1 in Hf. cbn [map list_sum fold_right size_scope1] in Hf. fold (size1 cs) in Hf. fold (size_args1 args) in Hf.
    change (fold_right Init.Nat.add 0%nat (map (fun a : list N * scope1 => let (_, sc) := a in size_scope1 sc) args)) with (size_args1 args) in Hf.
    rewrite (Fin cs cs' IHc fuel) by lia. cbn [bind]. rewrite (IHa fuel) by lia. reflexivity.
Qed.

Theorem try_from2_iff p d d2 : try_from2 p d = Ok d2 <-> conv p d d2.
Proof.
  split; [apply try_from2_fuel_sound|]. intros H. unfold try_from2.
  destruct (proj1 (conv_complete p) d d2 H (size1 d) (le_n _) tinit) as (st' & E & (Hi & _) & Hc); [now repeat split|].
  cbn [try_from2_fuel]. rewrite E. cbn [bind]. unfold tfinish. rewrite Hi, Hc. reflexivity.
Qed.
