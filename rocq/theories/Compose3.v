(** * Compose3: the conversion to stage 3 works piece by piece *)
From Verif Require Import Base Ast1 Parse1 Ast2 Ast3 SpecMaths3 SpecReads SpecClass3 Par3 MathsRec Class3 Doc3 MathsRun.
Local Open Scope N_scope.

Definition with_pre (a : list chunk2) (st : dstate) : dstate := mkD (ds_construct st) (a ++ ds_pre st) (ds_trail st) (ds_trailing st).
Lemma step_pre p a st c : d_step p (with_pre a st) c = (let* st' := d_step p st c in Ok (with_pre a st')).
Proof.
  destruct st as [k pre tr b], c as [l v]. unfold d_step, with_pre. cbn [ds_construct ds_pre ds_trail ds_trailing].
  assert (O : Ok (d_push_other (mkD k (a ++ pre) tr b) (mkChunk2 l v)) = @Ok error _ (with_pre a (d_push_other (mkD k pre tr b) (mkChunk2 l v)))).
  { unfold d_push_other. cbn [ds_construct ds_pre ds_trail ds_trailing]. destruct b; cbn; unfold with_pre; cbn; rewrite ?app_assoc; reflexivity. }
  destruct v as [s|cm|s|e]; try exact O.
  - destruct (str_eqb (label2 cm) s_documentclass && negb b); [|exact O]. destruct (d_class k); [reflexivity|].
    destruct (foldM (class_arg_step l) (None, d_options k) (arguments2 cm)) as [co| | |]; cbn [bind]; try reflexivity.
    unfold d_push_pre. cbn. now rewrite app_assoc.
  - destruct (str_eqb (env_label2 e) s_document); [|exact O].
    destruct (env3_try_from p (maths_from_chunks p) e) as [[]| | |]; reflexivity.
Qed.
Lemma fold_with_pre p a d : forall st, foldM (d_step p) (with_pre a st) d = (let* st' := foldM (d_step p) st d in Ok (with_pre a st')).
Proof.
  induction d as [|c d IH]; intros st; cbn [foldM bind]; [reflexivity|]. rewrite step_pre.
  destruct (d_step p st c); cbn [bind]; auto.
Qed.
Lemma fold_append {E A S} (f : S -> A -> outcome E S) l1 l2 : forall s,
  foldM f s (l1 ++ l2) = (let* s' := foldM f s l1 in foldM f s' l2).
Proof. induction l1 as [|x l1 IH]; intros s; cbn [foldM app bind]; auto. destruct (f s x); cbn [bind]; auto. Qed.

(** the three parts a piece without a [document] environment has *)
Lemma alone p c y : Forall (fun k => ~ is_document k) c -> try_from3 p c = Ok y ->
  exists m, maths_from_chunks p c = Ok m /\ paragraph_from_chunks p m = @Ok error _ (d_preamable y).
Proof.
  intros F H. rewrite try_from3_sections, dinit_base, (fold_pre p c F) in H.
  destruct (foldM cstep (None, []) (class_commands c)) as [co| | |]; cbn [bind] in H; try discriminate.
  unfold sections in H. cbn [ds_pre ds_trail ds_construct app] in H.
  destruct (maths_from_chunks p c) as [m| | |]; cbn [bind] in H; try discriminate. exists m. split; [reflexivity|].
  destruct (paragraph_from_chunks p m) as [m'| | |]; cbn [bind] in H; try discriminate. 
  destruct (maths_from_chunks p []) as [n| | |]; cbn [bind] in H; try discriminate.
  destruct (paragraph_from_chunks p n) as [n'| | |]; cbn [bind] in H; try discriminate. now injection H as <-.
Qed.
Lemma trailing_set p d : forall st st', foldM (d_step p) st d = Ok st' -> ds_trailing st = true \/ (exists k, In k d /\ is_document k) -> ds_trailing st' = true.
Proof.
  induction d as [|c d IH]; intros st st' H [T|(k & I & D)]; cbn [foldM] in H.
  - now injection H as <-.
  - destruct I.
  - exact (proj1 (fold_post_frame p (c :: d) st st' T H)).
  - destruct (d_step p st c) as [s1| | |] eqn:E; cbn [bind] in H; try discriminate. apply (IH s1 st' H). destruct I as [<-|I]; [left|right; eauto].
    apply docb_iff in D. destruct c as [l [s|cm|s|e]]; try discriminate D. cbn [docb] in D. unfold d_step in E. rewrite D in E.
    destruct (env3_try_from p (maths_from_chunks p) e) as [[]| | |]; cbn [bind] in E; try discriminate. now injection E as <-.
Qed.

Definition same_but (x : document3) (pre trail : list chunk3) : document3 :=
  mkDoc3 (d_class x) (d_options x) pre (d_body x) (d_body_args x) (d_begin_prec x) (d_end_prec x) trail.

Theorem after_document p d c x y : try_from3 p d = Ok x -> (exists k, In k d /\ is_document k) ->
  Forall (fun k => ~ is_document k) c -> try_from3 p c = Ok y ->
  try_from3 p (d ++ c) = Ok (same_but x (d_preamable x) (d_trailing x ++ d_preamable y)).
Proof.
  intros H D F K. destruct (alone p c y F K) as (m & M & P).
  rewrite try_from3_sections in *. rewrite fold_append.
  destruct (foldM (d_step p) dinit d) as [st| | |] eqn:E; cbn [bind] in *; try discriminate.
  pose proof (trailing_set p d dinit st E (or_intror D)) as T. destruct st as [k pre tr b]. cbn in T. subst b.
  rewrite (fold_post_plain p c F). cbn [bind]. unfold sections in *. cbn [ds_construct ds_pre ds_trail] in *.
  destruct (maths_from_chunks p pre) as [q| | |]; cbn [bind] in *; try discriminate.
  destruct (paragraph_from_chunks p q) as [q'| | |]; cbn [bind] in *; try discriminate.
  destruct (maths_from_chunks p tr) as [n| | |] eqn:N; cbn [bind] in *; try discriminate.
  destruct (paragraph_from_chunks p n) as [n'| | |] eqn:N'; cbn [bind] in *; try discriminate.
  rewrite (maths_app_ok p tr c n m N M). cbn [bind]. rewrite par_app, N', P. cbn [bind]. injection H as <-. reflexivity.
Qed.
Theorem after_document_err p d c x e : try_from3 p d = Ok x -> (exists k, In k d /\ is_document k) ->
  Forall (fun k => ~ is_document k) c -> maths_from_chunks p c = Err e ->
  exists e', try_from3 p (d ++ c) = Err e' /\ err_type e' = err_type e.
Proof.
  intros H D F K. rewrite try_from3_sections in *. rewrite fold_append.
  destruct (foldM (d_step p) dinit d) as [st| | |] eqn:E; cbn [bind] in *; try discriminate.
  pose proof (trailing_set p d dinit st E (or_intror D)) as T. destruct st as [k pre tr b]. cbn in T. subst b.
  rewrite (fold_post_plain p c F). cbn [bind]. unfold sections in *. cbn [ds_construct ds_pre ds_trail] in *.
  destruct (maths_from_chunks p pre) as [q| | |]; cbn [bind] in *; try discriminate.
  destruct (paragraph_from_chunks p q) as [q'| | |]; cbn [bind] in *; try discriminate.
  destruct (maths_from_chunks p tr) as [n| | |] eqn:N; cbn [bind] in *; try discriminate.
  destruct (maths_app_err p tr c n e N K) as (e' & -> & T). cbn [bind]. eauto.
Qed.
Theorem after_document_panic p d c x : try_from3 p d = Ok x -> (exists k, In k d /\ is_document k) ->
  Forall (fun k => ~ is_document k) c -> maths_from_chunks p c = Panic -> try_from3 p (d ++ c) = Panic.
Proof.
  intros H D F K. rewrite try_from3_sections in *. rewrite fold_append.
  destruct (foldM (d_step p) dinit d) as [st| | |] eqn:E; cbn [bind] in *; try discriminate.
  pose proof (trailing_set p d dinit st E (or_intror D)) as T. destruct st as [k pre tr b]. cbn in T. subst b.
  rewrite (fold_post_plain p c F). cbn [bind]. unfold sections in *. cbn [ds_construct ds_pre ds_trail] in *.
  destruct (maths_from_chunks p pre) as [q| | |]; cbn [bind] in *; try discriminate.
  destruct (paragraph_from_chunks p q) as [q'| | |]; cbn [bind] in *; try discriminate.
  destruct (maths_from_chunks p tr) as [n| | |] eqn:N; cbn [bind] in *; try discriminate.
  pose proof (maths_app p tr c n N) as MA. rewrite K in MA. now rewrite MA.
Qed.
Theorem before_document p a d y : Forall (fun k => ~ is_document k) a -> class_commands a = [] -> try_from3 p a = Ok y ->
  match try_from3 p d with
  | Ok x => try_from3 p (a ++ d) = Ok (same_but x (d_preamable y ++ d_preamable x) (d_trailing x))
  | Err e => exists e', try_from3 p (a ++ d) = Err e' /\ err_type e' = err_type e
  | Panic => try_from3 p (a ++ d) = Panic
  | OutOfFuel => False
  end.
Proof.
  intros F C K. destruct (alone p a y F K) as (m & M & P).
  rewrite !try_from3_sections in *. rewrite fold_append, dinit_base, (fold_pre p a F), C. cbn [foldM bind app]. rewrite <- dinit_base.
  change (mkD (base (None, [])) a [] false) with (mkD (ds_construct dinit) a (ds_trail dinit) (ds_trailing dinit)).
  replace (mkD (ds_construct dinit) a (ds_trail dinit) (ds_trailing dinit)) with (with_pre a dinit) by (unfold with_pre; cbn; now rewrite app_nil_r).
  rewrite fold_with_pre. destruct (foldM (d_step p) dinit d) as [[k pre tr b]|e| |] eqn:EF; cbn [bind]; auto; [|eauto|].
  2:{ apply (proj1 (try_from3_runs p d)). rewrite try_from3_sections, EF. reflexivity. }
  assert (NF : sections p (mkD k pre tr b) <> OutOfFuel).
  { intros Z. apply (proj1 (try_from3_runs p d)). rewrite try_from3_sections, EF. exact Z. }
  unfold sections, with_pre in *. cbn [ds_construct ds_pre ds_trail] in *.
  pose proof (maths_app p a pre m M) as MA.
  destruct (maths_from_chunks p pre) as [q|e| |] eqn:Q; cbn [bind] in *; auto.
  2:{ destruct MA as (e' & -> & T). cbn [bind]. eauto. }
  2:{ now rewrite MA. }
  rewrite MA. cbn [bind]. rewrite par_app, P. cbn [bind].
  destruct (paragraph_from_chunks p q) as [q'|e| |]; cbn [bind] in *; eauto.
  destruct (maths_from_chunks p tr) as [n|e| |]; cbn [bind] in *; eauto.
  destruct (paragraph_from_chunks p n) as [n'|e| |]; cbn [bind] in *; eauto.
Qed.

(** ** Inside the [document] environment *)
Lemma step_document p k pre tr b l args content pb pe :
  d_step p (mkD k pre tr b) (mkChunk2 l (Environment2 (mkEnv2 (S! "document") args content pb pe))) =
  (let* a := args3_try_from p (maths_from_chunks p) args in
   let* m := maths_from_chunks p content in
   let* m := paragraph_from_chunks p m in
   Ok (mkD (mkDoc3 (d_class k) (d_options k) (d_preamable k) m a pb pe (d_trailing k)) pre tr true)).
Proof.
  unfold d_step. cbn [env_label2]. change (str_eqb (S! "document") s_document) with true. cbv iota. cbn [env3_try_from].
  destruct (args3_try_from p (maths_from_chunks p) args); cbn [bind]; auto. destruct (maths_from_chunks p content) as [m| | |]; cbn [bind]; auto.
  destruct (paragraph_from_chunks p m); reflexivity.
Qed.
Theorem inside_document p pre l args content pb pe post c x y : Forall (fun k => ~ is_document k) post ->
  Forall (fun k => ~ is_document k) c ->
  try_from3 p (pre ++ mkChunk2 l (Environment2 (mkEnv2 (S! "document") args content pb pe)) :: post) = Ok x ->
  try_from3 p c = Ok y ->
  try_from3 p (pre ++ mkChunk2 l (Environment2 (mkEnv2 (S! "document") args (content ++ c) pb pe)) :: post) =
  Ok (mkDoc3 (d_class x) (d_options x) (d_preamable x) (d_body x ++ d_preamable y) (d_body_args x) (d_begin_prec x) (d_end_prec x) (d_trailing x)).
Proof.
  intros Fp F H K. destruct (alone p c y F K) as (m & M & P). rewrite try_from3_sections in *. rewrite fold_append in *.
  destruct (foldM (d_step p) dinit pre) as [[k pr tr b]| | |]; cbn [bind foldM] in *; try discriminate.
  rewrite step_document in *. destruct (args3_try_from p (maths_from_chunks p) args) as [a| | |]; cbn [bind] in *; try discriminate.
  destruct (maths_from_chunks p content) as [q| | |] eqn:Q; cbn [bind] in *; try discriminate.
  rewrite (maths_app_ok p content c q m Q M). cbn [bind]. rewrite par_app.
  destruct (paragraph_from_chunks p q) as [q'| | |]; cbn [bind] in *; try discriminate. rewrite P. cbn [bind].
  rewrite (fold_post_plain p post Fp) in *. cbn [bind] in *. unfold sections in *. cbn [ds_construct ds_pre ds_trail] in *.
  destruct (maths_from_chunks p pr) as [u| | |]; cbn [bind] in *; try discriminate.
  destruct (paragraph_from_chunks p u) as [u'| | |]; cbn [bind] in *; try discriminate.
  destruct (maths_from_chunks p (tr ++ post)) as [n| | |]; cbn [bind] in *; try discriminate.
  destruct (paragraph_from_chunks p n) as [n'| | |]; cbn [bind] in *; try discriminate. injection H as <-. reflexivity.
Qed.
