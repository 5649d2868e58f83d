(** * Doc3: Display and line count of stage-3 documents *)
From Verif Require Import Base Ast1 Parse1 Ast2 Ast3 SpecDoc1 SpecDoc2 SpecDoc3 SpecMaths3 SpecClass3 Tok Ind Lines Eqb Refine1 Valid3 Par3 Maths3 MathsFwd MathsBwd MathsRun Mono MathsRec Class3.
From Coq Require Import Lia.

(** ** Display *)
Definition doc_env (d : document3) (pe : str) : chunk3 :=
  mkChunk3 1 (Environment3 (mkEnv3 s_document (d_body_args d) (d_body d) (d_begin_prec d) pe)).
Lemma show3_env d : show3 d = show_chunks3 (d_preamable d) ++ show_chunk3 (doc_env d (d_begin_prec d)) ++ show_chunks3 (d_trailing d).
Proof.
  unfold show3. cbv zeta. rewrite !map_app, !concat_app. unfold show_chunks3. f_equal. rewrite !app_assoc. f_equal.
  cbn [map concat doc_env show_chunk3 show_variant3 show_command3 show_scope3 show_env3 app open3 close3]. rewrite ?app_nil_r.
  repeat (rewrite <- !app_assoc; cbn [app]). reflexivity.
Qed.
Theorem lines3_exact {E} p d :
  1 + count_newlines (show_chunks3 (d_preamable d ++ d_body d ++ d_trailing d)) < two32 ->
  @lines3 E p d = Ok (1 + count_newlines (show_chunks3 (d_preamable d ++ d_body d ++ d_trailing d))).
Proof. intros H. unfold lines3. apply list_lines; [|exact H]. apply Forall_forall. intros c _. apply lines_chunk3_ok. Qed.
Theorem show3_newlines d : count_newlines (show3 d) =
  count_newlines (show_chunks3 (d_preamable d ++ d_body d ++ d_trailing d)) + 2 * count_newlines (d_begin_prec d) + count_newlines (show_args3 (d_body_args d)).
Proof.
  rewrite show3_env, !show_chunks3_app, !count_newlines_app. unfold doc_env. cbn [show_chunk3 show_variant3]. rewrite nlc_env3.
  fold (show_chunks3 (d_body d)). fold (show_args3 (d_body_args d)). 
  rewrite !count_newlines_app. change (count_newlines s_document) with 0. lia.
Qed.

(** ** From stage 2, with exactly one document environment *)
Lemma maths_single_env p l e e3 : env3_try_from p (maths_from_chunks p) e = Ok e3 ->
  maths_from_chunks p [mkChunk2 l (Environment2 e)] = Ok [mkChunk3 l (Environment3 e3)].
Proof. intros H. rewrite maths_unfold. cbn [foldM m_step minit ms_mode is_none]. rewrite H. cbn [bind]. reflexivity. Qed.
Lemma env3_frame p rec lab args content pb pe e3 : env3_try_from p rec (mkEnv2 lab args content pb pe) = Ok e3 ->
  exists a c, e3 = mkEnv3 lab a c pb pe /\ env3_try_from p rec (mkEnv2 lab args content pb pb) = Ok (mkEnv3 lab a c pb pb).
Proof.
  cbn [env3_try_from]. destruct (args3_try_from p rec args) as [a|e| |]; cbn [bind]; try discriminate.
  destruct (rec content) as [c|e| |]; cbn [bind]; try discriminate. destruct (paragraph_from_chunks p c) as [c'|e| |]; cbn [bind]; try discriminate.
  intros H. injection H as <-. now exists a, c'.
Qed.
Lemma sections_show p st d3 : small (show2 (ds_pre st)) -> small (show2 (ds_trail st)) -> sections p st = Ok d3 ->
  exists o o2, maths_from_chunks p (ds_pre st) = Ok o /\ maths_from_chunks p (ds_trail st) = Ok o2 /\
    show_chunks3 (d_preamable d3) = show_chunks3 o /\ show_chunks3 (d_trailing d3) = show_chunks3 o2 /\
    d_body d3 = d_body (ds_construct st) /\ d_body_args d3 = d_body_args (ds_construct st) /\
    d_begin_prec d3 = d_begin_prec (ds_construct st) /\ d_end_prec d3 = d_end_prec (ds_construct st).
Proof.
  unfold sections. cbv zeta. intros S1 S2.
  destruct (maths_from_chunks p (ds_pre st)) as [o|e| |] eqn:E1; cbn [bind]; try discriminate. destruct (@paragraph_from_chunks error p o) as [o'|e| |] eqn:P1; cbn [bind]; try discriminate.
  destruct (maths_from_chunks p (ds_trail st)) as [o2|e| |] eqn:E2; cbn [bind]; try discriminate. destruct (@paragraph_from_chunks error p o2) as [o2'|e| |] eqn:P2; cbn [bind]; try discriminate.
  intros H. injection H as <-. exists o, o2. cbn [d_preamable d_trailing d_body d_body_args d_begin_prec d_end_prec].
  apply paragraph_show_any in P1; [|apply (small_below _ _ (maths_never_more p _ _ S1 E1) S1)].
  apply paragraph_show_any in P2; [|apply (small_below _ _ (maths_never_more p _ _ S2 E2) S2)]. repeat split; assumption.
Qed.
Lemma try_from3_sections p d : try_from3 p d = let* st := foldM (d_step p) dinit d in sections p st.
Proof. reflexivity. Qed.

Lemma show2_app a b : show2 (a ++ b) = show2 a ++ show2 b.
Proof. unfold show2. now rewrite map_app, concat_app. Qed.
Lemma small_parts pre c post : small (show2 (pre ++ c :: post)) -> small (show2 pre) /\ small (show2 post).
Proof.
  intros H. rewrite show2_app in H. apply small_app in H as [H1 H2]. split; [exact H1|]. unfold show2 in *. cbn [map concat] in H2. now apply small_app in H2 as [_ H2].
Qed.
Lemma one_document p pre l args content pb pe post d3 :
  Forall (fun c => ~ is_document c) pre -> Forall (fun c => ~ is_document c) post ->
  small (show2 (pre ++ mkChunk2 l (Environment2 (mkEnv2 (S! "document") args content pb pe)) :: post)) ->
  try_from3 p (pre ++ mkChunk2 l (Environment2 (mkEnv2 (S! "document") args content pb pe)) :: post) = Ok d3 ->
  exists out, maths_from_chunks p (pre ++ mkChunk2 l (Environment2 (mkEnv2 (S! "document") args content pb pb)) :: post) = Ok out /\
    show3 d3 = show_chunks3 out /\ d_begin_prec d3 = pb /\ d_end_prec d3 = pe.
Proof.
  intros H1 H2 Hs. apply small_parts in Hs as [S1 S2]. rewrite try_from3_sections, dinit_base, foldM_app', (fold_pre p pre H1). cbn [app].
  destruct (foldM cstep _ _) as [co|e| |]; cbn [bind]; try discriminate. cbn [foldM]. unfold d_step at 1. cbn [env_label2].
  change (str_eqb (S! "document") s_document) with true. cbn iota.
  destruct (env3_try_from p (maths_from_chunks p) (mkEnv2 (S! "document") args content pb pe)) as [e3|e| |] eqn:Ee; cbn [bind]; try discriminate.
  destruct (env3_frame _ _ _ _ _ _ _ _ Ee) as (a & c & -> & Ee'). cbn [bind]. unfold base at 1. cbn [ds_construct ds_pre ds_trail d_class d_options d_preamable d_trailing base].
  rewrite (fold_post_plain p post H2). cbn [bind app]. intros E. apply sections_show in E; [|exact S1|exact S2].
  cbn [ds_pre ds_trail ds_construct d_body d_body_args d_begin_prec d_end_prec] in E. destruct E as (o & o2 & M1 & M2 & Sh1 & Sh2 & B1 & B2 & B3 & B4).
  apply (maths_single_env p l) in Ee'.
  eexists. split.
  - change (mkChunk2 l (Environment2 (mkEnv2 (S! "document") args content pb pb)) :: post) with ([mkChunk2 l (Environment2 (mkEnv2 (S! "document") args content pb pb))] ++ post).
    apply maths_app_ok; [exact M1|]. apply maths_app_ok; [exact Ee'|exact M2].
  - split; [|now split]. rewrite show3_env, !show_chunks3_app, Sh1, Sh2. unfold doc_env. rewrite B1, B2, B3. rewrite show_chunks3_one. reflexivity.
Qed.
Theorem show3_exact p pre l args content pb pe post d3 :
  Forall (fun c => ~ is_document c) pre -> Forall (fun c => ~ is_document c) post ->
  small (show2 (pre ++ mkChunk2 l (Environment2 (mkEnv2 (S! "document") args content pb pe)) :: post)) ->
  small (show2 (pre ++ mkChunk2 l (Environment2 (mkEnv2 (S! "document") args content pb pb)) :: post)) ->
  try_from3 p (pre ++ mkChunk2 l (Environment2 (mkEnv2 (S! "document") args content pb pe)) :: post) = Ok d3 ->
  (show3 d3 = show2 (pre ++ mkChunk2 l (Environment2 (mkEnv2 (S! "document") args content pb pb)) :: post) <->
   tidy (atoms (pre ++ mkChunk2 l (Environment2 (mkEnv2 (S! "document") args content pb pb)) :: post))).
Proof.
  intros H1 H2 Hs Hs' E. destruct (one_document p pre l args content pb pe post d3 H1 H2 Hs E) as (out & M & -> & _). exact (maths_exact p _ _ Hs' M).
Qed.
(** without a document environment an empty one is printed at the end *)
Theorem show3_no_document p d d3 : Forall (fun c => ~ is_document c) d -> small (show2 d) -> try_from3 p d = Ok d3 ->
  (show3 d3 = show2 d ++ S! "\begin{document}\end{document}" <-> tidy (atoms d)).
Proof.
  intros H Hs. rewrite try_from3_sections, dinit_base, (fold_pre p d H). cbn [app]. destruct (foldM cstep _ _) as [co|e| |]; cbn [bind]; try discriminate.
  intros E. apply sections_show in E; [|exact Hs|reflexivity]. cbn [ds_pre ds_trail ds_construct base d_body d_body_args d_begin_prec d_end_prec] in E.
  destruct E as (o & o2 & M1 & M2 & Sh1 & Sh2 & B1 & B2 & B3 & B4). change (maths_from_chunks p []) with (@Ok error (list chunk3) []) in M2. injection M2 as <-.
  rewrite show3_env, Sh1, Sh2. unfold doc_env. rewrite B1, B2, B3. change (show_chunks3 []) with (@nil N). rewrite app_nil_r.
  rewrite <- (maths_exact p d o Hs M1). split; [intros K; apply (app_inv_tail (S! "\begin{document}\end{document}")); exact K|intros ->; reflexivity].
Qed.
Theorem lines3_show {E} p d : 1 + count_newlines (show3 d) < two32 ->
  exists n, @lines3 E p d = Ok n /\
    n + 2 * count_newlines (d_begin_prec d) + count_newlines (show_args3 (d_body_args d)) = 1 + count_newlines (show3 d) /\
    (n = 1 + count_newlines (show3 d) <-> count_newlines (d_begin_prec d ++ show_args3 (d_body_args d)) = 0).
Proof.
  rewrite show3_newlines, count_newlines_app. intros H. rewrite lines3_exact by lia. eexists. split; [reflexivity|]. split; [lia|]. split; lia.
Qed.
