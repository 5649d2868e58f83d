(** * Lines: [lines()] is one plus the number of newlines of [to_string()], all stages *)
From Verif Require Import Base Ast1 Parse1 Ast2 Ast3 Spec1 Tok Pure1 Refine1 Ind.

Notation nlc := count_newlines.

Section Generic.
  Context {E A : Type} (p : profile) (f : A -> outcome E N) (show : A -> str).
  Definition good (a : A) : Prop := 1 + nlc (show a) < two32 -> f a = Ok (1 + nlc (show a)).

  Lemma nlc_concat_cons x (l : list A) :
    nlc (concat (map show (x :: l))) = nlc (show x) + nlc (concat (map show l)).
  Proof. cbn [map concat]. apply count_newlines_app. Qed.

  Lemma mapM_lines l : Forall good l -> 1 + nlc (concat (map show l)) < two32 ->
    mapM (fun c => let* l := f c in sub32 p l 1) l = Ok (map (fun c => nlc (show c)) l).
  Proof.
    induction 1 as [|x l Hx Hl IH]; intros Hb; cbn [mapM map]; [reflexivity|].
    rewrite nlc_concat_cons in Hb. rewrite Hx by lia. cbn [bind].
    rewrite sub32_ok by lia. cbn [bind]. rewrite IH by lia. cbn [bind].
    do 2 f_equal. lia.
  Qed.

  Lemma sum_lines l : forall acc, acc + nlc (concat (map show l)) < two32 ->
    foldM (@add32 E p) acc (map (fun c => nlc (show c)) l) = Ok (acc + nlc (concat (map show l))).
  Proof.
    induction l as [|x l IH]; intros acc Hb; cbn [foldM map].
    { cbn. now rewrite N.add_0_r. }
    change (show x :: map show l) with (map show (x :: l)) in *. rewrite nlc_concat_cons in *.
    rewrite add32_ok by lia. cbn [bind]. rewrite IH by lia. f_equal. lia.
  Qed.

  Lemma list_lines l : Forall good l -> 1 + nlc (concat (map show l)) < two32 ->
    (let* ls := mapM (fun c => let* l := f c in sub32 p l 1) l in
     let* t := sum32 p ls in add32 p t 1) = Ok (1 + nlc (concat (map show l))).
  Proof.
    intros H Hb. rewrite mapM_lines by assumption. cbn [bind]. unfold sum32.
    rewrite sum_lines by lia. cbn [bind]. rewrite add32_ok by lia. f_equal; lia.
  Qed.

  Lemma fold_lines l : Forall good l -> forall acc, acc + 1 + nlc (concat (map show l)) < two32 ->
    foldM (fun lines c => let* l := f c in let* l := sub32 p l 1 in add32 p lines l) acc l
    = Ok (acc + nlc (concat (map show l))).
  Proof.
    induction 1 as [|x l Hx Hl IH]; intros acc Hb; cbn [foldM].
    { cbn. now rewrite N.add_0_r. }
    rewrite nlc_concat_cons in *. rewrite Hx by lia. cbn [bind]. rewrite sub32_ok by lia. cbn [bind].
    rewrite add32_ok by lia. cbn [bind]. rewrite IH by lia. f_equal; lia.
  Qed.
End Generic.

Lemma args_lines {E A} (p : profile) (f : A -> outcome E N) (show : A -> str) (args : list (str * A)) :
  Forall (fun a => good f show (snd a)) args -> forall acc,
  acc + 1 + nlc (concat (map (fun a => match a with (pre, sc) => pre ++ show sc end) args)) < two32 ->
  foldM (fun total a => match a with (prec, arg) =>
           let* total := add32 p total (as_u32 (nlc prec)) in
           let* l := f arg in
           let* l := sub32 p l 1 in
           add32 p total l end) acc args
  = Ok (acc + nlc (concat (map (fun a => match a with (pre, sc) => pre ++ show sc end) args))).
Proof.
  induction 1 as [|[pre sc] args Hx Hl IH]; intros acc Hb; cbn [foldM map concat].
  { cbn. now rewrite N.add_0_r. }
  cbn [map concat snd] in *. rewrite !count_newlines_app in *.
  rewrite as_u32_ok by lia. rewrite add32_ok by lia. cbn [bind].
  rewrite Hx by lia. cbn [bind]. rewrite sub32_ok by lia. cbn [bind].
  rewrite add32_ok by lia. cbn [bind]. rewrite IH by lia. f_equal; lia.
Qed.

Lemma nlc_open1 v s : nlc (open1 v :: s) = nlc s.
Proof. rewrite count_newlines_cons. destruct v; reflexivity. Qed.
Lemma nlc_close1 v : nlc [close1 v] = 0.
Proof. destruct v; reflexivity. Qed.
Lemma nlc_open2 v s : nlc (open2 v :: s) = nlc s.
Proof. rewrite count_newlines_cons. destruct v; reflexivity. Qed.
Lemma nlc_close2 v : nlc [close2 v] = 0.
Proof. destruct v; reflexivity. Qed.
Lemma nlc_open3 v s : nlc (open3 v :: s) = nlc s.
Proof. rewrite count_newlines_cons. destruct v; reflexivity. Qed.
Lemma nlc_close3 v : nlc [close3 v] = 0.
Proof. destruct v; reflexivity. Qed.
Lemma nlc_bslash s : nlc (c_bslash :: s) = nlc s.
Proof. rewrite count_newlines_cons. reflexivity. Qed.
Lemma nlc_lcurly s : nlc (c_lcurly :: s) = nlc s.
Proof. rewrite count_newlines_cons. reflexivity. Qed.
Lemma nlc_rcurly s : nlc (c_rcurly :: s) = nlc s.
Proof. rewrite count_newlines_cons. reflexivity. Qed.

(** ** Stage 1 *)
Section S1.
  Context {E : Type} (p : profile).
  Notation L1 := (@lines_chunk1 E p).

  Lemma lines_scope1_ok cs v : Forall (good L1 show_chunk1) cs ->
    good (@lines_scope1 E p) show_scope1 (mkScope1 cs v).
  Proof.
    intros H Hb. cbn [show_scope1 lines_scope1] in *.
    rewrite nlc_open1, count_newlines_app, nlc_close1, N.add_0_r in *.
    apply (list_lines p L1 show_chunk1); assumption.
  Qed.

  Lemma lines_args1_ok (args : list (str * scope1)) :
    Forall (fun a => Forall (good L1 show_chunk1) (chunks1 (snd a))) args ->
    Forall (fun a => good (@lines_scope1 E p) show_scope1 (snd a)) args.
  Proof.
    intros H. eapply Forall_impl; [|exact H]. intros [pre [cs v]] Ha. cbn [snd chunks1] in *. apply lines_scope1_ok, Ha.
  Qed.

  Lemma lines_chunk1_ok c : good L1 show_chunk1 c.
  Proof.
    induction c as [l s|l lab args H|l cs v H] using chunk1_ind'; intros Hb; cbn [show_chunk1 show_variant1 lines_chunk1 lines_variant1] in *.
    - rewrite as_u32_ok by lia. rewrite add32_ok by lia. f_equal; lia.
    - cbn [show_command1 lines_command1] in *. rewrite nlc_bslash, count_newlines_app in *.
      rewrite as_u32_ok by lia.
      rewrite (args_lines p (@lines_scope1 E p) show_scope1); [|apply lines_args1_ok, H|lia].
      cbn [bind]. rewrite add32_ok by lia. f_equal; lia.
    - apply lines_scope1_ok; assumption.
  Qed.

  Theorem lines_scope1_correct s : good (@lines_scope1 E p) show_scope1 s.
  Proof. destruct s. apply lines_scope1_ok. apply chunks1_ind'; intros; apply lines_chunk1_ok. Qed.
  Theorem lines_command1_correct c : good (@lines_command1 E p) show_command1 c.
  Proof. intros Hb. exact (lines_chunk1_ok (mkChunk1 1 (Command1 c)) Hb). Qed.
  Theorem lines1_correct d : good (@lines1 E p) show1 d.
  Proof.
    intros Hb. apply (list_lines p L1 show_chunk1); [|exact Hb].
    apply chunks1_ind'; intros; apply lines_chunk1_ok.
  Qed.
End S1.

(** ** Stage 2 *)
Section S2.
  Context {E : Type} (p : profile).
  Notation L2 := (@lines_chunk2 E p).

  Lemma lines_scope2_ok cs v : Forall (good L2 show_chunk2) cs ->
    good (@lines_scope2 E p) show_scope2 (mkScope2 cs v).
  Proof.
    intros H Hb. cbn [show_scope2 lines_scope2] in *.
    rewrite nlc_open2, count_newlines_app, nlc_close2, N.add_0_r in *.
    apply (list_lines p L2 show_chunk2); assumption.
  Qed.

  Lemma lines_args2_ok (args : list (str * scope2)) :
    Forall (fun a => Forall (good L2 show_chunk2) (chunks2 (snd a))) args ->
    Forall (fun a => good (@lines_scope2 E p) show_scope2 (snd a)) args.
  Proof.
    intros H. eapply Forall_impl; [|exact H]. intros [pre [cs v]] Ha. cbn [snd chunks2] in *. apply lines_scope2_ok, Ha.
  Qed.

  Lemma nlc_env2 label args content pb pe :
    nlc (show_env2 (mkEnv2 label args content pb pe))
    = nlc label * 2 + nlc (pb ++ pe)
      + nlc (concat (map (fun a => match a with (pre, sc) => pre ++ show_scope2 sc end) args))
      + nlc (concat (map show_chunk2 content)).
  Proof.
    cbn [show_env2].
    repeat first [rewrite count_newlines_app | rewrite nlc_lcurly | rewrite nlc_rcurly | rewrite nlc_bslash ].
    change (nlc s_begin) with 0. change (nlc s_end) with 0. rewrite !count_newlines_nil. lia.
  Qed.

  Lemma lines_chunk2_ok c : good L2 show_chunk2 c.
  Proof.
    induction c as [l s|l lab args H|l cs v H|l lab args cs pb pe Ha Hc] using chunk2_ind';
      intros Hb; cbn [show_chunk2 show_variant2 lines_chunk2 lines_variant2] in *.
    - rewrite as_u32_ok by lia. rewrite add32_ok by lia. f_equal; lia.
    - cbn [show_command2 lines_command2] in *. rewrite nlc_bslash, count_newlines_app in *.
      rewrite as_u32_ok by lia.
      rewrite (args_lines p (@lines_scope2 E p) show_scope2); [|apply lines_args2_ok, H|lia].
      cbn [bind]. rewrite add32_ok by lia. f_equal; lia.
    - apply lines_scope2_ok; assumption.
    - rewrite nlc_env2 in *. cbn [lines_env2].
      rewrite !as_u32_ok by lia. rewrite mul32_ok by lia. cbn [bind]. rewrite add32_ok by lia. cbn [bind].
      rewrite (args_lines p (@lines_scope2 E p) show_scope2); [|apply lines_args2_ok, Ha|lia]. cbn [bind].
      rewrite (fold_lines p L2 show_chunk2); [|exact Hc|lia]. cbn [bind].
      rewrite add32_ok by lia. f_equal; lia.
  Qed.

  Theorem lines_scope2_correct s : good (@lines_scope2 E p) show_scope2 s.
  Proof. destruct s. apply lines_scope2_ok. apply chunks2_ind'; intros; apply lines_chunk2_ok. Qed.
  Theorem lines_command2_correct c : good (@lines_command2 E p) show_command2 c.
  Proof. intros Hb. exact (lines_chunk2_ok (mkChunk2 1 (Command2 c)) Hb). Qed.
  Theorem lines_env2_correct e : good (@lines_env2 E p) show_env2 e.
  Proof. intros Hb. exact (lines_chunk2_ok (mkChunk2 1 (Environment2 e)) Hb). Qed.
  Theorem lines2_correct d : good (@lines2 E p) show2 d.
  Proof.
    intros Hb. apply (list_lines p L2 show_chunk2); [|exact Hb].
    apply chunks2_ind'; intros; apply lines_chunk2_ok.
  Qed.
End S2.

(** ** Stage 3 *)
Section S3.
  Context {E : Type} (p : profile).
  Notation L3 := (@lines_chunk3 E p).

  Lemma lines_scope3_ok cs v : Forall (good L3 show_chunk3) cs ->
    good (@lines_scope3 E p) show_scope3 (mkScope3 cs v).
  Proof.
    intros H Hb. cbn [show_scope3 lines_scope3] in *.
    rewrite nlc_open3, count_newlines_app, nlc_close3, N.add_0_r in *.
    apply (list_lines p L3 show_chunk3); assumption.
  Qed.

  Lemma lines_args3_ok (args : list (str * scope3)) :
    Forall (fun a => Forall (good L3 show_chunk3) (chunks3 (snd a))) args ->
    Forall (fun a => good (@lines_scope3 E p) show_scope3 (snd a)) args.
  Proof.
    intros H. eapply Forall_impl; [|exact H]. intros [pre [cs v]] Ha. cbn [snd chunks3] in *. apply lines_scope3_ok, Ha.
  Qed.

  Lemma nlc_env3 label args content pb pe :
    nlc (show_env3 (mkEnv3 label args content pb pe))
    = nlc label * 2 + nlc (pb ++ pe)
      + nlc (concat (map (fun a => match a with (pre, sc) => pre ++ show_scope3 sc end) args))
      + nlc (concat (map show_chunk3 content)).
  Proof.
    cbn [show_env3].
    repeat first [rewrite count_newlines_app | rewrite nlc_lcurly | rewrite nlc_rcurly | rewrite nlc_bslash ].
    change (nlc s_begin) with 0. change (nlc s_end) with 0. rewrite !count_newlines_nil. lia.
  Qed.
  Lemma nlc_maths3 v t cs : nlc (show_maths3 (mkMaths3 v t cs)) = nlc (concat (map show_chunk3 cs)).
  Proof.
    cbn [show_maths3]. rewrite !count_newlines_app.
    assert (H : nlc (fst (maths_delims v t)) = 0 /\ nlc (snd (maths_delims v t)) = 0) by (destruct v, t; split; reflexivity).
    lia.
  Qed.

  Lemma lines_chunk3_ok c : good L3 show_chunk3 c.
  Proof.
    induction c as [l s|l s|l lab args H|l cs v H|l lab args cs pb pe Ha Hc|l v t cs Hc] using chunk3_ind';
      intros Hb; cbn [show_chunk3 show_variant3 lines_chunk3 lines_variant3] in *.
    - rewrite as_u32_ok by lia. rewrite add32_ok by lia. f_equal; lia.
    - rewrite as_u32_ok by lia. rewrite add32_ok by lia. f_equal; lia.
    - cbn [show_command3 lines_command3] in *. rewrite nlc_bslash, count_newlines_app in *.
      rewrite as_u32_ok by lia.
      rewrite (args_lines p (@lines_scope3 E p) show_scope3); [|apply lines_args3_ok, H|lia].
      cbn [bind]. rewrite add32_ok by lia. f_equal; lia.
    - apply lines_scope3_ok; assumption.
    - rewrite nlc_env3 in *. cbn [lines_env3].
      rewrite !as_u32_ok by lia. rewrite mul32_ok by lia. cbn [bind]. rewrite add32_ok by lia. cbn [bind].
      rewrite (args_lines p (@lines_scope3 E p) show_scope3); [|apply lines_args3_ok, Ha|lia]. cbn [bind].
      rewrite (fold_lines p L3 show_chunk3); [|exact Hc|lia]. cbn [bind].
      rewrite add32_ok by lia. f_equal; lia.
    - rewrite nlc_maths3 in *. cbn [lines_maths3]. apply (list_lines p L3 show_chunk3); assumption.
  Qed.

  Theorem lines_scope3_correct s : good (@lines_scope3 E p) show_scope3 s.
  Proof. destruct s. apply lines_scope3_ok. apply chunks3_ind'; intros; apply lines_chunk3_ok. Qed.
  Theorem lines_command3_correct c : good (@lines_command3 E p) show_command3 c.
  Proof. intros Hb. exact (lines_chunk3_ok (mkChunk3 1 (Command3 c)) Hb). Qed.
  Theorem lines_env3_correct e : good (@lines_env3 E p) show_env3 e.
  Proof. intros Hb. exact (lines_chunk3_ok (mkChunk3 1 (Environment3 e)) Hb). Qed.
  Theorem lines_maths3_correct m : good (@lines_maths3 E p) show_maths3 m.
  Proof. intros Hb. exact (lines_chunk3_ok (mkChunk3 1 (Maths3 m)) Hb). Qed.
End S3.
