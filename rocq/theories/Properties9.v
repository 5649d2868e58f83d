(** * Properties9: Display and lines of stage-3 documents, and the way back to stage 2

    Only statements, short proofs from lemmas, assumptions and non-vacuity examples.
    Specifications: SpecMaths3.v ([tidy]), SpecClass3.v ([is_document]), SpecBack3.v. *)
From Verif Require Import Base Ast1 Parse1 Ast2 Ast3 SpecDoc1 SpecDoc2 SpecDoc3 SpecMaths3 SpecClass3 SpecBack3 ModelTests1
  MathsFwd MathsBwd Doc3 Back3.

(** ** C32: stage-3 Display.

    "Display reconstructs the original document" is false: without a document environment an
    empty one is printed; [\end] is printed with the blanks of [\begin]; of two document environments only the
    last body is printed; and maths may lose characters (C29). *)
Theorem C32_no_environment_refuted : exists s d3, from_str3 Debug s = Ok d3 /\
  s = S! "hello" /\ show3 d3 = S! "hello\begin{document}\end{document}".
Proof. exists (S! "hello"). eexists. split; [vm_compute; reflexivity|]. split; [reflexivity|vm_compute; reflexivity]. Qed.
Print Assumptions C32_no_environment_refuted.
Theorem C32_blanks_refuted : exists s d3, from_str3 Debug s = Ok d3 /\
  s = S! "\begin{document}x\end {document}" /\ show3 d3 = S! "\begin{document}x\end{document}".
Proof. eexists. eexists. split; [|split; [reflexivity|]]; vm_compute; reflexivity. Qed.
Print Assumptions C32_blanks_refuted.
Theorem C32_two_environments_refuted : exists s d3, from_str3 Debug s = Ok d3 /\
  s = S! "\begin{document}x\end{document}a\begin{document}y\end{document}b" /\
  show3 d3 = S! "\begin{document}y\end{document}ab".
Proof. eexists. eexists. split; [|split; [reflexivity|]]; vm_compute; reflexivity. Qed.
Print Assumptions C32_two_environments_refuted.
Theorem C32_maths_refuted : exists s d3, from_str3 Debug s = Ok d3 /\
  s = S! "\begin{document}$$a$b$\end{document}" /\ show3 d3 = S! "\begin{document}$$ab$$\end{document}".
Proof. eexists. eexists. split; [|split; [reflexivity|]]; vm_compute; reflexivity. Qed.
Print Assumptions C32_maths_refuted.

(** With exactly one document environment whose [\begin] and [\end] have the same blanks: Display is
    kept exactly for the tidy documents. *)
Theorem C32_display_exact_partial : forall p pre l args content pb post d3,
  Forall (fun c => ~ is_document c) pre -> Forall (fun c => ~ is_document c) post ->
  let d2 := pre ++ mkChunk2 l (Environment2 (mkEnv2 (S! "document") args content pb pb)) :: post in
  count_newlines (show2 d2) < 2147483648 ->
  try_from3 p d2 = Ok d3 ->
  (show3 d3 = show2 d2 <-> tidy (atoms d2)).
Proof. exact (fun p pre l args content pb post d3 H1 H2 H3 E => show3_exact p pre l args content pb pb post d3 H1 H2 H3 H3 E). Qed.
Print Assumptions C32_display_exact_partial.
(** With different blanks: what is printed is the document with the blanks of [\begin] at [\end]. *)
Theorem C32_display_blanks_partial : forall p pre l args content pb pe post d3,
  Forall (fun c => ~ is_document c) pre -> Forall (fun c => ~ is_document c) post ->
  let d2 := fun pe => pre ++ mkChunk2 l (Environment2 (mkEnv2 (S! "document") args content pb pe)) :: post in
  count_newlines (show2 (d2 pe)) < 2147483648 -> count_newlines (show2 (d2 pb)) < 2147483648 ->
  try_from3 p (d2 pe) = Ok d3 ->
  (show3 d3 = show2 (d2 pb) <-> tidy (atoms (d2 pb))).
Proof. exact show3_exact. Qed.
Print Assumptions C32_display_blanks_partial.
Theorem C32_display_no_environment_partial : forall p d2 d3, Forall (fun c => ~ is_document c) d2 ->
  count_newlines (show2 d2) < 2147483648 -> try_from3 p d2 = Ok d3 ->
  (show3 d3 = show2 d2 ++ S! "\begin{document}\end{document}" <-> tidy (atoms d2)).
Proof. exact show3_no_document. Qed.
Print Assumptions C32_display_no_environment_partial.
Definition C32_source : str := lines_of ["\documentclass{a}"; "\begin {document}[o]"; "$\alpha x$, \(b\)"; ""; "y\end {document}"; "z"]%string.
Example C32_example : exists pre l args content pb post d3,
  let d2 := pre ++ mkChunk2 l (Environment2 (mkEnv2 (S! "document") args content pb pb)) :: post in
  from_str2 Debug C32_source = Ok d2 /\ show2 d2 = C32_source /\
  Forall (fun c => ~ is_document c) pre /\ Forall (fun c => ~ is_document c) post /\
  try_from3 Debug d2 = Ok d3 /\ tidy (atoms d2) /\ show3 d3 = C32_source.
Proof.
  let x := eval vm_compute in (from_str2 Debug C32_source) in
  match x with Ok (?a :: ?b :: mkChunk2 ?l (Environment2 (mkEnv2 _ ?args ?content ?pb _)) :: ?post) => exists [a; b], l, args, content, pb, post end.
  eexists. split; [vm_compute; reflexivity|]. split; [vm_compute; reflexivity|].
  split; [repeat constructor; intros (? & ? & ? & ? & ? & ?); discriminate|].
  split; [repeat constructor; intros (? & ? & ? & ? & ? & ?); discriminate|].
  split; [vm_compute; reflexivity|]. split; [|vm_compute; reflexivity].
  eapply (maths_exact Debug); [vm_compute; reflexivity|vm_compute; reflexivity|vm_compute; reflexivity].
Qed.

(** ** C35: from stage 3 back to stage 2.

    With overflow checks a document on one line panics, even when parsed; and so does a maths block that
    recognition has given line number 0. *)
Theorem C35_panic_refuted : exists s d3, from_str3 Debug s = Ok d3 /\ s = S! "\begin{document}x\end{document}" /\
  @from3_to2 error Debug d3 = Panic.
Proof. exists (S! "\begin{document}x\end{document}"). eexists. split; [vm_compute; reflexivity|]. split; [reflexivity|vm_compute; reflexivity]. Qed.
Print Assumptions C35_panic_refuted.
Theorem C35_maths_panic_refuted : exists s d3, from_str3 Debug s = Ok d3 /\ 2 <= count_newlines s /\
  s = lines_of ["\begin{document}"; "$\(\)"; "\beta y$\end{document}"]%string /\ @from3_to2 error Debug d3 = Panic.
Proof.
  exists (lines_of ["\begin{document}"; "$\(\)"; "\beta y$\end{document}"]%string). eexists. split; [vm_compute; reflexivity|]. split; [vm_compute; discriminate|]. split; [reflexivity|vm_compute; reflexivity].
Qed.
Print Assumptions C35_maths_panic_refuted.
Theorem C35_display_refuted : exists s d3 d2, from_str3 Debug s = Ok d3 /\ @from3_to2 error Debug d3 = Ok d2 /\ show2 d2 <> show3 d3.
Proof.
  exists (lines_of ["\begin{document}"; "\end {document}"]%string). eexists. eexists. split; [vm_compute; reflexivity|]. split; [vm_compute; reflexivity|vm_compute; discriminate].
Qed.
Print Assumptions C35_display_refuted.
(** For every stage-3 document, parsed or not: Display is kept exactly if the blanks agree ... *)
Theorem C35_display_exact_partial : forall p d3 d2, @from3_to2 error p d3 = Ok d2 ->
  show2 d2 = full_text d3 /\ (show2 d2 = show3 d3 <-> d_begin_prec d3 = d_end_prec d3).
Proof. exact (fun p d3 d2 H => conj (back3_show p d3 d2 H) (back3_same p d3 d2 H)). Qed.
Print Assumptions C35_display_exact_partial.
(** ... without overflow checks it never panics ... *)
Theorem C35_release : forall d3, exists d2, @from3_to2 error Release d3 = Ok d2.
Proof. exact back3_release. Qed.
Print Assumptions C35_release.
(** ... and with overflow checks, if the maths blocks have line numbers and nothing overflows, exactly if there
    is a newline before the end of the document environment. *)
Theorem C35_debug_exact_partial : forall d3, maths_numbered d3 ->
  1 + line_sum_doc d3 + count_newlines (full_text d3) < 4294967296 ->
  (1 <= count_newlines (upto_end d3) -> exists d2, @from3_to2 error Debug d3 = Ok d2) /\
  (count_newlines (upto_end d3) = 0 -> @from3_to2 error Debug d3 = Panic).
Proof. exact (fun d3 H B => match back3_debug Debug d3 H B with conj H1 H2 => conj H1 (fun K => H2 K eq_refl) end). Qed.
Print Assumptions C35_debug_exact_partial.
Example C35_example : exists d3 d2, from_str3 Debug C32_source = Ok d3 /\ @from3_to2 error Debug d3 = Ok d2 /\
  show2 d2 = C32_source /\ maths_numbered d3 /\ d_begin_prec d3 = S! " " /\ d_end_prec d3 = S! " " /\
  1 + line_sum_doc d3 + count_newlines (full_text d3) < 4294967296 /\ 1 <= count_newlines (upto_end d3).
Proof.
  eexists. eexists. split; [vm_compute; reflexivity|]. split; [vm_compute; reflexivity|]. split; [vm_compute; reflexivity|].
  split; [apply nbc_doc; vm_compute; reflexivity|].
  split; [reflexivity|]. split; [reflexivity|]. split; [vm_compute; reflexivity|vm_compute; discriminate].
Qed.

(** ** C36: line count of a stage-3 document.  False: the newlines around and inside the arguments of
    [\begin{document}] are not counted. *)
Theorem C36_lines_refuted : exists s d3 n, from_str3 Debug s = Ok d3 /\ @lines3 error Debug d3 = Ok n /\
  n <> 1 + count_newlines (show3 d3) /\ show3 d3 = s.
Proof.
  exists (lines_of ["\begin{document}["; "]x\end{document}"]%string). eexists. eexists. split; [vm_compute; reflexivity|].
  split; [vm_compute; reflexivity|]. split; [vm_compute; discriminate|vm_compute; reflexivity].
Qed.
Print Assumptions C36_lines_refuted.
Theorem C36_lines_exact_partial : forall p d3, 1 + count_newlines (show3 d3) < 4294967296 ->
  exists n, @lines3 error p d3 = Ok n /\
    n + 2 * count_newlines (d_begin_prec d3) + count_newlines (show_args3 (d_body_args d3)) = 1 + count_newlines (show3 d3) /\
    (n = 1 + count_newlines (show3 d3) <-> count_newlines (d_begin_prec d3 ++ show_args3 (d_body_args d3)) = 0).
Proof. exact lines3_show. Qed.
Print Assumptions C36_lines_exact_partial.
Example C36_example : exists d3, from_str3 Debug C32_source = Ok d3 /\ @lines3 error Debug d3 = Ok 6 /\ count_newlines (show3 d3) = 5.
Proof. eexists. split; [vm_compute; reflexivity|]. split; vm_compute; reflexivity. Qed.
