(** * Properties3: the property theorems about stage 3 (src/ast3)

    Only statements, one-line proofs, assumptions and non-vacuity examples. *)
From Verif Require Import Base Ast1 Parse1 Ast2 Ast3 Spec1 SpecDoc1 SpecDoc2 SpecDoc3 ModelTests1 Tok Pure1 Refine1 Gram1 Ind Lines
  Facts1 Valid1 Valid2 Valid3 Rules.

(** ** C11 (stage 3): lines() counts the newlines of Display *)
Theorem C11_lines_chunk3 : forall p c, 1 + count_newlines (show_chunk3 c) < two32 ->
  @lines_chunk3 error p c = Ok (1 + count_newlines (show_chunk3 c)).
Proof. exact (@lines_ok3 error). Qed.
Print Assumptions C11_lines_chunk3.
Theorem C11_lines_scope3 : forall p c, 1 + count_newlines (show_scope3 c) < two32 ->
  @lines_scope3 error p c = Ok (1 + count_newlines (show_scope3 c)).
Proof. exact (@lines_scope3_correct error). Qed.
Print Assumptions C11_lines_scope3.
Theorem C11_lines_command3 : forall p c, 1 + count_newlines (show_command3 c) < two32 ->
  @lines_command3 error p c = Ok (1 + count_newlines (show_command3 c)).
Proof. exact (@lines_command3_correct error). Qed.
Print Assumptions C11_lines_command3.
Theorem C11_lines_env3 : forall p c, 1 + count_newlines (show_env3 c) < two32 ->
  @lines_env3 error p c = Ok (1 + count_newlines (show_env3 c)).
Proof. exact (@lines_env3_correct error). Qed.
Print Assumptions C11_lines_env3.
Theorem C11_lines_maths3 : forall p c, 1 + count_newlines (show_maths3 c) < two32 ->
  @lines_maths3 error p c = Ok (1 + count_newlines (show_maths3 c)).
Proof. exact (@lines_maths3_correct error). Qed.
Print Assumptions C11_lines_maths3.
Example C11_example3 : @lines_maths3 error Debug (mkMaths3 Dollars Outline [mkChunk3 1 (Text3 [97; c_newline])]) = Ok 2.
Proof. reflexivity. Qed.

(** ** C12 (stage 3): pushing appends to the Display of its section and leaves the rest alone *)
Theorem C12_push3 : forall p s d v d', push3 p s d v = Ok d' ->
  show_chunks3 (get_section s d') = show_chunks3 (get_section s d) ++ show_variant3 v /\
  (forall s', s' <> s -> get_section s' d' = get_section s' d) /\
  d_class d' = d_class d /\ d_options d' = d_options d /\ d_body_args d' = d_body_args d /\
  d_begin_prec d' = d_begin_prec d /\ d_end_prec d' = d_end_prec d.
Proof. exact push3_frame. Qed.
Print Assumptions C12_push3.
Theorem C12_push_chunk3 : forall p s d c d', push_chunk3 p s d c = Ok d' ->
  show_chunks3 (get_section s d') = show_chunks3 (get_section s d) ++ show_chunk3 c /\
  (forall s', s' <> s -> get_section s' d' = get_section s' d) /\
  d_class d' = d_class d /\ d_options d' = d_options d /\ d_body_args d' = d_body_args d /\
  d_begin_prec d' = d_begin_prec d /\ d_end_prec d' = d_end_prec d.
Proof. exact push_chunk3_frame. Qed.
Print Assumptions C12_push_chunk3.
Example C12_example3 : exists d, push3 Debug Trailing document3_default (ParagraphBreak3 [c_newline; c_newline]) = Ok d.
Proof. eexists. reflexivity. Qed.

(** ** C14 (stage 3): the exact result of push_chunk and push *)
Theorem C14_push_chunk3_any : forall p s d c L, ends_at3 (get_section s d) L -> L + 1 < two32 ->
  (forall e, validate_chunk3 p c = Err e -> push_chunk3 p s d c = Err e) /\
  (validate_chunk3 p c = Ok tt -> line_no3 c <> L ->
     push_chunk3 p s d c = Err (IncorrectChunkLineNumber L (line_no3 c))) /\
  (validate_chunk3 p c = Ok tt -> line_no3 c = L ->
     exists d', push_chunk3 p s d c = Ok d' /\ joined3 (get_section s d) c (get_section s d')).
Proof. exact push_chunk3_any. Qed.
Print Assumptions C14_push_chunk3_any.
Theorem C14_push3_any : forall p s d v L, ends_at3 (get_section s d) L -> L + 1 < two32 ->
  (forall e, validate_variant3 p v = Err e -> push3 p s d v = Err e) /\
  (validate_variant3 p v = Ok tt ->
     exists d', push3 p s d v = Ok d' /\ joined3 (get_section s d) (mkChunk3 L v) (get_section s d')).
Proof. exact push3_any. Qed.
Print Assumptions C14_push3_any.
Theorem C14_ends_at3 : forall d, well_formed_vec3 d -> ends_at3 d (1 + count_newlines (show_chunks3 d)).
Proof. exact wf_ends_at3. Qed.
Print Assumptions C14_ends_at3.
Example C14_example3 : ends_at3 (get_section Body document3_default) 1.
Proof. left. split; reflexivity. Qed.

(** ** C15 (stage 3): validate decides well-formedness *)
Theorem C15_validate3 : forall p d,
  1 + count_newlines (show_chunks3 (d_preamable d)) < two32 ->
  1 + count_newlines (show_chunks3 (d_body d)) < two32 ->
  1 + count_newlines (show_chunks3 (d_trailing d)) < two32 ->
  (validate3 p d = Ok tt <-> well_formed3 d).
Proof. exact validate3_iff. Qed.
Print Assumptions C15_validate3.
Example C15_example3 : validate3 Debug (mkDoc3 None [] []
  [mkChunk3 1 (Text3 (S! "a")); mkChunk3 1 (ParagraphBreak3 [c_newline; 32; c_newline]);
   mkChunk3 3 (Maths3 (mkMaths3 Dollars Inline [mkChunk3 1 (Text3 (S! "x"))]))] [] [] [] []) = Ok tt.
Proof. reflexivity. Qed.

(** ** C37: pushes into stage-3 documents: refuted; exactly when validity is kept *)
Theorem C37_push_refuted : exists d v d', validate3 Debug d = Ok tt /\ validate_variant3 Debug v = Ok tt /\
  push3 Debug Body d v = Ok d' /\ validate3 Debug d' = Err UnbrokenParagraph.
Proof.
  exists (mkDoc3 None [] [] [mkChunk3 1 (Text3 [97; c_newline])] [] [] [] []), (Text3 [c_newline; 98]).
  eexists. split; [reflexivity|]. split; [reflexivity|]. split; reflexivity.
Qed.
Print Assumptions C37_push_refuted.
(** one push keeps a document valid exactly if it does not join two texts into one with a
    paragraph break *)
Theorem C37_push_iff_partial : forall p s d v d', well_formed3 d ->
  2 + count_newlines (show_chunks3 (d_preamable d)) + count_newlines (show_chunks3 (d_body d))
    + count_newlines (show_chunks3 (d_trailing d)) + count_newlines (show_variant3 v) < two32 ->
  push3 p s d v = Ok d' -> (well_formed3 d' <-> joins_cleanly (get_section s d) v).
Proof. exact push3_wf_iff. Qed.
Print Assumptions C37_push_iff_partial.
Theorem C37_push_chunk_iff_partial : forall p s d c d', well_formed3 d ->
  2 + count_newlines (show_chunks3 (d_preamable d)) + count_newlines (show_chunks3 (d_body d))
    + count_newlines (show_chunks3 (d_trailing d)) + count_newlines (show_chunk3 c) < two32 ->
  push_chunk3 p s d c = Ok d' -> (well_formed3 d' <-> joins_cleanly (get_section s d) (variant_of3 c)).
Proof. exact push_chunk3_wf_iff. Qed.
Print Assumptions C37_push_chunk_iff_partial.
(** any history whose pushed texts have no newline keeps a valid document valid *)
Theorem C37_history_partial : forall p ops d, well_formed3 d ->
  (forall o s, In o ops -> op_variant3 o = Text3 s -> count_newlines s = 0) ->
  2 + count_newlines (show_chunks3 (d_preamable d)) + count_newlines (show_chunks3 (d_body d))
    + count_newlines (show_chunks3 (d_trailing d))
    + count_newlines (concat (map (fun o => show_variant3 (op_variant3 o)) ops)) < two32 ->
  exists d', run_ops3 p d ops = Ok d' /\ validate3 p d' = Ok tt.
Proof. exact run_ops3_valid. Qed.
Print Assumptions C37_history_partial.
Example C37_example : well_formed3 document3_default /\ exists d',
  run_ops3 Debug document3_default [OpPush3 Body (Text3 (S! "a")); OpPush3 Body (Text3 (S! "%"));
    OpPush3 Body (ParagraphBreak3 [c_newline; c_newline]); OpPushChunk3 Body (mkChunk3 3 (Text3 (S! "b")))] = Ok d' /\
  d_body d' = [mkChunk3 1 (Text3 (S! "a")); mkChunk3 1 (ParagraphBreak3 [c_newline; c_newline]); mkChunk3 3 (Text3 (S! "b"))].
Proof. split; [apply (validate3_iff Debug document3_default); reflexivity|]. eexists. split; reflexivity. Qed.
