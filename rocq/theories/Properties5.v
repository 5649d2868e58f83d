(** * Properties5: paragraph splitting (src/ast3/paragraph.rs)

    Only statements, one-line proofs, assumptions and non-vacuity examples. *)
From Verif Require Import Base Ast1 Parse1 Ast2 Ast3 SpecDoc1 SpecDoc2 SpecDoc3 SpecPar3 ModelTests1 Par3.

(** ** C25: paragraph splitting preserves the text *)
Theorem C25_display : forall p cs, Forall text_in_range cs ->
  exists cs', @paragraph_from_chunks error p cs = Ok cs' /\ show_chunks3 cs' = show_chunks3 cs.
Proof. exact (@paragraph_show_total error). Qed.
Print Assumptions C25_display.
Example C25_example : exists L s cs', Forall text_in_range [mkChunk3 L (Text3 s)] /\
  @paragraph_from_chunks error Debug [mkChunk3 L (Text3 s)] = Ok cs' /\ length cs' = 5%nat.
Proof.
  exists 4, (lines_of ["a "; " "; " b"; "c"; ""; ""; "d"]%string). eexists.
  split; [repeat constructor|]. split; [vm_compute; reflexivity|reflexivity].
Qed.

(** ** C26: the split is exactly the declared one (SpecPar3.v), which is unique *)
Theorem C26_exact : forall p cs cs', Forall text_in_range cs ->
  (@paragraph_from_chunks error p cs = Ok cs' <-> split_all cs cs').
Proof. exact (@paragraph_iff error). Qed.
Print Assumptions C26_exact.
Theorem C26_unique : forall cs a b, split_all cs a -> split_all cs b -> a = b.
Proof. exact (fun cs a b H => split_all_unique cs a H b). Qed.
Print Assumptions C26_unique.
Theorem C26_pieces : forall p cs cs' c, Forall text_in_range cs ->
  @paragraph_from_chunks error p cs = Ok cs' -> In c cs' ->
  (In c cs /\ forall s, variant_of3 c <> Text3 s) \/
  (exists l s, c = mkChunk3 l (Text3 s) /\ s <> [] /\ ~ has_break s) \/
  (exists l b, c = mkChunk3 l (ParagraphBreak3 b) /\ is_break b).
Proof. exact (@paragraph_pieces error). Qed.
Print Assumptions C26_pieces.
Example C26_example : @paragraph_from_chunks error Debug
    [mkChunk3 3 (Text3 (lines_of ["a"; " "; "b"; "c"; ""]%string)); mkChunk3 7 (ParagraphBreak3 (S! "x"))]
  = Ok [mkChunk3 3 (Text3 (S! "a")); mkChunk3 3 (ParagraphBreak3 [c_newline; 32; c_newline]);
        mkChunk3 5 (Text3 (lines_of ["b"; "c"; ""]%string)); mkChunk3 7 (ParagraphBreak3 (S! "x"))].
Proof. vm_compute. reflexivity. Qed.

(** ** C27: splitting twice is splitting once *)
Theorem C27_idempotent : forall p cs cs', Forall text_in_range cs ->
  @paragraph_from_chunks error p cs = Ok cs' -> @paragraph_from_chunks error p cs' = Ok cs'.
Proof. exact (@paragraph_idem error). Qed.
Print Assumptions C27_idempotent.

(** ** C28: line numbers of the pieces.  A break of three or more newlines does not carry the
    line on which it begins. *)
Theorem C28_break_line_refuted : exists L s cs' pre l b post,
  @paragraph_from_chunks error Debug [mkChunk3 L (Text3 s)] = Ok cs' /\
  cs' = pre ++ mkChunk3 l (ParagraphBreak3 b) :: post /\ l <> L + count_newlines (show_chunks3 pre).
Proof.
  exists 1, (lines_of ["a"; ""; ""; "b"]%string). eexists. exists [mkChunk3 1 (Text3 (S! "a"))]. do 3 eexists.
  split; [vm_compute; reflexivity|]. split; [reflexivity|vm_compute; discriminate].
Qed.
Print Assumptions C28_break_line_refuted.
(** every other piece is numbered correctly, and a break gets [break_line] of its true line *)
Theorem C28_lines_partial : forall p L s cs', text_in_range (mkChunk3 L (Text3 s)) ->
  @paragraph_from_chunks error p [mkChunk3 L (Text3 s)] = Ok cs' ->
  forall pre c post, cs' = pre ++ c :: post ->
  line_no3 c = match variant_of3 c with
               | ParagraphBreak3 b => break_line (L + count_newlines (show_chunks3 pre)) b
               | _ => L + count_newlines (show_chunks3 pre)
               end.
Proof. exact (@paragraph_piece_lines error). Qed.
Print Assumptions C28_lines_partial.
