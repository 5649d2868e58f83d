(** * Properties28: documents are not larger than their sources (C74)

    Only statements, short proofs from lemmas, assumptions and non-vacuity examples. The specification is in SpecSize.v. *)
From Verif Require Import Base Ast1 Parse1 Ast2 Ast3 ModelTests1 SpecDoc1 SpecDoc2 SpecDoc3 SpecMaths3 SpecSize SpecDepth Lines Facts1 Facts2 Valid2 MathsFwd MathsBwd Keep3 Depth3b Size Size3 Properties2.
From Coq Require Import Lia Arith.
Open Scope nat_scope.

(** ** C74: at most one node for each character of the source; Display never prints more than was read *)
Theorem C74_stage1 : forall p s d, source_fits s -> from_str1 p s = Ok d ->
  nodes1 d <= length (show1 d) <= length s.
Proof.
  intros p s d B H. split.
  - apply (nodes1_show _ d (le_n _)). intros es l t. exact (from_str1_no_empty p s d B H es l t).
  - apply degrades_length. exact (from_str1_degrades p s d B H).
Qed.
Print Assumptions C74_stage1.
(** recognising environments never adds nodes, whatever the document *)
Theorem C74_convert : forall p d d2, try_from2 p d = Ok d2 -> nodes2 d2 <= nodes1 d.
Proof. exact convert_nodes. Qed.
Print Assumptions C74_convert.
Theorem C74_stage2 : forall p s d, source_fits s -> from_str2 p s = Ok d ->
  nodes2 d <= length (show2 d) <= length s.
Proof.
  intros p s d2 B H. unfold from_str2 in H. destruct (from_str1 p s) as [d1|e| |] eqn:E; cbn [bind] in H; try discriminate.
  destruct (C74_stage1 p s d1 B E) as [H1 H2]. pose proof (convert_nodes p d1 d2 H). rewrite (C16_display p d1 d2 H). lia.
Qed.
Print Assumptions C74_stage2.
(** recognising maths can add nodes (the example below), but never more than there are characters; and no text or
    paragraph break in what it produces is empty, whatever it is given *)
Theorem C74_maths : forall p cs out, (count_newlines (show2 cs) < 2147483648)%N -> maths_from_chunks p cs = Ok out ->
  nodes3 out <= length (show_chunks3 out) <= length (show2 cs).
Proof.
  intros p cs out B H. split.
  - apply (nodes3_show _ out (le_n _)). exact (maths_fuel_full p _ cs _ H).
  - exact (maths_not_longer p cs out B H).
Qed.
Print Assumptions C74_maths.
Theorem C74_maths_no_empty : forall p cs out es l t, maths_from_chunks p cs = Ok out -> within3 out es ->
  In (mkChunk3 l (Text3 t)) es \/ In (mkChunk3 l (ParagraphBreak3 t)) es -> t <> [].
Proof. intros p cs out es l t H W [I|I]; [apply (proj1 (maths_fuel_full p _ cs _ H es W l t) I)|apply (proj2 (maths_fuel_full p _ cs _ H es W l t) I)]. Qed.
Print Assumptions C74_maths_no_empty.
(** a whole document: its three parts and the arguments of the [document] environment together *)
Theorem C74_stage3 : forall p s d, source_fits s -> (count_newlines s < 2147483648)%N -> from_str3 p s = Ok d ->
  document_nodes3 d <= length (show_chunks3 (d_preamable d)) + length (show_args3 (d_body_args d)) + length (show_chunks3 (d_body d)) + length (show_chunks3 (d_trailing d)) <= length s.
Proof.
  intros p s d3 B Bn H. unfold from_str3 in H. destruct (from_str2 p s) as [d2|e| |] eqn:E; cbn [bind] in H; try discriminate.
  pose proof (C74_stage2 p s d2 B E) as L. unfold from_str2 in E. destruct (from_str1 p s) as [d1|e| |] eqn:E1; cbn [bind] in E; try discriminate.
  assert (Sm : small (show2 d2)).
  { rewrite (C16_display p d1 d2 E). unfold small. change (Order.nl (show1 d1)) with (count_newlines (show1 d1)).
    pose proof (from_str1_newlines p s d1 B E1) as N. unfold nls in N. rewrite N. exact Bn. }
  pose proof (document_nodes p d2 d3 H). pose proof (document_length p d2 d3 Sm H). lia.
Qed.
Print Assumptions C74_stage3.
Theorem C74_stage3_no_empty : forall p s d, from_str3 p s = Ok d ->
  (forall sec es l t, within3 (get_section sec d) es -> In (mkChunk3 l (Text3 t)) es \/ In (mkChunk3 l (ParagraphBreak3 t)) es -> t <> []) /\
  (forall pre inner v es l t, In (pre, mkScope3 inner v) (d_body_args d) -> within3 inner es ->
     In (mkChunk3 l (Text3 t)) es \/ In (mkChunk3 l (ParagraphBreak3 t)) es -> t <> []).
Proof.
  intros p s d3 H. unfold from_str3 in H. destruct (from_str2 p s) as [d2|e| |]; cbn [bind] in H; try discriminate.
  destruct (document_full p d2 d3 H) as [F1 F2]. split.
  - intros sec es l t W [I|I]; [exact (proj1 (F1 sec es W l t) I)|exact (proj2 (F1 sec es W l t) I)].
  - intros pre inner v es l t Hi W [I|I]; [exact (proj1 (F2 pre inner v Hi es W l t) I)|exact (proj2 (F2 pre inner v Hi es W l t) I)].
Qed.
Print Assumptions C74_stage3_no_empty.

(** ** Examples *)
Definition C74_text : str := S! "\a{x}[y] \begin{q}z\end{q} $m$".
Example C74_example12 : exists d d2, source_fits C74_text /\ from_str1 Debug C74_text = Ok d /\ try_from2 Debug d = Ok d2 /\
  nodes1 d = 14 /\ nodes2 d2 = 9 /\ length C74_text = 30.
Proof.
  let x := eval vm_compute in (from_str1 Debug C74_text) in match x with Ok ?d => exists d end.
  let x := eval vm_compute in (from_str2 Debug C74_text) in match x with Ok ?d => exists d end.
  repeat split; vm_compute; reflexivity.
Qed.
(** the bound is attained *)
Example C74_attained : forall p, exists d, from_str1 p (S! "x") = Ok d /\ nodes1 d = length (S! "x").
Proof. intros []; eexists; (split; [vm_compute; reflexivity|reflexivity]). Qed.
Example C74_example3 : exists d2 out, from_str2 Debug C74_text = Ok d2 /\ maths_from_chunks Debug d2 = Ok out /\ nodes2 d2 = 9 /\ nodes3 out = 11.
Proof.
  let x := eval vm_compute in (from_str2 Debug C74_text) in match x with Ok ?d => exists d end.
  let x := eval vm_compute in (bind (from_str2 Debug C74_text) (maths_from_chunks Debug)) in match x with Ok ?d => exists d end.
  repeat split; vm_compute; reflexivity.
Qed.
Definition C74_document : str := S! "\documentclass{a}p\begin{document}[b]x $m$ {y}\end{document}t".
Example C74_example_document : exists d3, source_fits C74_document /\ (count_newlines C74_document < 2147483648)%N /\
  from_str3 Debug C74_document = Ok d3 /\ document_nodes3 d3 = 13 /\ length C74_document = 61.
Proof.
  let x := eval vm_compute in (from_str3 Debug C74_document) in match x with Ok ?d => exists d end.
  repeat split; vm_compute; reflexivity.
Qed.
