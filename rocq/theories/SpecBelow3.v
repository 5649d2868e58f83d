(** * SpecBelow3: the same chunks further down

    The content of a bracketed maths block is numbered like the list it is in, every other content on its own. *)
From Verif Require Import Base Ast1 Ast2 Ast3.

(** [k] lines further down *)
Fixpoint below3 (k : N) (c : chunk3) {struct c} : chunk3 :=
  match c with mkChunk3 l v => mkChunk3 (l + k) (below_variant3 k v) end
with below_variant3 (k : N) (v : variant3) {struct v} : variant3 :=
  match v with
  | Maths3 m => Maths3 (below_maths3 k m)
  | _ => v
  end
with below_maths3 (k : N) (m : maths3) {struct m} : maths3 :=
  match m with
  | mkMaths3 Brackets t content => mkMaths3 Brackets t (map (below3 k) content)
  | mkMaths3 Dollars t content => mkMaths3 Dollars t content
  end.
(** the document class, the options and the [document] environment stay *)
Definition below_document3 (before : list chunk3) (k : N) (d : document3) : document3 :=
  mkDoc3 (d_class d) (d_options d) (before ++ map (below3 k) (d_preamable d)) (d_body d) (d_body_args d) (d_begin_prec d) (d_end_prec d)
    (map (below3 k) (d_trailing d)).
(** a text on both sides of the seam: the two become one text *)
Definition seam (a d : list chunk2) : Prop := exists a0 l x l' y d0, a = a0 ++ [mkChunk2 l (Text2 x)] /\ d = mkChunk2 l' (Text2 y) :: d0.
