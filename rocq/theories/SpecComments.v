(** * SpecComments: sources whose comments contain no backslash *)

From Verif Require Import Base SpecDoc1.

(** No backslash of [s] lies inside a comment. *)
Definition quiet_comments (s : str) : Prop := forall a b,
  s = a ++ c_bslash :: b -> snd (scan false false a) = false.
