(** * SpecConcat: a source written below another one

    Only the tree types and the vocabulary of SpecDoc1.v are used. *)
From Verif Require Import Base Ast1 Ast2 SpecDoc1.

(** [k] lines further down *)
Definition below1 (k : N) (c : chunk1) : chunk1 := match c with mkChunk1 l v => mkChunk1 (l + k) v end.
Definition below2 (k : N) (c : chunk2) : chunk2 := match c with mkChunk2 l v => mkChunk2 (l + k) v end.
Definition below_error (k : N) (e : error) : error := mkError (err_line e + k) (err_type e).

(** The document does not end with a control word, nor with a control word and blanks: such a
    word could still take a letter or an argument. *)
Definition settled (d : list chunk1) : Prop :=
  (forall d0 w, d = d0 ++ [w] -> is_word1 w = false) /\
  (forall d0 w t, d = d0 ++ [w; t] -> is_blank1 t = true -> is_word1 w = false).

(** [glued1 d e x]: [x] is [d] followed by [e]; a last text of [d] and a first text of [e] are one text *)
Inductive glued1 : list chunk1 -> list chunk1 -> list chunk1 -> Prop :=
| glued_text1 d l s l' s' e :
    glued1 (d ++ [mkChunk1 l (Text1 s)]) (mkChunk1 l' (Text1 s') :: e) (d ++ mkChunk1 l (Text1 (s ++ s')) :: e)
| glued_other1 d e :
    ~ (exists d0 l s l' s' e0, d = d0 ++ [mkChunk1 l (Text1 s)] /\ e = mkChunk1 l' (Text1 s') :: e0) ->
    glued1 d e (d ++ e).
Inductive glued2 : list chunk2 -> list chunk2 -> list chunk2 -> Prop :=
| glued_text2 d l s l' s' e :
    glued2 (d ++ [mkChunk2 l (Text2 s)]) (mkChunk2 l' (Text2 s') :: e) (d ++ mkChunk2 l (Text2 (s ++ s')) :: e)
| glued_other2 d e :
    ~ (exists d0 l s l' s' e0, d = d0 ++ [mkChunk2 l (Text2 s)] /\ e = mkChunk2 l' (Text2 s') :: e0) ->
    glued2 d e (d ++ e).

(** No character after [s] is inside a comment or escaped by the end of [s]. *)
Definition clean_end (s : str) : Prop := scan false false s = (false, false).
