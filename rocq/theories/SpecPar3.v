(** * SpecPar3: what paragraph splitting should do, independently of the code *)
From Verif Require Import Base Ast1 Parse1 Ast2 Ast3 SpecDoc1 SpecDoc3.

(** a text chunk, or nothing if the text is empty *)
Definition text_chunk3 (L : N) (s : str) : list chunk3 :=
  match s with [] => [] | _ => [mkChunk3 L (Text3 s)] end.

(** a paragraph break: blanks that begin with a newline and contain at least two *)
Definition is_break (b : str) : Prop :=
  (exists w, b = c_newline :: w) /\ forallb is_whitespace b = true /\ 2 <= count_newlines b.

(** the line number the code gives to a break that begins on line [l]: [l] if the break
    has two newlines, otherwise the line that its last newline ends *)
Definition break_line (l : N) (b : str) : N :=
  if count_newlines b =? 2 then l else l + (count_newlines b - 1).

(** [paragraphs L s cs]: the text [s] beginning on line [L] falls into the pieces [cs]:
    each break begins at the first newline that is followed, after blanks only, by another
    newline, and extends up to the next non-blank character; in between are texts. *)
Inductive paragraphs : N -> str -> list chunk3 -> Prop :=
| pp_text L s : ~ has_break s -> paragraphs L s (text_chunk3 L s)
| pp_break L t b rest cs :
    ~ has_break (t ++ [c_newline]) ->
    is_break b ->
    (forall c r, rest = c :: r -> is_whitespace c = false) ->
    paragraphs (L + count_newlines t + count_newlines b) rest cs ->
    paragraphs L (t ++ b ++ rest)
      (text_chunk3 L t ++ mkChunk3 (break_line (L + count_newlines t) b) (ParagraphBreak3 b) :: cs).

(** a list of chunks: texts are split, everything else is kept *)
Inductive split_all : list chunk3 -> list chunk3 -> Prop :=
| sa_nil : split_all [] []
| sa_text L s pieces cs cs' : paragraphs L s pieces -> split_all cs cs' ->
    split_all (mkChunk3 L (Text3 s) :: cs) (pieces ++ cs')
| sa_other c cs cs' : (forall s, variant_of3 c <> Text3 s) -> split_all cs cs' ->
    split_all (c :: cs) (c :: cs').

(** the arithmetic of the code stays in range on this chunk: the newline counter is an i32,
    the line number a u32 *)
Definition text_in_range (c : chunk3) : Prop :=
  match c with
  | mkChunk3 L (Text3 s) => count_newlines s < 2147483648 /\ L + count_newlines s < two32
  | _ => True
  end.
