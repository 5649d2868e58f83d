(** * SpecDelims: stage-3 documents without maths delimiters, independently of the code *)
From Verif Require Import Base Ast1 Ast2 Ast3.

(** a label that is one of the brackets of maths *)
Definition maths_label (lab : str) : Prop := lab = S! "(" \/ lab = S! ")" \/ lab = S! "[" \/ lab = S! "]".
(** What may stand at any place of a stage-3 document: a text is not empty and has no dollar, a paragraph break has nothing but
    blanks, no command is a bracket of maths. *)
Definition delimited (c : chunk3) : Prop :=
  match c with
  | mkChunk3 _ (Text3 s) => s <> [] /\ ~ In c_dollar s
  | mkChunk3 _ (ParagraphBreak3 s) => Forall (fun x => is_whitespace x = true) s
  | mkChunk3 _ (Command3 (mkCommand3 lab _)) => ~ maths_label lab
  | _ => True
  end.
