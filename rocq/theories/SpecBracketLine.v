(** * SpecBracketLine: the line that the code reports for an unclosed dollar *)

From Verif Require Import Base Ast1 Ast2 Ast3.

(** Line number of the last bracketed maths block directly in a list; 0 if there is none. *)
Definition last_bracket_line (cs : list chunk3) : N :=
  fold_left (fun line c => match c with
    | mkChunk3 l (Maths3 (mkMaths3 Brackets _ _)) => l
    | _ => line
    end) cs 0.
