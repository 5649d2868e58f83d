(** * Tests of the stage-3 model: the unit tests of src/tests/ast3.rs, replayed on the
      model.  These are tests, not proofs of any property. *)
From Verif Require Import Base Ast1 Parse1 Ast2 Ast3 ModelTests1.

Definition basic3_src : str := lines_of
 ["\documentclass{article}"; ""; "\usepackage{amsmath}"; ""; "\begin{document}"; "    Hello";
  "    \begin{itemize}{item}"; "        \item test"; "        \item test2"; "        \item test3 $$hello";
  ""; "world$$"; "    \end{itemize}"; "\end{document}"]%string.

Definition text_scope (s : str) : scope3 := mkScope3 [mkChunk3 1 (Text3 s)] Curly3.
Definition item3 (l : N) : chunk3 := mkChunk3 l (Command3 (mkCommand3 (S! "item") [])).

Definition expected3 : document3 := mkDoc3 (Some (S! "article")) []
  [mkChunk3 1 (Command3 (mkCommand3 (S! "documentclass") [([], text_scope (S! "article"))]));
   mkChunk3 1 (ParagraphBreak3 [c_newline; c_newline]);
   mkChunk3 3 (Command3 (mkCommand3 (S! "usepackage") [([], text_scope (S! "amsmath"))]));
   mkChunk3 3 (ParagraphBreak3 [c_newline; c_newline])]
  [mkChunk3 1 (Text3 (lines_of [""; "    Hello"; "    "]%string));
   mkChunk3 3 (Environment3 (mkEnv3 (S! "itemize") [([], text_scope (S! "item"))]
     [mkChunk3 1 (Text3 (lines_of [""; "        "]%string)); item3 2;
      mkChunk3 2 (Text3 (lines_of [" test"; "        "]%string)); item3 3;
      mkChunk3 3 (Text3 (lines_of [" test2"; "        "]%string)); item3 4;
      mkChunk3 4 (Text3 (S! " test3 "));
      mkChunk3 4 (Maths3 (mkMaths3 Dollars Outline
        [mkChunk3 1 (Text3 (S! "hello")); mkChunk3 1 (ParagraphBreak3 [c_newline; c_newline]);
         mkChunk3 3 (Text3 (S! "world"))]));
      mkChunk3 6 (Text3 (lines_of [""; "    "]%string))] [] []));
   mkChunk3 9 (Text3 [c_newline])]
  [] [] [] [].

(* basic *)
Example t1 : from_str3 Debug basic3_src = Ok expected3.
Proof. vm_compute. reflexivity. Qed.
Example t2 : show3 expected3 = basic3_src.
Proof. vm_compute. reflexivity. Qed.
Example t3 : document3_new Debug expected3 = Ok expected3.
Proof. vm_compute. reflexivity. Qed.

(* begin_command, end_command, paragraphbreak_tooshort, paragraphbreak_nonwhitespace *)
Example t4 : command3_new Debug s_begin [] = Err BeginCommand. Proof. reflexivity. Qed.
Example t5 : command3_new Debug s_end [] = Err EndCommand. Proof. reflexivity. Qed.
Example t6 : chunk3_new Debug 1 (ParagraphBreak3 [c_newline]) = Err ParagraphBreakTooShort.
Proof. reflexivity. Qed.
Example t7 : chunk3_new Debug 1 (Text3 [c_newline; c_newline]) = Err UnbrokenParagraph.
Proof. reflexivity. Qed.
