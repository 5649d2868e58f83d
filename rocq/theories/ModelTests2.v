(** * Tests of the stage-2 model: the unit tests of src/tests/ast2.rs, replayed on the
      model.  These are tests, not proofs of any property. *)
From Verif Require Import Base Ast1 Parse1 Ast2 ModelTests1.

(* no_environment_label *)
Example t1 : from_str2 Debug (lines_of
 ["\usepackage{amsmath}"; ""; "\begin{document}"; "    Hello"; "    \begin"; "        \item test"; "    \end{itemize}"; "\end{document}"]%string)
 = Err (mkError 5 NoEnvironmentLabel).
Proof. vm_compute. reflexivity. Qed.

(* unexpected_end *)
Example t2 : from_str2 Debug (lines_of
 ["\usepackage{amsmath}"; ""; "\begin{document}"; "    Hello"; "        \item test"; "    \end{itemize}"; "\end{document}"]%string)
 = Err (mkError 6 (UnexpectedEnd (S! "itemize"))).
Proof. vm_compute. reflexivity. Qed.

(* too_many_args_end *)
Example t3 : from_str2 Debug (lines_of
 ["\usepackage{amsmath}"; ""; "\begin{document}"; "    Hello"; "    \begin{itemize}"; "        \item test"; "    \end{itemize}{boom}"; "\end{document}"]%string)
 = Err (mkError 7 TooManyArgsEnd).
Proof. vm_compute. reflexivity. Qed.

(* construct *)
Example t4 :
 (let* d := push2 Debug [] (Text2 (lines_of ["hello world"; ""]%string)) in
  let* d := push2 Debug d (Command2 (mkCommand2 (S! "command") [])) in
  let* d := push2 Debug d (Text2 (lines_of ["continuation"; ""]%string)) in
  push2 Debug d (Text2 (S! "text should be merged into one chunk")))
 = Ok [mkChunk2 1 (Text2 (lines_of ["hello world"; ""]%string));
       mkChunk2 2 (Command2 (mkCommand2 (S! "command") []));
       mkChunk2 2 (Text2 (lines_of ["continuation"; "text should be merged into one chunk"]%string))].
Proof. vm_compute. reflexivity. Qed.

(* incorrect_line *)
Example t5 : (match from_str2 Debug basic_src with
              | Ok d => push_chunk2 Debug d (mkChunk2 11 (Text2 (S! "hello")))
              | _ => Panic end) = Err (IncorrectChunkLineNumber 13 11).
Proof. vm_compute. reflexivity. Qed.

(* unsanitised_char *)
Example t6 : push2 Debug [] (Text2 (S! "hello\world")) = Err (UnsanitisedCharInString c_bslash).
Proof. vm_compute. reflexivity. Qed.

Definition basic2_src : str := lines_of
 ["\usepackage{amsmath}"; ""; "\begin{document}"; "    Hello"; "    \begin{itemize}"; "        \item test"; "    \end{itemize}"; "\end{document}"]%string.

(* lines *)
Example t7 : (let* d := from_str2 Debug basic2_src in lines2 Debug d) = Ok 8.
Proof. vm_compute. reflexivity. Qed.

(* basic *)
Example t8 : from_str2 Debug basic2_src = Ok
 [mkChunk2 1 (Command2 (mkCommand2 (S! "usepackage")
    [([], mkScope2 [mkChunk2 1 (Text2 (S! "amsmath"))] Curly2)]));
  mkChunk2 1 (Text2 [c_newline; c_newline]);
  mkChunk2 3 (Environment2 (mkEnv2 (S! "document") []
    [mkChunk2 1 (Text2 (lines_of [""; "    Hello"; "    "]%string));
     mkChunk2 3 (Environment2 (mkEnv2 (S! "itemize") []
       [mkChunk2 1 (Text2 (lines_of [""; "        "]%string));
        mkChunk2 2 (Command2 (mkCommand2 (S! "item") []));
        mkChunk2 2 (Text2 (lines_of [" test"; "    "]%string))] [] []));
     mkChunk2 5 (Text2 [c_newline])] [] []))].
Proof. vm_compute. reflexivity. Qed.

Example t9 : (let* d := from_str2 Debug basic2_src in
              let* _ := match document2_new Debug d with Ok _ => Ok tt | _ => Panic end in
              let* d1 := from2_to1 Debug d in Ok (d1, show2 d))
           = (let* d := from_str1 Debug basic2_src in Ok (d, basic2_src)).
Proof. vm_compute. reflexivity. Qed.
