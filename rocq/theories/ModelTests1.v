(** * Tests of the stage-1 model: the unit tests of src/tests/ast1.rs, replayed on the
      model.  These are tests, not proofs of any property. *)
From Verif Require Import Base Ast1 Parse1.

Definition NLs : String.string := String.String (Ascii.ascii_of_nat 10) String.EmptyString.
Definition lines_of (l : list String.string) : str :=
  match l with
  | [] => []
  | x :: l' => of_string x ++ concat (map (fun y => c_newline :: of_string y) l')
  end.

(* unexpected_closing *)
Example t1 : from_str1 Debug (lines_of
 ["Test"; ""; "("; "    ("; "        Hello"; "        ("; "            \badargs]"; "        )"; "    )"; ")"]%string)
 = Err (mkError 7 (UnexpectedClosing Square1)).
Proof. vm_compute. reflexivity. Qed.

(* unclosed_argument *)
Example t2 : from_str1 Debug (lines_of
 ["test"; "("; "    \hello"; "    test"; "    ("; "        test"; "        \hello[]"; "        \badargs[[[arg arg arg]]"; "    )"; ")"]%string)
 = Err (mkError 8 (UnclosedArgument Square1)).
Proof. vm_compute. reflexivity. Qed.

(* unclosed_scope *)
Example t3 : from_str1 Debug (lines_of
 ["("; "    \hello"; "    test"; "    \test{"; "        test"; "        ["; "    }"; ")"]%string)
 = Err (mkError 6 (UnclosedScope Square1)).
Proof. vm_compute. reflexivity. Qed.

(* construct *)
Example t4 :
 (let* d := push1 Debug [] (Text1 (lines_of ["hello world"; ""]%string)) in
  let* d := push1 Debug d (Command1 (mkCommand1 (S! "command") [])) in
  let* d := push1 Debug d (Text1 (lines_of ["continuation"; ""]%string)) in
  push1 Debug d (Text1 (S! "text should be merged into one chunk")))
 = Ok [mkChunk1 1 (Text1 (lines_of ["hello world"; ""]%string));
       mkChunk1 2 (Command1 (mkCommand1 (S! "command") []));
       mkChunk1 2 (Text1 (lines_of ["continuation"; "text should be merged into one chunk"]%string))].
Proof. vm_compute. reflexivity. Qed.

Definition basic_src : str := lines_of
 ["Hello world"; ""; "\textbf {"; "\container(123)"; "[456]"; "text"; "}"; ""; "text"; ""; "{ \sin text \sin }"; ""; "Bye!"]%string.

(* lines *)
Example t5 : (let* d := from_str1 Debug basic_src in lines1 Debug d) = Ok 13.
Proof. vm_compute. reflexivity. Qed.

(* incorrect_line *)
Example t6 : (match from_str1 Debug basic_src with
              | Ok d => push_chunk1 Debug d (mkChunk1 11 (Text1 (S! "hello")))
              | _ => Panic end) = Err (IncorrectChunkLineNumber 13 11).
Proof. vm_compute. reflexivity. Qed.

(* unsanitised_char *)
Example t7 : push1 Debug [] (Text1 (S! "hello\world")) = Err (UnsanitisedCharInString c_bslash).
Proof. vm_compute. reflexivity. Qed.

(* basic *)
Example t8 : from_str1 Debug basic_src = Ok
 [mkChunk1 1 (Text1 (lines_of ["Hello world"; ""; ""]%string));
  mkChunk1 3 (Command1 (mkCommand1 (S! "textbf")
    [(S! " ", mkScope1
       [mkChunk1 1 (Text1 [c_newline]);
        mkChunk1 2 (Command1 (mkCommand1 (S! "container")
          [([], mkScope1 [mkChunk1 1 (Text1 (S! "123"))] Round1);
           ([c_newline], mkScope1 [mkChunk1 1 (Text1 (S! "456"))] Square1)]));
        mkChunk1 3 (Text1 (lines_of [""; "text"; ""]%string))] Curly1)]));
  mkChunk1 7 (Text1 (lines_of [""; ""; "text"; ""; ""]%string));
  mkChunk1 11 (Scope1 (mkScope1
    [mkChunk1 1 (Text1 (S! " "));
     mkChunk1 1 (Command1 (mkCommand1 (S! "sin") []));
     mkChunk1 1 (Text1 (S! " text "));
     mkChunk1 1 (Command1 (mkCommand1 (S! "sin") []));
     mkChunk1 1 (Text1 (S! " "))] Curly1));
  mkChunk1 11 (Text1 (lines_of [""; ""; "Bye!"]%string))].
Proof. vm_compute. reflexivity. Qed.

Example t9 : (let* d := from_str1 Debug basic_src in Ok (show1 d)) = Ok basic_src.
Proof. vm_compute. reflexivity. Qed.
