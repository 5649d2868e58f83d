(** * Properties19: the text of errors (C63) *)
From Verif Require Import Base Ast1 Parse1 Ast2 Message.

(** ** C63: the text of an error tells everything about it *)
(** for every table [plain] of the characters that the standard library writes as they are *)
Theorem C63_distinct : forall plain e e', show_error plain e = show_error plain e' -> e = e'.
Proof. exact show_error_inj. Qed.
Theorem C63_internal_distinct : forall plain e e', show_internal plain e = show_internal plain e' -> e = e'.
Proof. exact show_internal_inj. Qed.
(** it is one line, whatever the names in the source are *)
Theorem C63_one_line : forall plain e, ~ In 10 (show_error plain e).
Proof. intros plain e K. pose proof (flat_error plain e) as F. unfold flat in F. rewrite Forall_forall in F. exact (F _ K eq_refl). Qed.
(** it gives the line in decimal ... *)
Theorem C63_line : forall plain e, exists digits rest,
  show_error plain e = S! "Error { line: " ++ digits ++ S! ", type: " ++ rest /\
  (forall c, In c digits -> 48 <= c <= 57) /\ fold_left (fun v c => 10 * v + (c - 48)) digits 0 = err_line e.
Proof.
  intros plain e. exists (decimal (err_line e)). eexists. split; [unfold show_error; reflexivity|]. exact (decimal_spec (err_line e)).
Qed.
(** ... and the name of an environment as it is written, if its characters need no escape *)
Theorem C63_name : forall plain l s, (forall c, In c s -> plain c = true /\ c <> 0 /\ c <> 9 /\ c <> 10 /\ c <> 13 /\ c <> 34 /\ c <> 92) ->
  show_error plain (mkError l (UnclosedEnvironment s)) = S! "Error { line: " ++ decimal l ++ S! ", type: UnclosedEnvironment(" ++ [34] ++ s ++ [34] ++ S! ") }" /\
  show_error plain (mkError l (UnexpectedEnd s)) = S! "Error { line: " ++ decimal l ++ S! ", type: UnexpectedEnd(" ++ [34] ++ s ++ [34] ++ S! ") }".
Proof.
  intros plain l s H. unfold show_error, debug_type, debug_str. cbn [err_line err_type]. rewrite plain_str by exact H. split; cbn [of_string map String.list_ascii_of_string app]; rewrite <- ?app_assoc; reflexivity.
Qed.
(** a wrong line number is reported with the right one before it *)
Theorem C63_expected_got : forall plain expected got, exists e g,
  show_internal plain (IncorrectChunkLineNumber expected got) = S! "IncorrectChunkLineNumber { expected: " ++ e ++ S! ", got: " ++ g ++ S! " }" /\
  (forall c, In c (e ++ g) -> 48 <= c <= 57) /\
  fold_left (fun v c => 10 * v + (c - 48)) e 0 = expected /\ fold_left (fun v c => 10 * v + (c - 48)) g 0 = got.
Proof.
  intros plain a b. exists (decimal a), (decimal b). split; [reflexivity|]. destruct (decimal_spec a) as [A A'], (decimal_spec b) as [B B'].
  split; [|now split]. intros c H. apply in_app_or in H as [H|H]; auto.
Qed.
Print Assumptions C63_distinct.
Print Assumptions C63_internal_distinct.
Print Assumptions C63_one_line.
Print Assumptions C63_line.
Print Assumptions C63_name.
Print Assumptions C63_expected_got.

Definition C63_plain (c : char) : bool := (32 <=? c) && (c <? 127).
Example C63_example1 : exists e, from_str1 Debug ([10; 10] ++ S! "a{\b]}") = Err e /\ show_error C63_plain e = S! "Error { line: 3, type: UnexpectedClosing(Square) }".
Proof. eexists. split; vm_compute; reflexivity. Qed.
Example C63_example2 : exists e, from_str2 Debug (S! "\begin{a b" ++ [10; 768; 34] ++ S! "}") = Err e /\
  show_error C63_plain e = S! "Error { line: 2, type: UnclosedEnvironment(" ++ [34] ++ S! "a b\n\u{300}\" ++ [34; 34] ++ S! ") }".
Proof. eexists. split; vm_compute; reflexivity. Qed.
Example C63_example3 : exists e, chunk1_new 7 (Text1 (S! "a{")) = Err e /\ show_internal C63_plain e = S! "UnsanitisedCharInString('{')".
Proof. eexists. split; vm_compute; reflexivity. Qed.
Example C63_example4 : show_error C63_plain (mkError 4294967295 (Internal (IncorrectChunkLineNumber 10 1094))) =
  S! "Error { line: 4294967295, type: Internal(IncorrectChunkLineNumber { expected: 10, got: 1094 }) }".
Proof. vm_compute. reflexivity. Qed.
