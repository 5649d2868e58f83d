(** * Properties11: which sources stage-1 parsing rejects, and with which error

    Only statements, short proofs from lemmas, assumptions and non-vacuity examples.
    The specification [fails] is in SpecFail1.v. *)
From Verif Require Import Base Ast1 Parse1 ModelTests1 Spec1 SpecDoc1 Order Gram1 SpecFail1 Fail1.

(** ** C46: parsing fails exactly on the sources the specification rejects, with exactly that error *)
Theorem C46_errors_exact : forall p s e, source_fits s -> (from_str1 p s = Err e <-> fails 1 (tokens s) e).
Proof. exact from_str1_fails. Qed.
Print Assumptions C46_errors_exact.
(** So every source either parses or is rejected with one error, never both. *)
Theorem C46_dichotomy : forall s, source_fits s ->
  ((exists d, parses 1 (tokens s) d) \/ (exists e, fails 1 (tokens s) e)) /\
  (forall d e, parses 1 (tokens s) d -> fails 1 (tokens s) e -> False) /\
  (forall e e', fails 1 (tokens s) e -> fails 1 (tokens s) e' -> e = e').
Proof.
  intros s H. split; [apply (decide (S (length (tokens s)))); lia|]. split.
  - intros d e Hd He. apply parse_toks_iff in Hd. apply parse_toks_fails in He. congruence.
  - intros e e' H1 H2. apply parse_toks_fails in H1, H2. congruence.
Qed.
Print Assumptions C46_dichotomy.
(** An inner error: line 4, the argument's text starts on the line of its command (3). *)
Example C46_example_inside : fails 1 (tokens (lines_of ["a"; "{b}"; "\c {d}["; "{e]f"]%string)) (mkError 4 (UnclosedScope Curly1)).
Proof. apply (C46_errors_exact Debug); vm_compute; reflexivity. Qed.
(** A closing bracket after the arguments of a command wins over an error inside the arguments. *)
Example C46_example_order : fails 1 (tokens (lines_of ["\c{(}"; "{x}]"]%string)) (mkError 2 (UnexpectedClosing Square1)).
Proof. apply (C46_errors_exact Debug); vm_compute; reflexivity. Qed.
