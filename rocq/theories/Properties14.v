(** * Properties14: exactly what maths recognition makes of a list of chunks

    Only statements, short proofs from lemmas, assumptions and non-vacuity examples.
    The specification is in SpecReads.v. *)
From Verif Require Import Base Ast1 Parse1 Ast2 Ast3 ModelTests1 SpecDoc1 SpecDoc2 SpecDoc3 SpecPar3 SpecMaths3 SpecReads Reads.

(** ** C54: result, error and arithmetic overflow, with overflow checks on *)
Theorem C54_ok : forall cs out, in_range cs -> (maths_from_chunks Debug cs = Ok out <-> reads 0 cs (Good out)).
Proof. exact (fun cs out => maths_reads_debug cs (Good out)). Qed.
Theorem C54_error : forall cs e, in_range cs -> (maths_from_chunks Debug cs = Err e <-> reads 0 cs (Bad e)).
Proof. exact (fun cs e => maths_reads_debug cs (Bad e)). Qed.
Theorem C54_panic : forall cs, in_range cs -> (maths_from_chunks Debug cs = Panic <-> reads 0 cs Overflow).
Proof. exact (fun cs => maths_reads_debug cs Overflow). Qed.
(** the specification gives one result to every list *)
Theorem C54_exists : forall cs, in_range cs -> exists r, reads 0 cs r.
Proof. exact maths_reads_exists. Qed.
Theorem C54_unique : forall cs a b, in_range cs -> reads 0 cs a -> reads 0 cs b -> a = b.
Proof. exact maths_reads_unique. Qed.
(** without overflow checks the same, where nothing overflows *)
Theorem C54_release_ok : forall cs out, in_range cs -> reads 0 cs (Good out) -> maths_from_chunks Release cs = Ok out.
Proof. intros cs out R H. exact (maths_reads_release cs (Good out) R H ltac:(discriminate)). Qed.
Theorem C54_release_error : forall cs e, in_range cs -> reads 0 cs (Bad e) -> maths_from_chunks Release cs = Err e.
Proof. intros cs e R H. exact (maths_reads_release cs (Bad e) R H ltac:(discriminate)). Qed.
(** every document that was parsed is in range *)
Theorem C54_parsed : forall p s d, source_fits s -> count_newlines s < 2147483648 -> from_str2 p s = Ok d -> in_range d.
Proof. exact parsed_in_range. Qed.
Print Assumptions C54_ok.
Print Assumptions C54_error.
Print Assumptions C54_panic.
Print Assumptions C54_exists.
Print Assumptions C54_unique.
Print Assumptions C54_release_ok.
Print Assumptions C54_release_error.
Print Assumptions C54_parsed.
(** parsed lists of each of the three kinds *)
Definition C54_source : str := lines_of ["x {$z$} \(a\[b\]\) y"; ""; "$$\b c$$ w $d \e f$"]%string.
Example C54_example : exists cs out, source_fits C54_source /\ count_newlines C54_source < 2147483648 /\
  from_str2 Debug C54_source = Ok cs /\ maths_from_chunks Debug cs = Ok out /\ (10 <= length out)%nat.
Proof.
  let x := eval vm_compute in (from_str2 Debug C54_source) in match x with Ok ?d => exists d; 
    let y := eval vm_compute in (maths_from_chunks Debug d) in match y with Ok ?o => exists o end end.
  split; [vm_compute; reflexivity|]. split; [vm_compute; reflexivity|]. split; [vm_compute; reflexivity|]. split; [vm_compute; reflexivity|].
  vm_compute. repeat constructor.
Qed.
Definition C54_bad : str := S! "\(a\) {b $c} d".
Example C54_example_error : exists cs, source_fits C54_bad /\ count_newlines C54_bad < 2147483648 /\ from_str2 Debug C54_bad = Ok cs /\ maths_from_chunks Debug cs = Err (mkError 0 UnclosedMaths).
Proof.
  let x := eval vm_compute in (from_str2 Debug C54_bad) in match x with Ok ?d => exists d end.
  split; [vm_compute; reflexivity|]. split; [vm_compute; reflexivity|]. split; [vm_compute; reflexivity|]. vm_compute. reflexivity.
Qed.
Definition C54_overflow : str := lines_of ["$\alpha x"; ""; "\beta y$"]%string.
Example C54_example_panic : exists cs, source_fits C54_overflow /\ count_newlines C54_overflow < 2147483648 /\ from_str2 Debug C54_overflow = Ok cs /\ maths_from_chunks Debug cs = Panic.
Proof.
  let x := eval vm_compute in (from_str2 Debug C54_overflow) in match x with Ok ?d => exists d end.
  split; [vm_compute; reflexivity|]. split; [vm_compute; reflexivity|]. split; [vm_compute; reflexivity|]. vm_compute. reflexivity.
Qed.
