(** * Properties36: what the errors of the conversion to stage 3 point at (C82)

    Only statements, short proofs from lemmas, assumptions and non-vacuity examples. The specification is in SpecBlame3.v. *)
From Verif Require Import Base Ast1 Parse1 Ast2 Ast3 ModelTests1 Spec1 SpecDoc1 SpecDoc2 SpecDoc3 SpecMaths3 SpecReads SpecClass3 SpecRead3 SpecWrap SpecBlame3
  Env2 Reads Read3 ReadsW Mono Blame3.

(** ** With overflow checks: line numbers between dollars are moved by a subtraction that is exact *)
Theorem C82_chunks : forall cs e, in_range cs -> maths_from_chunks Debug cs = Err e -> blames moved cs e.
Proof. exact maths_blames. Qed.
Print Assumptions C82_chunks.
Theorem C82_document : forall d e, in_range d -> try_from3 Debug d = Err e -> blames_class d e \/ blames moved d e.
Proof. exact document_blames. Qed.
Print Assumptions C82_document.
(** ** Without: it is taken modulo 2^32 *)
Theorem C82_chunks_release : forall cs e, in_range cs -> u32_lines cs -> maths_from_chunks Release cs = Err e -> blames moved32 cs e.
Proof. exact (fun cs e R U => maths_blames32 cs e (conj R U)). Qed.
Print Assumptions C82_chunks_release.
Theorem C82_document_release : forall d e, in_range d -> u32_lines d -> try_from3 Release d = Err e -> blames_class d e \/ blames moved32 d e.
Proof. exact (fun d e R U => document_blames32 d e (conj R U)). Qed.
Print Assumptions C82_document_release.

(** ** Sources that stage 2 accepts *)
Lemma from3_err p s d e : from_str2 p s = Ok d -> from_str3 p s = Err e -> try_from3 p d = Err e.
Proof. intros H K. unfold from_str3 in K. now rewrite H in K. Qed.
Theorem C82_kinds : forall p s d e, source_fits s -> count_newlines s < 2147483648 -> from_str2 p s = Ok d -> from_str3 p s = Err e ->
  err_type e = UnexpectedMathsEnd \/ err_type e = UnclosedMaths \/ err_type e = DoubleDocumentClass \/ err_type e = TooManyArgsDocumentClass.
Proof.
  intros p s d e B N H K. destruct (parsed_fits p s d B N H) as [R U]. pose proof (from3_err _ _ _ _ H K) as T.
  assert (X : blames_class d e \/ exists low, blames low d e).
  { destruct p; [destruct (document_blames d e R T) as [Q|Q]|destruct (document_blames32 d e (conj R U) T) as [Q|Q]]; eauto. }
  destruct X as [Q|[low Q]].
  - destruct Q; cbn; auto.
  - destruct (blames_kind _ _ _ Q) as [-> | ->]; auto.
Qed.
Print Assumptions C82_kinds.
(** no line beyond the last one is reported, with overflow checks *)
Theorem C82_lines : forall s d e, source_fits s -> count_newlines s < 2147483648 -> from_str2 Debug s = Ok d -> from_str3 Debug s = Err e ->
  err_line e <= 1 + count_newlines s.
Proof.
  intros s d e B N H K. pose proof (parsed_lines Debug s d B H) as L. destruct (document_blames d e (proj1 (parsed_fits Debug s d B N H)) (from3_err _ _ _ _ H K)) as [Q|Q].
  - now apply (class_line _ d).
  - now apply (blames_line _ d).
Qed.
Print Assumptions C82_lines.
(** without them, line 4294967295 of a source of three lines may be reported *)
Definition C82_wrap : str := lines_of ["$ \("; "\a"; "{x} \b y$"]%string.
Theorem C82_lines_release_refuted : exists s d e, from_str2 Release s = Ok d /\ from_str3 Release s = Err e /\ err_line e = 4294967295 /\ count_newlines s = 2 /\
  from_str3 Debug s = Panic.
Proof.
  exists C82_wrap. let x := eval vm_compute in (from_str2 Release C82_wrap) in match x with Ok ?d => exists d end.
  let x := eval vm_compute in (from_str3 Release C82_wrap) in match x with Err ?e => exists e end.
  split; [vm_compute; reflexivity|]. split; [vm_compute; reflexivity|]. split; [reflexivity|]. split; vm_compute; reflexivity.
Qed.
Print Assumptions C82_lines_release_refuted.
(** inside a scope, lines are counted from the beginning of the scope; between dollars from the last text *)
Theorem C82_inside_refuted : exists s e, from_str3 Debug s = Err e /\ s = lines_of ["a"; "b"; "{\)}"]%string /\ e = mkError 1 UnexpectedMathsEnd.
Proof. eexists. eexists. split; [|split; [reflexivity|]]; [vm_compute; reflexivity|reflexivity]. Qed.
Print Assumptions C82_inside_refuted.
Theorem C82_dollar_refuted : exists s e, from_str3 Debug s = Err e /\ s = lines_of ["a"; "b $x"]%string /\ e = mkError 0 UnclosedMaths.
Proof. eexists. eexists. split; [|split; [reflexivity|]]; [vm_compute; reflexivity|reflexivity]. Qed.
Print Assumptions C82_dollar_refuted.

(** ** Examples: a bracket inside an environment that is never closed; two classes *)
Definition C82_bad : str := lines_of ["\documentclass{a}"; "\begin{document}"; "x \[ y"; "\begin{e}z \(\end{e}\end{document}"]%string.
Example C82_example : exists d, source_fits C82_bad /\ count_newlines C82_bad < 2147483648 /\ from_str2 Debug C82_bad = Ok d /\
  from_str3 Debug C82_bad = Err (mkError 2 UnclosedMaths) /\ blames moved d (mkError 2 UnclosedMaths).
Proof.
  let x := eval vm_compute in (from_str2 Debug C82_bad) in match x with Ok ?d => exists d end.
  assert (F : source_fits C82_bad) by (vm_compute; reflexivity). assert (L : count_newlines C82_bad < 2147483648) by (vm_compute; reflexivity).
  split; [exact F|]. split; [exact L|]. split; [vm_compute; reflexivity|]. split; [vm_compute; reflexivity|].
  eapply bm_inside; [right; right; left; reflexivity|apply in_env|]. eapply (bm_opener _ _ _ Outline). right. left. reflexivity.
Qed.
Print Assumptions C82_example.
Definition C82_classes : str := lines_of ["\documentclass{a}"; "b"; "\documentclass{c}"]%string.
Example C82_class_example : from_str3 Debug C82_classes = Err (mkError 3 DoubleDocumentClass) /\ from_str3 Debug (S! "\documentclass{a}{b}") = Err (mkError 1 TooManyArgsDocumentClass).
Proof. split; vm_compute; reflexivity. Qed.
Print Assumptions C82_class_example.
