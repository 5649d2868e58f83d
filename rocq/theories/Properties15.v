(** * Properties15: exactly what stage 3 makes of a document, and of a source

    Only statements, short proofs from lemmas, assumptions and non-vacuity examples.
    The specifications are in SpecRead3.v (stage 3), Spec2.v and SpecFail1.v. *)
From Verif Require Import Base Ast1 Parse1 Ast2 Ast3 ModelTests1 Spec1 SpecDoc1 SpecDoc2 SpecDoc3 Spec2 SpecFail1 SpecPar3 SpecMaths3 SpecReads SpecClass3 SpecRead3
  Pure1 Refine1 Gram1 Fail1 Good2 Env2 Conv2 MathsRun Reads Read3.

(** ** C55: conversion to stage 3, with overflow checks *)
Theorem C55_ok : forall d d3, in_range d -> (try_from3 Debug d = Ok d3 <-> reads_document d (Good d3)).
Proof. exact (fun d d3 => document_iff d (Good d3)). Qed.
Theorem C55_error : forall d e, in_range d -> (try_from3 Debug d = Err e <-> reads_document d (Bad e)).
Proof. exact (fun d e => document_iff d (Bad e)). Qed.
Theorem C55_panic : forall d, in_range d -> (try_from3 Debug d = Panic <-> reads_document d Overflow).
Proof. exact (fun d => document_iff d Overflow). Qed.
Theorem C55_exists : forall d, in_range d -> exists r, reads_document d r.
Proof. exact document_total. Qed.
Theorem C55_unique : forall d a b, in_range d -> reads_document d a -> reads_document d b -> a = b.
Proof. exact document_unique. Qed.
(** without overflow checks the same, where nothing overflows *)
Theorem C55_release_ok : forall d d3, in_range d -> reads_document d (Good d3) -> try_from3 Release d = Ok d3.
Proof. intros d d3 R H. exact (document_release d (Good d3) R H ltac:(discriminate)). Qed.
Theorem C55_release_error : forall d e, in_range d -> reads_document d (Bad e) -> try_from3 Release d = Err e.
Proof. intros d e R H. exact (document_release d (Bad e) R H ltac:(discriminate)). Qed.
Print Assumptions C55_ok.
Print Assumptions C55_error.
Print Assumptions C55_panic.
Print Assumptions C55_exists.
Print Assumptions C55_unique.
Print Assumptions C55_release_ok.
Print Assumptions C55_release_error.
(** two document environments, options, maths in every part *)
Definition C55_source : str := lines_of ["\documentclass[ab , c=d]{art}"; "$x$"; "\begin{document}{y}"; "q\[z\]\end{document}u";
  "\begin{document} [o]v"; ""; "w\end{document}r\(t\)"]%string.
Example C55_example : exists d d3, source_fits C55_source /\ count_newlines C55_source < 2147483648 /\
  from_str2 Debug C55_source = Ok d /\ try_from3 Debug d = Ok d3 /\
  (3 <= length (d_preamable d3) /\ 3 <= length (d_body d3) /\ length (d_options d3) = 2 /\ 1 <= length (d_trailing d3))%nat.
Proof.
  let x := eval vm_compute in (from_str2 Debug C55_source) in match x with Ok ?d => exists d;
    let y := eval vm_compute in (try_from3 Debug d) in match y with Ok ?o => exists o end end.
  split; [vm_compute; reflexivity|]. split; [vm_compute; reflexivity|]. split; [vm_compute; reflexivity|]. split; [vm_compute; reflexivity|].
  vm_compute. repeat split; repeat constructor.
Qed.

(** ** C56: from the source to stage 2 and to stage 3 *)
Theorem C56_stage2_ok : forall p s d2, source_fits s ->
  (from_str2 p s = Ok d2 <-> exists d1, parses 1 (tokens s) d1 /\ converts d1 d2).
Proof.
  intros p s d2 B. unfold from_str2. split.
  - intros H. destruct (from_str1 p s) as [d1|e| |] eqn:E; cbn [bind] in H; try discriminate. exists d1. split; [now apply (from_str1_iff p)|].
    apply (try_from2_converts p d1 d2); [exists p, s; auto|exact H].
  - intros (d1 & H1 & H2). apply (from_str1_iff p s d1 B) in H1. rewrite H1. cbn [bind]. apply (try_from2_converts p d1 d2); [exists p, s; auto|exact H2].
Qed.
Theorem C56_stage2_error : forall p s e, source_fits s ->
  (from_str2 p s = Err e <-> fails 1 (tokens s) e \/ exists d1, parses 1 (tokens s) d1 /\ rejects d1 e).
Proof.
  intros p s e B. unfold from_str2. split.
  - intros H. destruct (from_str1 p s) as [d1|e'| |] eqn:E; cbn [bind] in H; try discriminate.
    + right. exists d1. split; [now apply (from_str1_iff p)|]. apply (try_from2_rejects p d1 e); [exists p, s; auto|exact H].
    + left. injection H as ->. now apply (from_str1_fails p).
  - intros [H|(d1 & H1 & H2)].
    + apply (from_str1_fails p s e B) in H. now rewrite H.
    + apply (from_str1_iff p s d1 B) in H1. rewrite H1. cbn [bind]. apply (try_from2_rejects p d1 e); [exists p, s; auto|exact H2].
Qed.
Print Assumptions C56_stage2_ok.
Print Assumptions C56_stage2_error.
Theorem C56_stage3_ok : forall s d3, source_fits s -> count_newlines s < 2147483648 ->
  (from_str3 Debug s = Ok d3 <-> exists d1 d2, parses 1 (tokens s) d1 /\ converts d1 d2 /\ reads_document d2 (Good d3)).
Proof.
  intros s d3 B Bn. rewrite (source_iff s (Good d3) B Bn). split.
  - intros [(e & _ & K)|(d2 & E & H)]; [discriminate|]. apply C56_stage2_ok in E as (d1 & H1 & H2); [|exact B]. exists d1, d2. auto.
  - intros (d1 & d2 & H1 & H2 & H3). right. exists d2. split; [|exact H3]. apply C56_stage2_ok; [exact B|]. exists d1. auto.
Qed.
Theorem C56_stage3_error : forall s e, source_fits s -> count_newlines s < 2147483648 ->
  (from_str3 Debug s = Err e <->
     fails 1 (tokens s) e \/ (exists d1, parses 1 (tokens s) d1 /\ rejects d1 e) \/
     exists d1 d2, parses 1 (tokens s) d1 /\ converts d1 d2 /\ reads_document d2 (Bad e)).
Proof.
  intros s e B Bn. rewrite (source_iff s (Bad e) B Bn). split.
  - intros [(e' & E & K)|(d2 & E & H)].
    + injection K as ->. apply C56_stage2_error in E; [|exact B]. destruct E as [E|E]; [left; exact E|right; left; exact E].
    + apply C56_stage2_ok in E as (d1 & H1 & H2); [|exact B]. right; right. exists d1, d2. auto.
  - intros [H|[H|(d1 & d2 & H1 & H2 & H3)]].
    + left. exists e. split; [|reflexivity]. apply C56_stage2_error; [exact B|]. left; exact H.
    + left. exists e. split; [|reflexivity]. apply C56_stage2_error; [exact B|]. right; exact H.
    + right. exists d2. split; [|exact H3]. apply C56_stage2_ok; [exact B|]. exists d1. auto.
Qed.
(** release builds agree wherever the debug build does not panic *)
Theorem C56_profiles : forall s, source_fits s -> count_newlines s < 2147483648 ->
  from_str3 Debug s = Panic \/ from_str3 Release s = from_str3 Debug s.
Proof.
  intros s B Bn. destruct (from_str3 Debug s) as [d|e| |] eqn:E; [right|right|left; reflexivity|right].
  - exact (source_release s (Good d) B Bn ltac:(discriminate) E).
  - exact (source_release s (Bad e) B Bn ltac:(discriminate) E).
  - exfalso. revert E. apply from_str3_not_oof. exact B.
Qed.
Print Assumptions C56_stage3_ok.
Print Assumptions C56_stage3_error.
Print Assumptions C56_profiles.
Example C56_example : exists d3, from_str3 Debug C55_source = Ok d3 /\ d_class d3 = Some (S! "art").
Proof.
  let y := eval vm_compute in (from_str3 Debug C55_source) in match y with Ok ?o => exists o end.
  split; vm_compute; reflexivity.
Qed.

(** ** C31, with overflow checks: exactly the sources that panic *)
Theorem C31_debug_exact_partial : forall s, source_fits s -> count_newlines s < 2147483648 ->
  (from_str3 Debug s = Panic <->
   exists d1 d2, parses 1 (tokens s) d1 /\ converts d1 d2 /\ reads_document d2 Overflow).
Proof.
  intros s B Bn. rewrite (source_iff s Overflow B Bn). split.
  - intros [(e & _ & K)|(d2 & E & H)]; [discriminate|]. apply C56_stage2_ok in E as (d1 & H1 & H2); [|exact B]. exists d1, d2. auto.
  - intros (d1 & d2 & H1 & H2 & H3). right. exists d2. split; [|exact H3]. apply C56_stage2_ok; [exact B|]. exists d1. auto.
Qed.
Print Assumptions C31_debug_exact_partial.
