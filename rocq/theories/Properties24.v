(** * Properties24: exactly what stage 3 makes of a document in builds without overflow checks

    Only statements, short proofs from lemmas, assumptions and non-vacuity examples.
    The specification is in SpecWrap.v: as SpecReads.v and SpecRead3.v, with line numbers of 32 bits. *)
From Verif Require Import Base Ast1 Parse1 Ast2 Ast3 ModelTests1 Spec1 SpecDoc1 SpecDoc2 SpecDoc3 Spec2 SpecFail1 SpecPar3 SpecMaths3 SpecReads SpecClass3 SpecRead3 SpecWrap
  Pure1 Refine1 Gram1 Fail1 Good2 Env2 Conv2 MathsRun Reads Read3 ReadsW Properties15.

(** ** C70: lists of chunks *)
Theorem C70_ok : forall cs out, in_range cs -> u32_lines cs -> (maths_from_chunks Release cs = Ok out <-> wreads 0 cs (Good out)).
Proof. exact (fun cs out R U => wmaths_reads cs (Good out) (conj R U)). Qed.
Theorem C70_error : forall cs e, in_range cs -> u32_lines cs -> (maths_from_chunks Release cs = Err e <-> wreads 0 cs (Bad e)).
Proof. exact (fun cs e R U => wmaths_reads cs (Bad e) (conj R U)). Qed.
Theorem C70_total : forall cs, in_range cs -> u32_lines cs ->
  (exists out, wreads 0 cs (Good out)) \/ (exists e, wreads 0 cs (Bad e)).
Proof.
  intros cs R U. destruct (wmaths_reads_exists cs (conj R U)) as [r H]. pose proof (proj1 wreads_definite _ _ _ H) as K.
  destruct r; [left|right|now elim K]; eauto.
Qed.
Theorem C70_unique : forall cs a b, in_range cs -> u32_lines cs -> wreads 0 cs a -> wreads 0 cs b -> a = b.
Proof. exact (fun cs a b R U => wmaths_reads_unique cs a b (conj R U)). Qed.
Print Assumptions C70_ok.
Print Assumptions C70_error.
Print Assumptions C70_total.
Print Assumptions C70_unique.
(** ** documents *)
Theorem C70_document_ok : forall d d3, in_range d -> u32_lines d -> (try_from3 Release d = Ok d3 <-> wreads_document d (Good d3)).
Proof. exact (fun d d3 R U => wdocument_iff d (Good d3) (conj R U)). Qed.
Theorem C70_document_error : forall d e, in_range d -> u32_lines d -> (try_from3 Release d = Err e <-> wreads_document d (Bad e)).
Proof. exact (fun d e R U => wdocument_iff d (Bad e) (conj R U)). Qed.
Theorem C70_document_total : forall d, in_range d -> u32_lines d ->
  (exists d3, try_from3 Release d = Ok d3) \/ (exists e, try_from3 Release d = Err e).
Proof. exact (fun d R U => document_release_definite d (conj R U)). Qed.
(** where nothing overflows, the two kinds of build read the same *)
Theorem C70_agree : forall d r, in_range d -> u32_lines d -> r <> Overflow -> reads_document d r -> wreads_document d r.
Proof. exact (fun d r R U => documents_agree d r (conj R U)). Qed.
Print Assumptions C70_document_ok.
Print Assumptions C70_document_error.
Print Assumptions C70_document_total.
Print Assumptions C70_agree.
(** ** sources *)
Theorem C70_source_ok : forall s d3, source_fits s -> count_newlines s < 2147483648 ->
  (from_str3 Release s = Ok d3 <-> exists d1 d2, parses 1 (tokens s) d1 /\ converts d1 d2 /\ wreads_document d2 (Good d3)).
Proof.
  intros s d3 B Bn. rewrite (wsource_iff s (Good d3) B Bn). split.
  - intros [(e & _ & K)|(d2 & E & H)]; [discriminate|]. apply C56_stage2_ok in E as (d1 & H1 & H2); [|exact B]. exists d1, d2. auto.
  - intros (d1 & d2 & H1 & H2 & H3). right. exists d2. split; [|exact H3]. apply C56_stage2_ok; [exact B|]. exists d1. auto.
Qed.
Theorem C70_source_error : forall s e, source_fits s -> count_newlines s < 2147483648 ->
  (from_str3 Release s = Err e <->
     fails 1 (tokens s) e \/ (exists d1, parses 1 (tokens s) d1 /\ rejects d1 e) \/
     exists d1 d2, parses 1 (tokens s) d1 /\ converts d1 d2 /\ wreads_document d2 (Bad e)).
Proof.
  intros s e B Bn. rewrite (wsource_iff s (Bad e) B Bn). split.
  - intros [(e' & E & K)|(d2 & E & H)].
    + injection K as ->. apply C56_stage2_error in E; [|exact B]. destruct E as [E|E]; [left; exact E|right; left; exact E].
    + apply C56_stage2_ok in E as (d1 & H1 & H2); [|exact B]. right; right. exists d1, d2. auto.
  - intros [H|[H|(d1 & d2 & H1 & H2 & H3)]].
    + left. exists e. split; [|reflexivity]. apply C56_stage2_error; [exact B|]. left; exact H.
    + left. exists e. split; [|reflexivity]. apply C56_stage2_error; [exact B|]. right; exact H.
    + right. exists d2. split; [|exact H3]. apply C56_stage2_ok; [exact B|]. exists d1. auto.
Qed.
Theorem C70_source_total : forall s, source_fits s -> count_newlines s < 2147483648 ->
  (exists d3, from_str3 Release s = Ok d3) \/ (exists e, from_str3 Release s = Err e).
Proof.
  intros s B Bn. unfold from_str3. destruct (from_str2 Release s) as [d|e| |] eqn:E; cbn [bind].
  - exact (document_release_definite d (parsed_fits _ _ _ B Bn E)).
  - right. now exists e.
  - exfalso. destruct (from_str2_total Release s B) as [[? K]|[? K]]; congruence.
  - exfalso. destruct (from_str2_total Release s B) as [[? K]|[? K]]; congruence.
Qed.
Print Assumptions C70_source_ok.
Print Assumptions C70_source_error.
Print Assumptions C70_source_total.
(** a source on which a checked build panics; without checks, the command at the start of the block is
    three lines before line 1, line 2^32 - 2, and the paragraph break in front of the second command is outside *)
Definition C70_overflow : str := lines_of ["\begin{document}$\alpha x"; ""; "y"; "\beta z$\end{document}"]%string.
Example C70_example : exists d, source_fits C70_overflow /\ count_newlines C70_overflow < 2147483648 /\
  from_str3 Debug C70_overflow = Panic /\ from_str3 Release C70_overflow = Ok d /\
  d_body d = [mkChunk3 1 (Text3 (S! " x")); mkChunk3 1 (ParagraphBreak3 [c_newline; c_newline]); mkChunk3 3 (Text3 (S! "y" ++ [c_newline]));
    mkChunk3 4 (Maths3 (mkMaths3 Dollars Inline [mkChunk3 4294967294 (Command3 (mkCommand3 (S! "alpha") []));
      mkChunk3 1 (Command3 (mkCommand3 (S! "beta") [])); mkChunk3 1 (Text3 (S! " z"))]))].
Proof.
  let y := eval vm_compute in (from_str3 Release C70_overflow) in match y with Ok ?o => exists o end.
  repeat (split; [vm_compute; reflexivity|]). vm_compute. reflexivity.
Qed.
(** the hypotheses on lists and documents are met by what this source is at stage 2 *)
Example C70_example_fits : exists d, from_str2 Release C70_overflow = Ok d /\ in_range d /\ u32_lines d /\ reads_document d Overflow.
Proof.
  let y := eval vm_compute in (from_str2 Release C70_overflow) in match y with Ok ?o => assert (E : from_str2 Release C70_overflow = Ok o) by (vm_compute; reflexivity); exists o end.
  split; [exact E|]. assert (F : source_fits C70_overflow) by (vm_compute; reflexivity). assert (L : count_newlines C70_overflow < 2147483648) by (vm_compute; reflexivity).
  destruct (parsed_fits _ _ _ F L E) as [R U]. split; [exact R|]. split; [exact U|]. apply (document_iff _ Overflow R). vm_compute. reflexivity.
Qed.
