(** * Properties32: a stage-3 document that goes down to stage 2 and up again (C78)

    Only statements, short proofs from lemmas, assumptions and non-vacuity examples. The specification is in SpecAgain3.v. *)
From Verif Require Import Base Ast1 Parse1 Ast2 Ast3 ModelTests1 SpecDoc1 SpecMaths3 SpecUnnum SpecClass3 SpecBack3 SpecAgain3 Mono Unnum Again3b Again3d Again3e Again3f.
From Coq Require Import Lia Permutation.

(** ** C78 *)
(** the way down and up, in the release profile: which document comes out *)
Theorem C78_comes_out : forall d cls opts, shaped_document d -> spaced (d_trailing d) = true ->
  N.of_nat (length (full_text d)) < 4294967296 -> count_newlines (full_text d) < 2147483648 -> declares (d_preamable d) cls opts ->
  exists d2 d', from3_to2 Release d = @Ok error _ d2 /\ try_from3 Release d2 = Ok d' /\ unnumbered_document3 d' = unnumbered_document3 (again cls opts d).
Proof. intros d cls opts A B C D E. exact (down_up d cls opts A B (conj C D) E). Qed.
(** in the debug profile the same comes out, or one of the two steps panics *)
Theorem C78_debug : forall d d2 d', from3_to2 Release d = @Ok error _ d2 -> try_from3 Release d2 = Ok d' ->
  @from3_to2 error Debug d = Panic \/ (from3_to2 Debug d = @Ok error _ d2 /\ (try_from3 Debug d2 = Panic \/ try_from3 Debug d2 = Ok d')).
Proof.
  intros d d2 d' H1 H2. destruct (from3_to2_leq (E := error) true Debug Release dr d) as [K|K]; [left; exact K|right]. split; [congruence|]. destruct (try_from3_leq true Debug Release dr d2) as [J|J]; [left; exact J|right; congruence].
Qed.
(** every converted document, in particular every parsed one, qualifies *)
Theorem C78_converted : forall s d, source_fits s -> count_newlines s < 2147483648 -> from_str3 Release s = Ok d ->
  shaped_document d /\ exists cls opts, declares (d_preamable d) cls opts.
Proof. intros s d B Bn H. destruct (parsed_reads s d B Bn H) as (d2 & _ & W). split; [exact (converted_shaped _ _ W)|exact (converted_declares _ _ W)]. Qed.
(** with its own class and options, if the arguments of [\documentclass] are texts without dollars *)
Theorem C78_own_class : forall s d2 d, source_fits s -> count_newlines s < 2147483648 -> from_str2 Release s = Ok d2 -> from_str3 Release s = Ok d ->
  (forall l args, In (l, args) (class_commands d2) -> forall pre cs v c, In (pre, mkScope2 cs v) args -> In c cs -> exists k t, c = mkChunk2 k (Text2 t) /\ ~ In c_dollar t) ->
  declares (d_preamable d) (d_class d) (d_options d).
Proof. exact source_declares. Qed.
(** the same document comes out exactly if its class and options are those its preamble declares and every dollar block has at most one text
    or paragraph break directly in it *)
Theorem C78_restored : forall d cls opts d2 d', shaped_document d -> spaced (d_trailing d) = true ->
  N.of_nat (length (full_text d)) < 4294967296 -> count_newlines (full_text d) < 2147483648 -> declares (d_preamable d) cls opts ->
  from3_to2 Release d = @Ok error _ d2 -> try_from3 Release d2 = Ok d' ->
  (unnumbered_document3 d' = unnumbered_document3 d <-> cls = d_class d /\ opts = d_options d /\ single_document d = true).
Proof.
  intros d cls opts d2 d' A B C D E H1 H2. destruct (C78_comes_out d cls opts A B C D E) as (d2' & d'' & K1 & K2 & K3). rewrite K1 in H1. injection H1 as ->. rewrite K2 in H2. injection H2 as ->. rewrite K3. now apply again_same.
Qed.
(** no character is lost: what is printed after is what was printed before, in another order *)
Theorem C78_characters : forall d cls opts d2 d', shaped_document d -> spaced (d_trailing d) = true ->
  N.of_nat (length (full_text d)) < 4294967296 -> count_newlines (full_text d) < 2147483648 -> declares (d_preamable d) cls opts ->
  from3_to2 Release d = @Ok error _ d2 -> try_from3 Release d2 = Ok d' -> Permutation (full_text d') (full_text d).
Proof.
  intros d cls opts d2 d' A B C D E H1 H2. destruct (C78_comes_out d cls opts A B C D E) as (d2' & d'' & K1 & K2 & K3). rewrite K1 in H1. injection H1 as ->. rewrite K2 in H2. injection H2 as ->. rewrite (un_full _ _ K3). apply again_perm.
Qed.
(** the second time nothing moves (only the class and its options may change once more), and the third time nothing changes *)
Theorem C78_settles : forall d cls opts, shaped_document d -> spaced (d_trailing d) = true ->
  N.of_nat (length (full_text d)) < 4294967296 -> count_newlines (full_text d) < 2147483648 -> declares (d_preamable d) cls opts ->
  let once d := (let* d2 := from3_to2 Release d in try_from3 Release d2) : outcome error document3 in
  exists d1 d2 d3, once d = Ok d1 /\ once d1 = Ok d2 /\ once d2 = Ok d3 /\
    unnumbered_document3 d2 = unnumbered_document3 (mkDoc3 (d_class d2) (d_options d2) (d_preamable d1) (d_body d1) (d_body_args d1) (d_begin_prec d1) (d_end_prec d1) (d_trailing d1)) /\
    unnumbered_document3 d3 = unnumbered_document3 d2.
Proof. intros d cls opts A B C D E once. destruct (settles d cls opts A B (conj C D) E) as (d1 & d2 & R1 & R2 & U & d3 & R3 & U3). exists d1, d2, d3. repeat split; assumption. Qed.
Print Assumptions C78_comes_out.
Print Assumptions C78_debug.
Print Assumptions C78_converted.
Print Assumptions C78_own_class.
Print Assumptions C78_restored.
Print Assumptions C78_characters.
Print Assumptions C78_settles.

(** ** Examples *)
(** a document that is restored: class, options, arguments of the body, both kinds of dollars, both kinds of brackets, nesting, a break *)
Definition C78_text : str := lines_of ["\documentclass[a4paper,lang=en]{article}"; "\title{A $x$}"; "\begin{document}[$u$]"; "k $\alpha{$x$} b$ m"; ""; "z $$\frac{1}{2}$$ and \(y \[w\] $c$\beta\)"; "\end{document}"; ""]%string.
Example C78_example : exists d d2, source_fits C78_text /\ count_newlines C78_text < 2147483648 /\ from_str2 Release C78_text = Ok d2 /\ from_str3 Release C78_text = Ok d /\
  (forall l args, In (l, args) (class_commands d2) -> forall pre cs v c, In (pre, mkScope2 cs v) args -> In c cs -> exists k t, c = mkChunk2 k (Text2 t) /\ ~ In c_dollar t) /\
  class_commands d2 <> [] /\ d_class d = Some (S! "article") /\ spaced (d_trailing d) = true /\ N.of_nat (length (full_text d)) < 4294967296 /\ count_newlines (full_text d) < 2147483648 /\
  single_document d = true /\ (exists d', (let* d2 := from3_to2 Debug d in try_from3 Debug d2) = @Ok error _ d' /\ unnumbered_document3 d' = unnumbered_document3 d).
Proof.
  let x := eval vm_compute in (from_str3 Release C78_text) in match x with Ok ?d => exists d end.
  let x := eval vm_compute in (from_str2 Release C78_text) in match x with Ok ?d => exists d end.
  split; [vm_compute; reflexivity|]. split; [vm_compute; reflexivity|]. split; [vm_compute; reflexivity|]. split; [vm_compute; reflexivity|].
  split; [|split; [discriminate|split; [reflexivity|split; [vm_compute; reflexivity|split; [vm_compute; reflexivity|split; [vm_compute; reflexivity|split; [vm_compute; reflexivity|]]]]]]].
  - intros l args Hi. vm_compute in Hi. destruct Hi as [E|[]]. injection E as <- <-. intros pre cs v c Ha Hc. destruct Ha as [E|[E|[]]]; injection E as <- <- <-; destruct Hc as [<-|[]]; do 2 eexists; (split; [reflexivity|]); vm_compute; intuition discriminate.
  - let x := eval vm_compute in (let* d := from_str3 Release C78_text in let* d2 := from3_to2 Debug d in try_from3 Debug d2) in match x with Ok ?d => exists d end. split; vm_compute; reflexivity.
Qed.
(** so the theorems apply to it *)
Example C78_example_applies : exists d d2 d', from_str3 Release C78_text = Ok d /\ from3_to2 Release d = @Ok error _ d2 /\ try_from3 Release d2 = Ok d' /\ unnumbered_document3 d' = unnumbered_document3 d.
Proof.
  destruct C78_example as (d & d2 & A & B & C & D & E & _ & _ & F & G & H & I & _). pose proof (C78_own_class _ _ _ A B C D E) as De. destruct (C78_converted _ _ A B D) as [Sh _].
  destruct (C78_comes_out d _ _ Sh F G H De) as (e2 & e' & K1 & K2 & K3). exists d, e2, e'. split; [exact D|]. split; [exact K1|]. split; [exact K2|]. apply (C78_restored d _ _ e2 e' Sh F G H De K1 K2). auto.
Qed.
(** a document that is not restored: of the four pieces in the dollars only the last stays; afterwards it is *)
Definition C78_moving : str := lines_of ["\begin{document}x $a"; ""; "b"; ""; "c$ y\end{document}"]%string.
Example C78_refuted : exists d d1 d2, from_str3 Release C78_moving = Ok d /\ spaced (d_trailing d) = true /\ single_document d = false /\
  (let* d2 := from3_to2 Release d in try_from3 Release d2) = @Ok error _ d1 /\ unnumbered_document3 d1 <> unnumbered_document3 d /\
  show_chunks3 (d_body d) = lines_of ["x $a"; ""; "b"; ""; "c$ y"]%string /\ show_chunks3 (d_body d1) = lines_of ["x a"; ""; "b"; ""; "$c$ y"]%string /\
  (let* d2 := from3_to2 Release d1 in try_from3 Release d2) = @Ok error _ d2 /\ unnumbered_document3 d2 = unnumbered_document3 d1.
Proof.
  let x := eval vm_compute in (from_str3 Release C78_moving) in match x with Ok ?d => exists d end.
  let x := eval vm_compute in (let* d := from_str3 Release C78_moving in let* d2 := from3_to2 Release d in try_from3 Release d2) in match x with Ok ?d => exists d end.
  let x := eval vm_compute in (let* d := from_str3 Release C78_moving in let* d2 := from3_to2 Release d in let* d := try_from3 Release d2 in let* d2 := from3_to2 Release d in try_from3 Release d2) in match x with Ok ?d => exists d end.
  repeat split; try (vm_compute; reflexivity). vm_compute. discriminate.
Qed.
