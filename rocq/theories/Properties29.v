(** * Properties29: line numbers influence nothing but line numbers (C75)

    Only statements, short proofs from lemmas, assumptions and non-vacuity examples. The specification is in SpecUnnum.v. *)
From Verif Require Import Base Ast1 Parse1 Ast2 Ast3 ModelTests1 SpecUnnum Mono Unnum Unnum1 Unnum3 Unnum4 Back3.
From Coq Require Import Lia Arith.

Lemma sim_alike {A} (f : A -> A) b x y : sim sameE b (fun a c => f a = f c) x y -> (b = true /\ (x = Panic \/ y = Panic)) \/ alike f x y.
Proof. intros [H|H]; [left; exact H|right]. destruct x, y; try contradiction; exact H. Qed.
Lemma sim_alike_p {A} (f : A -> A) p x y : (forall b, b = true \/ (p = Release /\ p = Release) -> sim sameE b (fun a c => f a = f c) x y) -> (p = Debug /\ (x = Panic \/ y = Panic)) \/ alike f x y.
Proof.
  intros H. destruct p.
  - destruct (sim_alike f true x y (H true (or_introl eq_refl))) as [[_ K]|K]; auto.
  - destruct (sim_alike f false x y (H false (or_intror (conj eq_refl eq_refl)))) as [[K _]|K]; [discriminate|auto].
Qed.

(** ** C75: two documents that differ in line numbers only have the same outcome, up to line numbers. With overflow
    checks, one of them may panic instead. *)
Theorem C75_to_stage2 : forall p d d', unnumbered1 d = unnumbered1 d' ->
  (p = Debug /\ (try_from2 p d = Panic \/ try_from2 p d' = Panic)) \/ alike unnumbered2 (try_from2 p d) (try_from2 p d').
Proof. intros p d d' H. apply sim_alike_p. intros b Hb. exact (sim_try_from2 p p b d d' Hb H). Qed.
Theorem C75_maths : forall p cs cs', unnumbered2 cs = unnumbered2 cs' ->
  (p = Debug /\ (maths_from_chunks p cs = Panic \/ maths_from_chunks p cs' = Panic)) \/ alike unnumbered3 (maths_from_chunks p cs) (maths_from_chunks p cs').
Proof. intros p d d' H. apply sim_alike_p. intros b Hb. exact (sim_maths p p b d d' Hb H). Qed.
Theorem C75_paragraphs : forall p cs cs', unnumbered3 cs = unnumbered3 cs' ->
  (p = Debug /\ (@paragraph_from_chunks error p cs = Panic \/ @paragraph_from_chunks error p cs' = Panic)) \/ alike unnumbered3 (paragraph_from_chunks p cs) (paragraph_from_chunks p cs').
Proof. intros p d d' H. apply sim_alike_p. intros b Hb. exact (sim_par p p b Hb sameE d d' H). Qed.
Theorem C75_to_stage3 : forall p d d', unnumbered2 d = unnumbered2 d' ->
  (p = Debug /\ (try_from3 p d = Panic \/ try_from3 p d' = Panic)) \/ alike unnumbered_document3 (try_from3 p d) (try_from3 p d').
Proof. intros p d d' H. apply sim_alike_p. intros b Hb. exact (sim_try_from3 p p b Hb d d' H). Qed.
Theorem C75_back_to_stage1 : forall p d d', unnumbered2 d = unnumbered2 d' ->
  (p = Debug /\ (@from2_to1 error p d = Panic \/ @from2_to1 error p d' = Panic)) \/ alike blank1 (from2_to1 p d) (from2_to1 p d').
Proof. intros p d d' H. apply sim_alike_p. intros b Hb. apply (down_document sameE p b); [tauto|exact H]. Qed.
Theorem C75_back_to_stage2 : forall p d d', unnumbered_document3 d = unnumbered_document3 d' ->
  (p = Debug /\ (@from3_to2 error p d = Panic \/ @from3_to2 error p d' = Panic)) \/ alike unnumbered2 (from3_to2 p d) (from3_to2 p d').
Proof.
  intros p d d' H. pose proof (@down3_document error p p d d' H) as A.
  assert (G : forall d, (p = Debug /\ @from3_to2 error p d = Panic) \/ exists r, @from3_to2 error p d = Ok r).
  { intros e. destruct p; [|right; apply back3_release]. destruct (@back3_release error e) as [r Hr]. destruct (from3_to2_leq (E := error) true Debug Release dr e) as [K|K]; [left; auto|right; exists r; congruence]. }
  destruct (G d) as [[-> K]|[r Hr]]; [left; auto|]. destruct (G d') as [[-> K]|[r' Hr']]; [left; auto|].
  right. rewrite Hr, Hr'. exact (A r r' Hr Hr').
Qed.
Print Assumptions C75_to_stage2.
Print Assumptions C75_maths.
Print Assumptions C75_paragraphs.
Print Assumptions C75_to_stage3.
Print Assumptions C75_back_to_stage1.
Print Assumptions C75_back_to_stage2.

(** ** Examples *)
(** a parsed document and its copy with all numbers 0 *)
Definition C75_text : str := lines_of ["a\b{x}"; "\begin{q}[u]"; "v$m$\end{q}"; "k{y\begin{r}\end{r}} z\[w\]"; ""; ""; "t"]%string.
Example C75_example_up : exists d d2 d2' out out', from_str1 Debug C75_text = Ok d /\ d <> unnumbered1 d /\ unnumbered1 (unnumbered1 d) = unnumbered1 d /\
  try_from2 Debug d = Ok d2 /\ try_from2 Debug (unnumbered1 d) = Ok d2' /\ d2 <> d2' /\ unnumbered2 d2 = unnumbered2 d2' /\
  maths_from_chunks Debug d2 = Ok out /\ maths_from_chunks Debug d2' = Ok out' /\ out <> out' /\ unnumbered3 out = unnumbered3 out'.
Proof.
  let x := eval vm_compute in (from_str1 Debug C75_text) in match x with Ok ?d => exists d end.
  let x := eval vm_compute in (from_str2 Debug C75_text) in match x with Ok ?d => exists d end.
  let x := eval vm_compute in (let* d := from_str1 Debug C75_text in try_from2 Debug (unnumbered1 d)) in match x with Ok ?d => exists d end.
  let x := eval vm_compute in (let* d := from_str2 Debug C75_text in maths_from_chunks Debug d) in match x with Ok ?d => exists d end.
  let x := eval vm_compute in (let* d := from_str1 Debug C75_text in let* d := try_from2 Debug (unnumbered1 d) in maths_from_chunks Debug d) in match x with Ok ?d => exists d end.
  repeat split; try (vm_compute; reflexivity); intros H; discriminate H.
Qed.
(** with overflow checks: body above its [\begin] *)
Definition C75_label (l : N) : scope1 := mkScope1 [mkChunk1 l (Text1 (S! "q"))] Curly1.
Definition C75_env (l lb le : N) : document1 :=
  [mkChunk1 3 (Command1 (mkCommand1 (S! "begin") [([], C75_label lb)])); mkChunk1 l (Text1 (S! "x"));
   mkChunk1 3 (Command1 (mkCommand1 (S! "end") [([], C75_label le)]))].
Example C75_example_panic : unnumbered1 (C75_env 2 1 1) = unnumbered1 (C75_env 3 1 1) /\
  try_from2 Debug (C75_env 2 1 1) = Panic /\ (exists d, try_from2 Debug (C75_env 3 1 1) = Ok d) /\ exists d, try_from2 Release (C75_env 2 1 1) = Ok d.
Proof.
  split; [reflexivity|]. split; [vm_compute; reflexivity|].
  split; [let x := eval vm_compute in (try_from2 Debug (C75_env 3 1 1)) in match x with Ok ?d => exists d end|let x := eval vm_compute in (try_from2 Release (C75_env 2 1 1)) in match x with Ok ?d => exists d end]; vm_compute; reflexivity.
Qed.
(** the exception: line numbers inside a label are compared *)
Example C75_example_label : blank1 (C75_env 3 1 1) = blank1 (C75_env 3 1 2) /\ (exists d, try_from2 Release (C75_env 3 1 1) = Ok d) /\
  try_from2 Release (C75_env 3 1 2) = Err (mkError 3 (UnexpectedEnd (S! "q"))).
Proof.
  split; [reflexivity|]. split; [let x := eval vm_compute in (try_from2 Debug (C75_env 3 1 1)) in match x with Ok ?d => exists d end; vm_compute; reflexivity|vm_compute; reflexivity].
Qed.
(** the way down, from a document and from its copy without numbers *)
Definition C75_doc : str := lines_of ["p"; "\begin{document}"; "v$m$\begin{q}"; "\end{q}"; "\end{document}"]%string.
Example C75_example_down : exists d3 d2 d2' d1 d1', from_str3 Debug C75_doc = Ok d3 /\ d3 <> unnumbered_document3 d3 /\
  @from3_to2 error Release d3 = Ok d2 /\ @from3_to2 error Release (unnumbered_document3 d3) = Ok d2' /\ d2 <> d2' /\
  @from3_to2 error Debug (unnumbered_document3 d3) = Panic /\ @from2_to1 error Release d2 = Ok d1 /\ @from2_to1 error Release d2' = Ok d1' /\ d1 <> d1' /\ blank1 d1 = blank1 d1'.
Proof.
  let x := eval vm_compute in (from_str3 Debug C75_doc) in match x with Ok ?d => exists d end.
  let x := eval vm_compute in (let* d := from_str3 Debug C75_doc in from3_to2 Release d) in match x with Ok ?d => exists d end.
  let x := eval vm_compute in (let* d := from_str3 Debug C75_doc in from3_to2 Release (unnumbered_document3 d)) in match x with Ok ?d => exists d end.
  let x := eval vm_compute in (let* d := from_str3 Debug C75_doc in let* d := from3_to2 Release d in from2_to1 Release d) in match x with Ok ?d => exists d end.
  let x := eval vm_compute in (let* d := from_str3 Debug C75_doc in let* d := from3_to2 Release (unnumbered_document3 d) in from2_to1 Release d) in match x with Ok ?d => exists d end.
  repeat split; try (vm_compute; reflexivity); intros H; discriminate H.
Qed.
