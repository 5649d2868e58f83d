(** * Properties30: from stage 2 down to stage 1 and up again (C76)

    Only statements, short proofs from lemmas, assumptions and non-vacuity examples. The specification is in SpecAgain.v. *)
From Verif Require Import Base Ast1 Parse1 Ast2 Spec1 SpecDoc1 SpecDoc2 SpecBack2 SpecFlat SpecAgain SpecUnnum ModelTests1 Facts1 Gram1 Lines Env2 Good2 Tok Flat DownUp DownUp2.
From Coq Require Import Lia.

(** ** C76: without overflow checks, the result is always the same document with other line numbers ([again2]) *)
Theorem C76_release : forall p q s d2, 2 * (N.of_nat (length s) + 1) < two32 -> from_str2 p s = Ok d2 ->
  exists d1, @from2_to1 error q d2 = Ok d1 /\ try_from2 Release d1 = Ok (again2 d2).
Proof.
  intros p q s d2 B H. destruct (from_str2_split p s d2 ltac:(unfold source_fits; lia) H) as (d & H1 & _ & H2 & _).
  destruct (@down_up_parsed error q p s d d2 B H1 H2) as (d' & A1 & A2 & _). exists d'. auto.
Qed.
Theorem C76_only_lines : forall d, unnumbered2 (again2 d) = unnumbered2 d.
Proof. exact again2_unnumbered. Qed.
(** with overflow checks, it is that document when every body is further down than the newlines of its [\begin], and a
    panic otherwise *)
Theorem C76_debug : forall p q s d2, 2 * (N.of_nat (length s) + 1) < two32 -> from_str2 p s = Ok d2 ->
  exists d1, @from2_to1 error q d2 = Ok d1 /\
  (try_from2 Debug d1 = Ok (again2 d2) <-> roomy d2) /\ (try_from2 Debug d1 = Panic <-> ~ roomy d2).
Proof.
  intros p q s d2 B H. destruct (from_str2_split p s d2 ltac:(unfold source_fits; lia) H) as (d & H1 & _ & H2 & _).
  destruct (@down_up_parsed error q p s d d2 B H1 H2) as (d' & A1 & A2 & A3 & A4). exists d'. split; [exact A1|]. split; split.
  - intros E. destruct (classic_roomy d2) as [R|R]; [exact R|]. rewrite (A4 R) in E. discriminate E.
  - exact A3.
  - intros E R. rewrite (A3 R) in E. discriminate E.
  - exact A4.
Qed.
(** the same document, line numbers included, exactly when no environment has a newline among its arguments *)
Theorem C76_identity : forall p q s d2, 2 * (N.of_nat (length s) + 1) < two32 -> from_str2 p s = Ok d2 ->
  exists d1, @from2_to1 error q d2 = Ok d1 /\ forall r, try_from2 r d1 = Ok d2 <-> one_line_environments d2.
Proof.
  intros p q s d2 B H. assert (F : source_fits s) by (unfold source_fits; lia).
  destruct (from_str2_split p s d2 F H) as (d & H1 & _ & H2 & _).
  destruct (@down_up_parsed error q p s d d2 B H1 H2) as (d' & A1 & A2 & A3 & A4). exists d'. split; [exact A1|].
  assert (Bn : count_newlines s < 2147483648). { pose proof (count_newlines_le s). unfold two32 in B. lia. }
  pose proof (again_identity p s d2 F Bn H) as I. intros r. split.
  - intros E. apply I. destruct r; [|congruence]. destruct (debug_or_panic d' (again2 d2) A2); congruence.
  - intros O. assert (R : roomy d2).
    { intros cs l lab args content pb pe W J. rewrite (O _ _ _ _ _ _ _ W J). apply Forall_forall. intros c Hc.
      assert (Wc : within2 d2 content) by (eapply w2_env; eauto). apply in_split in Hc as (pre & post & E).
      pose proof (proj1 (other_line2 p s d2 F H content Wc pre c post E)). lia. }
    apply I in O. rewrite O in A2, A3. destruct r; auto.
Qed.
(** documents built by hand: lines from 1 on, no [\begin] or [\end] among the commands, labels that print as they are *)
Theorem C76_built : forall d d1,
  (forall cs c, within2 d cs -> In c cs -> 1 <= line_no2 c) ->
  (forall cs l lab args, within2 d cs -> In (mkChunk2 l (Command2 (mkCommand2 lab args))) cs -> lab <> S! "begin" /\ lab <> S! "end") ->
  every_label (fun lab => forall x, parses 1 (tokens lab) x -> show1 x = lab) d ->
  unfolds_all 0 d d1 -> fits1 d1 ->
  try_from2 Release d1 = Ok (again2 d) /\ (roomy d -> try_from2 Debug d1 = Ok (again2 d)) /\ (~ roomy d -> try_from2 Debug d1 = Panic).
Proof. exact down_up_out. Qed.
Print Assumptions C76_release.
Print Assumptions C76_only_lines.
Print Assumptions C76_debug.
Print Assumptions C76_identity.
Print Assumptions C76_built.

(** ** Examples *)
(** all on one line, with nested environments, scopes and arguments: the same document *)
Definition C76_flat : str := lines_of ["a"; "\begin{q}[u\begin{r}\end{r}]"; "v{w"; "\begin{r}{x}y\end{r}}"; "\end{q} z"]%string.
Example C76_example_identity : exists d2 d1, from_str2 Debug C76_flat = Ok d2 /\ @from2_to1 error Debug d2 = Ok d1 /\ try_from2 Debug d1 = Ok d2 /\
  roomyb d2 = true /\ again2 d2 = d2.
Proof.
  let x := eval vm_compute in (from_str2 Debug C76_flat) in match x with Ok ?d => exists d end.
  let x := eval vm_compute in (let* d := from_str2 Debug C76_flat in from2_to1 Debug d) in match x with Ok ?d => exists d end.
  repeat split; vm_compute; reflexivity.
Qed.
(** a newline among the arguments, with room: lines change *)
Definition C76_room : str := lines_of ["\begin{q}["; "]\begin{r}{"; "}\end{r}"; "x\end{q}"]%string.
Example C76_example_room : exists d2 d1 d2', from_str2 Debug C76_room = Ok d2 /\ @from2_to1 error Debug d2 = Ok d1 /\ try_from2 Debug d1 = Ok d2' /\
  d2' = again2 d2 /\ d2' <> d2 /\ roomyb d2 = true.
Proof.
  let x := eval vm_compute in (from_str2 Debug C76_room) in match x with Ok ?d => exists d end.
  let x := eval vm_compute in (let* d := from_str2 Debug C76_room in from2_to1 Debug d) in match x with Ok ?d => exists d end.
  let x := eval vm_compute in (let* d := from_str2 Debug C76_room in let* d := from2_to1 Debug d in try_from2 Debug d) in match x with Ok ?d => exists d end.
  repeat split; try (vm_compute; reflexivity). intros K; discriminate K.
Qed.
(** the usual case of a newline among the arguments: a panic with overflow checks, a wrapped line number without *)
Definition C76_tight : str := lines_of ["\begin{q}["; "]x\end{q}"]%string.
Example C76_example_panic : exists d2 d1, from_str2 Debug C76_tight = Ok d2 /\ @from2_to1 error Debug d2 = Ok d1 /\ try_from2 Debug d1 = Panic /\
  ~ roomy d2 /\ try_from2 Release d1 = Ok (again2 d2) /\ again2 d2 <> d2.
Proof.
  let x := eval vm_compute in (from_str2 Debug C76_tight) in match x with Ok ?d => exists d end.
  let x := eval vm_compute in (let* d := from_str2 Debug C76_tight in from2_to1 Debug d) in match x with Ok ?d => exists d end.
  split; [vm_compute; reflexivity|]. split; [vm_compute; reflexivity|]. split; [vm_compute; reflexivity|]. split.
  - intros R. specialize (R _ _ _ _ _ _ _ (w2_self _) (or_introl eq_refl)). inversion R as [|? ? A B]; subst. vm_compute in A. discriminate A.
  - split; [vm_compute; reflexivity|]. intros K; discriminate K.
Qed.
