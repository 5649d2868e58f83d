(** * Properties21: the running time of the conversions to stages 2 and 3

    Only statements, short proofs from lemmas, assumptions and non-vacuity examples.
    The counted conversions [counted2], [steps2] and the measures [count1] (chunks at every depth), [env_depth], [visits]
    are in Cost2.v; [counted3], [steps3] in Cost3.v; [count2], [source_steps2], [source_steps3] in Cost3b.v. *)
From Verif Require Import Base Ast1 Parse1 Ast2 Ast3 SpecDoc1 ModelTests1 Cost1 Cost2 Cost3 Cost3b.

(** ** C66: the conversion to stage 2 takes each chunk at most once for each environment around it, and once more.

    The counter is honest: without it, the counted conversion is the conversion. *)
Theorem C66_counter_erased : forall p d, snd (counted2 p d) = try_from2 p d.
Proof. exact counted2_erase. Qed.
Print Assumptions C66_counter_erased.
(** Never more than quadratic, whether the conversion succeeds or not *)
Theorem C66_quadratic : forall p d, (steps2 p d <= count1 d * count1 d)%nat.
Proof. exact steps2_bound. Qed.
Print Assumptions C66_quadratic.
(** Linear when environments are not nested deep ("performance is highly affected by maximum environment depth") *)
Theorem C66_linear_in_depth : forall p d d2, try_from2 p d = Ok d2 ->
  (steps2 p d <= count1 d * (env_depth d2 + 1))%nat.
Proof. intros p d d2 H. rewrite Nat.add_1_r. exact (steps2_linear p d d2 H). Qed.
Print Assumptions C66_linear_in_depth.
(** The number of steps, exactly *)
Theorem C66_exact : forall p d d2, try_from2 p d = Ok d2 -> steps2 p d = visits d2.
Proof. exact steps2_exact. Qed.
Print Assumptions C66_exact.
(** The worst case named in the documentation really is quadratic: [16 k] characters, [k (k + 1)] steps *)
Theorem C66_worst_case : forall p k,
  let s := concat (repeat (S! "\begin{a}") k) ++ concat (repeat (S! "\end{a}") k) in
  source_fits s -> length s = (16 * k)%nat /\
  exists d d2, from_str1 p s = Ok d /\ try_from2 p d = Ok d2 /\ env_depth d2 = k /\ steps2 p d = (k * k + k)%nat.
Proof. intros p k s B. split; [exact (worst_length k)|exact (worst_steps p k B)]. Qed.
Print Assumptions C66_worst_case.
(** In terms of the source: a document has at most as many chunks as its source has characters *)
Theorem C66_source : forall p s, source_fits s -> (source_steps2 p s <= 2 * (length s * length s))%nat.
Proof. exact source_steps2_bound. Qed.
Print Assumptions C66_source.
Theorem C66_source_shallow : forall p s d d2 D, source_fits s ->
  from_str1 p s = Ok d -> shallow D d -> try_from2 p d = Ok d2 ->
  (source_steps2 p s <= length s * (D + env_depth d2 + 2))%nat.
Proof.
  intros p s d d2 D B H Hs H2. unfold source_steps2. rewrite H. pose proof (steps_linear p s d D H Hs).
  pose proof (steps2_linear p d d2 H2). pose proof (from_str1_count p s d B H). nia.
Qed.
Print Assumptions C66_source_shallow.
Example C66_example : exists s d d2, s = S! "a\begin{q}{b}\c[\begin{r}d\end{r}]\end{q}" /\ source_fits s /\
  from_str1 Debug s = Ok d /\ shallow 2 d /\ try_from2 Debug d = Ok d2 /\ count1 d = 12%nat /\ env_depth d2 = 2%nat /\ steps2 Debug d = 10%nat.
Proof.
  let d := eval vm_compute in (from_str1 Debug (S! "a\begin{q}{b}\c[\begin{r}d\end{r}]\end{q}")) in
  match d with Ok ?d => let d2 := eval vm_compute in (try_from2 Debug d) in
    match d2 with Ok ?d2 => exists (S! "a\begin{q}{b}\c[\begin{r}d\end{r}]\end{q}"), d, d2 end end.
  split; [reflexivity|]. split; [vm_compute; reflexivity|]. split; [vm_compute; reflexivity|].
  split; [cbn; repeat constructor|]. split; [vm_compute; reflexivity|]. split; [vm_compute; reflexivity|].
  split; vm_compute; reflexivity.
Qed.

(** ** C67: the conversion to stage 3 is linear: at most 19 steps for each chunk and character of the document.

    (The documentation assumes O(n^2).)  Maths blocks of one kind do not nest, so a chunk is in at most three of them;
    the paragraph pass is made once for each. *)
Theorem C67_counter_erased : forall p d, snd (counted3 p d) = try_from3 p d.
Proof. exact counted3_erase. Qed.
Print Assumptions C67_counter_erased.
Theorem C67_linear : forall p d, (steps3 p d <= 19 * (count2 d + length (show2 d)))%nat.
Proof. exact steps3_linear. Qed.
Print Assumptions C67_linear.
(** In terms of the source: parsing to stage 3 is quadratic, because of the first two stages only *)
Theorem C67_source : forall p s, source_fits s ->
  (source_steps3 p s <= 2 * (length s * length s) + 38 * length s)%nat.
Proof. exact source_steps3_bound. Qed.
Print Assumptions C67_source.
(** Maths blocks of all three kinds inside one another, between [\begin{document}] and [\end{document}] *)
Example C67_example : exists s d d2, s = S! "\begin{document}a$b\(c\[d\(e\)\]f\)$ g\end{document}" /\ source_fits s /\
  from_str2 Debug s = Ok d /\ try_from3 Debug d = Ok d2 /\ count2 d = 13%nat /\ length (show2 d) = 52%nat /\ steps3 Debug d = 71%nat.
Proof.
  let d := eval vm_compute in (from_str2 Debug (S! "\begin{document}a$b\(c\[d\(e\)\]f\)$ g\end{document}")) in
  match d with Ok ?d => let d2 := eval vm_compute in (try_from3 Debug d) in
    match d2 with Ok ?d2 => exists (S! "\begin{document}a$b\(c\[d\(e\)\]f\)$ g\end{document}"), d, d2 end end.
  split; [reflexivity|]. split; [vm_compute; reflexivity|]. split; [vm_compute; reflexivity|].
  split; [vm_compute; reflexivity|]. split; [vm_compute; reflexivity|]. split; vm_compute; reflexivity.
Qed.
