(** * Properties10: the running time of stage-1 parsing

    Only statements, short proofs from lemmas, assumptions and non-vacuity examples.
    The counted parser [counted1], [steps1] and [shallow] are in Cost1.v. *)
From Verif Require Import Base Ast1 Parse1 ModelTests1 Cost1.

(** ** C39: the loop over characters is entered at most n*n times, recursive calls included.

    The counter is honest: without it, the counted parser is the parser. *)
Theorem C39_counter_erased : forall p s, snd (counted1 p s) = from_str1 p s.
Proof. exact counted_erase. Qed.
Print Assumptions C39_counter_erased.
Theorem C39_quadratic : forall p s, (steps1 p s <= length s * length s)%nat.
Proof. exact steps_bound. Qed.
Print Assumptions C39_quadratic.
(** The worst case named in the documentation, [{{{{}}}}], really is quadratic. *)
Theorem C39_worst_case : forall p k, N.of_nat k < two32 ->
  let s := repeat c_lcurly k ++ repeat c_rcurly k in
  length s = (2 * k)%nat /\ (exists d, from_str1 p s = Ok d) /\ steps1 p s = (k * k + k)%nat.
Proof.
  intros p k H s. split; [exact (nest_length k)|]. split; [|exact (nest_steps k p H)].
  rewrite <- counted_erase. apply (nest_counted k); [unfold s; fold (nest k); rewrite (nest_length k); lia|assumption].
Qed.
Print Assumptions C39_worst_case.
(** And a document nested at most [D] deep takes at most [D + 1] passes over the source. *)
Theorem C39_linear_in_depth : forall p s d D, from_str1 p s = Ok d -> shallow D d ->
  (steps1 p s <= length s * (D + 1))%nat.
Proof. intros p s d D H1 H2. rewrite Nat.add_1_r. exact (steps_linear p s d D H1 H2). Qed.
Print Assumptions C39_linear_in_depth.
Example C39_example : exists s d, s = S! "a{b\c[d{e}]}" /\ from_str1 Debug s = Ok d /\ shallow 3 d /\ ~ shallow 2 d /\
  steps1 Debug s = 26%nat.
Proof.
  eexists. eexists. split; [reflexivity|]. split; [vm_compute; reflexivity|].
  split; [cbn; repeat constructor|]. split; [|vm_compute; reflexivity].
  cbn. intros H.
  repeat match goal with H : Forall _ (_ :: _) |- _ => inversion H; clear H; subst; cbn in * end; contradiction.
Qed.
