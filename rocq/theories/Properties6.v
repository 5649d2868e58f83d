(** * Properties6: maths blocks (src/ast3/mathsblock.rs) and stage-3 parsing as a whole

    Only statements, one-line proofs, assumptions and non-vacuity examples.  Specification:
    SpecMaths3.v. *)
From Verif Require Import Base Ast1 Parse1 Ast2 Ast3 SpecDoc1 SpecDoc2 SpecDoc3 SpecMaths3 ModelTests1
  MathsFwd MathsBwd MathsRun.

(** ** C29: maths recognition and Display.

    The documented claim is false: text between two commands inside dollars is moved out of the
    block, a nested pair of brackets loses its commands, a single dollar inside a double-dollar block is lost,
    and so are the arguments of [\(]. *)
Theorem C29_display_refuted : exists cs cs', maths_from_chunks Debug cs = Ok cs' /\ show_chunks3 cs' <> show2 cs.
Proof.
  exists [mkChunk2 1 (Text2 (S! "$a ")); mkChunk2 1 (Command2 (mkCommand2 (S! "alpha") [])); mkChunk2 1 (Text2 (S! " b$"))].
  eexists. split; [vm_compute; reflexivity|vm_compute; discriminate].
Qed.
Print Assumptions C29_display_refuted.
Theorem C29_nested_refuted : exists s d, from_str2 Debug s = Ok d /\ show2 d = s /\
  exists cs', maths_from_chunks Debug d = Ok cs' /\ show_chunks3 cs' <> show2 d.
Proof.
  exists (S! "\(a\(b\)c\)"). eexists. split; [vm_compute; reflexivity|]. split; [reflexivity|].
  eexists. split; [vm_compute; reflexivity|vm_compute; discriminate].
Qed.
Print Assumptions C29_nested_refuted.
Theorem C29_dollar_refuted : exists s d, from_str2 Debug s = Ok d /\ show2 d = s /\
  exists cs', maths_from_chunks Debug d = Ok cs' /\ show_chunks3 cs' <> show2 d.
Proof.
  exists (S! "$$a$b$"). eexists. split; [vm_compute; reflexivity|]. split; [reflexivity|].
  eexists. split; [vm_compute; reflexivity|vm_compute; discriminate].
Qed.
Print Assumptions C29_dollar_refuted.

(** Exactly the tidy lists keep their Display; nothing is ever added: the result is a shorter
    text, or of the same length. *)
Theorem C29_display_exact_partial : forall p cs out,
  count_newlines (show2 cs) < 2147483648 ->
  maths_from_chunks p cs = Ok out ->
  (show_chunks3 out = show2 cs <-> tidy (atoms cs)).
Proof. exact maths_exact. Qed.
Print Assumptions C29_display_exact_partial.
Theorem C29_never_longer : forall p cs out,
  count_newlines (show2 cs) < 2147483648 ->
  maths_from_chunks p cs = Ok out ->
  (length (show_chunks3 out) <= length (show2 cs))%nat.
Proof. exact maths_not_longer. Qed.
Print Assumptions C29_never_longer.
(** A tidy list with every form of maths: [x \( a {$z$} \) $$\b c$$$d$]. *)
Example C29_example : exists cs out,
  maths_from_chunks Debug cs = Ok out /\ length out = 4%nat /\ tidy (atoms cs) /\
  show2 cs = S! "x \(a{$z$}\)$$\b c$$$d$".
Proof.
  exists [mkChunk2 1 (Text2 (S! "x ")); mkChunk2 1 (Command2 (mkCommand2 [c_lround] []));
          mkChunk2 1 (Text2 (S! "a")); mkChunk2 1 (Scope2 (mkScope2 [mkChunk2 1 (Text2 (S! "$z$"))] Curly2));
          mkChunk2 1 (Command2 (mkCommand2 [c_rround] [])); mkChunk2 1 (Text2 (S! "$$"));
          mkChunk2 1 (Command2 (mkCommand2 (S! "b") [])); mkChunk2 1 (Text2 (S! " c$$$d$"))].
  eexists. split; [vm_compute; reflexivity|]. split; [reflexivity|]. split; [|reflexivity].
  eapply (maths_exact Debug); [vm_compute; reflexivity|vm_compute; reflexivity|vm_compute; reflexivity].
Qed.

(** ** C40: termination of the stage-3 conversions on every input, hand-built ones included *)
Theorem C40_maths_terminates : forall p cs, maths_from_chunks p cs <> OutOfFuel.
Proof. exact (fun p cs => proj1 (maths_runs p cs)). Qed.
Print Assumptions C40_maths_terminates.
Theorem C40_try_from3_terminates : forall p d, try_from3 p d <> OutOfFuel.
Proof. exact (fun p d => proj1 (try_from3_runs p d)). Qed.
Print Assumptions C40_try_from3_terminates.
Theorem C40_from_str3_terminates : forall p s, source_fits s -> from_str3 p s <> OutOfFuel.
Proof. exact from_str3_not_oof. Qed.
Print Assumptions C40_from_str3_terminates.

(** ** C31: stage-3 parsing and panics.  Without overflow checks it never panics, with them it
    does: the lines of a maths block are computed relative to its last text. *)
Theorem C31_release : forall s, source_fits s ->
  (exists d, from_str3 Release s = Ok d) \/ (exists e, from_str3 Release s = Err e).
Proof. exact from_str3_release. Qed.
Print Assumptions C31_release.
Theorem C31_hand_built_release : forall d,
  (exists d3, try_from3 Release d = Ok d3) \/ (exists e, try_from3 Release d = Err e).
Proof. exact (fun d => runs_release _ (try_from3_runs Release d)). Qed.
Print Assumptions C31_hand_built_release.
Theorem C31_debug_refuted : exists s, source_fits s /\ from_str3 Debug s = Panic.
Proof. exists (lines_of ["$\alpha x"; ""; "\beta y$"]%string). split; [vm_compute; reflexivity|vm_compute; reflexivity]. Qed.
Print Assumptions C31_debug_refuted.
Theorem C31_debug_one_command_refuted : exists s, source_fits s /\ from_str3 Debug s = Panic.
Proof. exists (lines_of ["$\frac{a"; ""; "}{b} c$"]%string). split; [vm_compute; reflexivity|vm_compute; reflexivity]. Qed.
Print Assumptions C31_debug_one_command_refuted.
