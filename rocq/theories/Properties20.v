(** * Properties20: which sources and which displays are accepted (C64, C65) *)
From Verif Require Import Base Ast1 Parse1 Spec1 SpecDoc1 SpecCanon1 SpecNested Lines Facts1 Refine1 Canon1 Nested1 Properties1.

(** ** C64: a source whose brackets nest is accepted *)
(** if no escaped opening bracket follows a control word, which would take it for an argument *)
Theorem C64_accepted : forall p s, source_fits s -> nested (tokens s) -> harmless_escapes (tokens s) -> exists d, from_str1 p s = Ok d.
Proof. exact nested_accepted. Qed.
(** a source without escaped opening brackets need only nest *)
Theorem C64_no_escapes : forall p s, source_fits s -> nested (tokens s) -> (forall o, In (Esc o) (tokens s) -> is_opening o = false) -> exists d, from_str1 p s = Ok d.
Proof.
  intros p s B K H. apply nested_accepted; [exact B|exact K|]. intros pre o post E Ho. exfalso. rewrite (H o) in Ho; [discriminate|]. rewrite E. apply in_elt.
Qed.
Print Assumptions C64_accepted.
Print Assumptions C64_no_escapes.
Definition C64_source : str := S! "\a[b]{c(\d)} x\[y\]{(z) u\{\}}% }" ++ [10] ++ S! "[\e{\f[g]}]".
Example C64_example : nested (tokens C64_source) /\ harmless_escapes (tokens C64_source) /\ source_fits C64_source.
Proof.
  split; [apply stack_nested; vm_compute; reflexivity|]. split; [|vm_compute; reflexivity].
  let x := eval vm_compute in (tokens C64_source) in change (tokens C64_source) with x.
  intros pre o post E Ho.
  repeat (destruct pre as [|? pre]; [cbn [app] in E; try discriminate E; injection E as <- _; try discriminate Ho;
    right; match goal with |- exists a b x m, ?l = _ /\ _ =>
      first [exists (firstn 10 l), 32, 120, (skipn 12 l); vm_compute; repeat split; reflexivity|exists (firstn 19 l), 32, 117, (skipn 21 l); vm_compute; repeat split; reflexivity] end|cbn [app] in E; first [injection E as <- E|discriminate E]]).
  all: destruct pre; discriminate E.
Qed.
(** the condition on escaped brackets is needed: here brackets nest, and one is missing for the code *)
Example C64_escaped : nested (tokens (S! "$\alpha=\{1\}$")) /\ from_str1 Debug (S! "$\alpha=\{1\}$") = Err (mkError 1 (UnclosedArgument Curly1)).
Proof. split; [apply stack_nested; vm_compute; reflexivity|vm_compute; reflexivity]. Qed.
(** so is the nesting *)
Example C64_crossing : from_str1 Debug (S! "\a{\b[}]") = Err (mkError 1 (UnexpectedClosing Square1)).
Proof. vm_compute. reflexivity. Qed.

(** ** C65: the Display of a validated document is accepted *)
(** true if the blanks before arguments and the labels, which [validate] does not (fully) check, are as they
    should be *)
Theorem C65_display_partial : forall p q d, source_fits (show1 d) -> validate1 p d = Ok tt -> everywhere plain_parts d ->
  exists d', from_str1 q (show1 d) = Ok d'.
Proof.
  intros p q d B V P. apply C15_validate1 in V; [|pose proof (Tok.count_newlines_le (show1 d)); unfold source_fits in B; lia].
  apply display_accepted; [exact B|exact (proj2 V)|exact P].
Qed.
(** each condition is needed: a validated document whose Display is rejected ... *)
Definition rejected_display (d : document1) : Prop := validate1 Debug d = Ok tt /\ exists e, from_str1 Debug (show1 d) = Err e.
(** ... because of what stands before an argument, *)
Theorem C65_prec_refuted : rejected_display [mkChunk1 1 (Command1 (mkCommand1 (S! "a") [(S! "}", mkScope1 [] Curly1)]))].
Proof. split; [vm_compute; reflexivity|]. eexists. vm_compute. reflexivity. Qed.
(** of an empty label, *)
Theorem C65_label_refuted : rejected_display [mkChunk1 1 (Command1 (mkCommand1 (S! "a") [([], mkScope1 [mkChunk1 1 (Command1 (mkCommand1 [] []))] Curly1)]))].
Proof. split; [vm_compute; reflexivity|]. eexists. vm_compute. reflexivity. Qed.
(** or of a bracket after a control word *)
Theorem C65_symbol_refuted : rejected_display [mkChunk1 1 (Command1 (mkCommand1 (S! "a") [])); mkChunk1 1 (Command1 (mkCommand1 (S! "{") []))].
Proof. split; [vm_compute; reflexivity|]. eexists. vm_compute. reflexivity. Qed.
Print Assumptions C65_display_partial.
Print Assumptions C65_prec_refuted.
Print Assumptions C65_label_refuted.
Print Assumptions C65_symbol_refuted.
Example C65_example : let d := [mkChunk1 1 (Command1 (mkCommand1 (S! "a b") [([10], mkScope1 [mkChunk1 7 (Text1 (S! "x"))] Round1)]));
    mkChunk1 2 (Scope1 (mkScope1 [mkChunk1 5 (Command1 (mkCommand1 (S! "}") []))] Square1))] in
  validate1 Debug d = Ok tt /\ everywhere plain_parts d /\ source_fits (show1 d) /\ exists d', from_str1 Debug (show1 d) = Ok d' /\ d' <> d.
Proof.
  cbv zeta. split; [vm_compute; reflexivity|]. split; [|split; [vm_compute; reflexivity|eexists; split; [vm_compute; reflexivity|discriminate]]].
  repeat (apply everywhere_cons; split; [first [exact I|cbn; repeat split; first [discriminate|intros o Eo; injection Eo as <-; reflexivity|intros o Eo; discriminate Eo|repeat constructor]]|split; [cbn; repeat constructor|]]).
  all: repeat first [apply everywhere_nil|apply everywhere_cons; split; [|split]].
  all: cbn; repeat split; try discriminate; try (intros o Eo; first [discriminate Eo|injection Eo as <-; reflexivity]); try constructor.
Qed.
