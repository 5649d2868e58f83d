(** * Properties25: maths blocks directly inside each other (C71)

    Only statements, short proofs from lemmas, assumptions and non-vacuity examples.
    The specification is in SpecChain.v. *)
From Verif Require Import Base Ast1 Parse1 Ast2 Ast3 ModelTests1 SpecDoc1 SpecDoc3 SpecMaths3 SpecReads SpecWrap SpecChain Mono MathsRun ReadsW Chain.
From Coq Require Import Lia.

(** ** C71: each kind at most once *)
Theorem C71_kinds : forall p s d3, source_fits s -> count_newlines s < 2147483648 -> from_str3 p s = Ok d3 ->
  (forall sec cs ks, within3 (get_section sec d3) cs -> chain cs ks -> NoDup ks) /\
  (forall pre inner v cs ks, In (pre, mkScope3 inner v) (d_body_args d3) -> within3 inner cs -> chain cs ks -> NoDup ks).
Proof.
  intros p s d3 B Bn H.
  assert (H' : from_str3 Release s = Ok d3) by (destruct p; [destruct (from_str3_leq true Debug Release dr s) as [K|K]; congruence|exact H]).
  unfold from_str3 in H'. destruct (from_str2 Release s) as [d|e| |] eqn:E; cbn [bind] in H'; try discriminate.
  destruct (document_chain d d3 (parsed_fits _ _ _ B Bn E) H') as [A C]. split; [intros sec cs ks; apply A|]. intros pre inner v cs ks Hi. exact (C _ _ _ Hi cs ks).
Qed.
Print Assumptions C71_kinds.
(** hence at most three deep *)
Theorem C71_depth : forall p s d3 sec cs ks, source_fits s -> count_newlines s < 2147483648 -> from_str3 p s = Ok d3 ->
  within3 (get_section sec d3) cs -> chain cs ks -> (length ks <= 3)%nat.
Proof. intros p s d3 sec cs ks B Bn H W C. apply kinds_three. exact (proj1 (C71_kinds p s d3 B Bn H) sec cs ks W C). Qed.
Print Assumptions C71_depth.
(** the same for documents and lists of chunks that were not parsed *)
Theorem C71_convert : forall p d d3, in_range d -> u32_lines d -> try_from3 p d = Ok d3 ->
  forall sec cs ks, within3 (get_section sec d3) cs -> chain cs ks -> NoDup ks.
Proof.
  intros p d d3 R U H sec cs ks.
  assert (H' : try_from3 Release d = Ok d3) by (destruct p; [destruct (try_from3_leq true Debug Release dr d) as [K|K]; congruence|exact H]).
  exact (proj1 (document_chain d d3 (conj R U) H') sec cs ks).
Qed.
Theorem C71_lists : forall p cs out, in_range cs -> u32_lines cs -> maths_from_chunks p cs = Ok out ->
  forall es ks, within3 out es -> chain es ks -> NoDup ks.
Proof.
  intros p cs out R U H es ks.
  assert (H' : maths_from_chunks Release cs = Ok out) by (destruct p; [destruct (maths_leq true Debug Release dr cs) as [K|K]; congruence|exact H]).
  exact (maths_chain cs out es ks (conj R U) H').
Qed.
Print Assumptions C71_convert.
Print Assumptions C71_lists.
(** three deep: dollars in [\(] in [\[]; inside a scope the count starts afresh *)
Definition C71_source : str := S! "\begin{document}x\[a\(b$c{d $e$}$f\)g\]\end{document}".
Example C71_example : exists d3, source_fits C71_source /\ count_newlines C71_source < 2147483648 /\ from_str3 Debug C71_source = Ok d3 /\
  chain (d_body d3) [ByBrackets Outline; ByBrackets Inline; ByDollars].
Proof.
  let y := eval vm_compute in (from_str3 Debug C71_source) in match y with Ok ?o => exists o end.
  split; [vm_compute; reflexivity|]. split; [vm_compute; reflexivity|]. split; [vm_compute; reflexivity|].
  cbn [d_body].
  repeat (first [apply chain_end | eapply (chain_in _ _ Brackets Outline); [cbn [In]; intuition reflexivity|] | eapply (chain_in _ _ Brackets Inline); [cbn [In]; intuition reflexivity|] | eapply (chain_in _ _ Dollars Inline); [cbn [In]; intuition reflexivity|]]).
Qed.
