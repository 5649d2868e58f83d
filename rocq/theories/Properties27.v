(** * Properties27: how deep the recursion goes (C73)

    Only statements, short proofs from lemmas, assumptions and non-vacuity examples.
    The specification is in SpecDepth.v. [from_str1_fuel n], [try_from2_fuel n] and [maths_fuel n] are the functions
    of the code in which at most [n] calls may be active at the same time; [OutOfFuel] stands for the call that is one too many. *)
From Verif Require Import Base Ast1 Parse1 Ast2 Ast3 ModelTests1 SpecDoc1 SpecDoc3 SpecMaths3 SpecReads SpecWrap SpecChain Mono MathsRun ReadsW Chain
  Cost1 SpecDepth Depth0 Depth1 Depth2 Depth3 Depth3b Properties25.
From Coq Require Import Lia Arith.
Open Scope nat_scope.

(** ** C73: one call for each level, and one for the top *)
Theorem C73_parse : forall p s d n, from_str1 p s = Ok d ->
  (from_str1_fuel n p s = Ok d <-> depth1 d < n) /\ (from_str1_fuel n p s = OutOfFuel <-> n <= depth1 d).
Proof. exact parse_exact. Qed.
Theorem C73_convert : forall p d d2 n, try_from2 p d = Ok d2 ->
  (try_from2_fuel n p d = Ok d2 <-> depth2 d2 < n) /\ (try_from2_fuel n p d = OutOfFuel <-> n <= depth2 d2).
Proof. exact convert_exact. Qed.
Theorem C73_maths : forall p cs out n, maths_from_chunks p cs = Ok out ->
  (maths_fuel n p cs = Ok out <-> depth3 out < n) /\ (maths_fuel n p cs = OutOfFuel <-> n <= depth3 out).
Proof. exact maths_exact. Qed.
Print Assumptions C73_parse.
Print Assumptions C73_convert.
Print Assumptions C73_maths.

(** whatever the outcome, errors and panics included: one call for each opening bracket of the source, or for each
    scope and argument of the document, suffices *)
Theorem C73_parse_always : forall p s n, openings s < n -> from_str1_fuel n p s = from_str1 p s.
Proof. exact parse_openings. Qed.
Theorem C73_convert_always : forall p d n, scopes1 d < n -> try_from2_fuel n p d = try_from2 p d.
Proof. exact convert_scopes. Qed.
Theorem C73_source_always : forall p s d n, from_str1 p s = Ok d -> openings s < n -> try_from2_fuel n p d = from_str2 p s.
Proof.
  intros p s d n H K. unfold from_str2. rewrite H. cbn [bind]. apply convert_scopes. pose proof (scopes_openings p s d H). lia.
Qed.
Print Assumptions C73_parse_always.
Print Assumptions C73_convert_always.
Print Assumptions C73_source_always.

(** a document is not nested more deeply than its source has opening brackets *)
Theorem C73_openings : forall p s,
  (forall d, from_str1 p s = Ok d -> depth1 d <= openings s) /\ (forall d, from_str2 p s = Ok d -> depth2 d <= openings s).
Proof.
  intros p s. split; [exact (fun d => depth_openings p s d)|]. intros d H. unfold from_str2 in H.
  destruct (from_str1 p s) as [d1|e| |] eqn:E; cbn [bind] in H; try discriminate.
  pose proof (depth_scopes2 p d1 d H). pose proof (scopes_openings p s d1 E). lia.
Qed.
Print Assumptions C73_openings.
(** maths blocks add at most three levels between any two of the others (C71) *)
Theorem C73_document : forall p s d3, source_fits s -> (count_newlines s < 2147483648)%N -> from_str3 p s = Ok d3 ->
  (forall sec, depth3 (get_section sec d3) <= 4 * openings s + 3) /\
  (forall pre inner v, In (pre, mkScope3 inner v) (d_body_args d3) -> depth3 inner <= 4 * openings s + 3).
Proof.
  intros p s d3 B Bn H. destruct (C71_kinds p s d3 B Bn H) as [K1 K2].
  pose proof H as H'. unfold from_str3 in H'. destruct (from_str2 p s) as [d2|e| |] eqn:E; cbn [bind] in H'; try discriminate.
  pose proof (proj2 (C73_openings p s) d2 E) as O. destruct (document_bare p d2 d3 H') as [B1 B2].
  assert (F : forall cs, (forall es ks, within3 cs es -> chain es ks -> NoDup ks) -> depth3 cs <= 4 * bare cs + 3).
  { intros cs Hc. apply (chains_depth (depth3 cs)); [lia| |].
    - intros es ks He Hk. apply kinds_three. exact (Hc es ks He Hk).
    - intros ks Hk. apply kinds_three. exact (Hc cs ks (w3_self _) Hk). }
  split.
  - intros sec. specialize (F _ (fun es ks => K1 sec es ks)). specialize (B1 sec). lia.
  - intros pre inner v Hi. specialize (F inner (fun es ks => K2 pre inner v es ks Hi)).
    pose proof (in_list_max (fun a => match a with (_, sc) => bare_scope sc end) _ _ Hi) as D. unfold bare_args in B2. cbn [bare_scope] in D. fold (bare inner) in D. lia.
Qed.
Print Assumptions C73_document.

(** ** There is no limit: k brackets around nothing need k + 1 calls *)
Theorem C73_unbounded : forall p k, (N.of_nat k < two32)%N ->
  let s := repeat c_lcurly k ++ repeat c_rcurly k in
  exists d, from_str1 p s = Ok d /\ from_str1_fuel k p s = OutOfFuel /\ openings s = k.
Proof.
  intros p k H s. exists (nested_doc k).
  assert (E : from_str1 p s = Ok (nested_doc k)).
  { rewrite <- counted_erase. apply (nest_counted_doc k); [unfold s; fold (nest k); rewrite (nest_length k); lia|exact H]. }
  split; [exact E|]. split.
  - apply (proj2 (parse_exact p s _ k E)).
    assert (D : depth1 (nested_doc k) = k); [|lia]. clear. unfold depth1. induction k as [|k IH]; [reflexivity|].
    change (Nat.max (S (list_max (map depth_chunk1 (nested_doc k)))) 0 = S k). lia.
  - unfold s. clear. unfold openings. rewrite filter_app, app_length.
    assert (A : length (filter is_opening (repeat c_lcurly k)) = k).
    { induction k as [|k IH]; [reflexivity|]. cbn [repeat filter]. change (is_opening c_lcurly) with true. cbn [length]. lia. }
    assert (B : filter is_opening (repeat c_rcurly k) = []).
    { clear. induction k as [|k IH]; [reflexivity|]. cbn [repeat filter]. change (is_opening c_rcurly) with false. exact IH. }
    rewrite A, B. cbn [length]. lia.
Qed.
Print Assumptions C73_unbounded.

(** ** Examples *)
Definition C73_text : str := S! "\a{x{y}[z]}{w{[(t)]}} \begin{q}[r]u{v}\end{q} c\(m{$n$}\)".
(** brackets of the same kind in an argument are dropped (C02): the argument, then [[..]], then [(..)] *)
Example C73_example_parse : exists d, from_str1 Debug C73_text = Ok d /\ depth1 d = 3 /\ openings C73_text = 13 /\
  from_str1_fuel 3 Debug C73_text = OutOfFuel /\ from_str1_fuel 4 Debug C73_text = Ok d.
Proof.
  let x := eval vm_compute in (from_str1 Debug C73_text) in match x with Ok ?d => exists d end.
  repeat split; vm_compute; reflexivity.
Qed.
Definition C73_nested : str := S! "\begin{a}\begin{b}y{x}\end{b}\end{a}".
Example C73_example_convert : exists d d2, from_str1 Release C73_nested = Ok d /\ try_from2 Release d = Ok d2 /\ depth1 d = 1 /\ scopes1 d = 5 /\ depth2 d2 = 3 /\
  try_from2_fuel 3 Release d = OutOfFuel /\ try_from2_fuel 4 Release d = Ok d2.
Proof.
  let x := eval vm_compute in (from_str1 Release C73_nested) in match x with Ok ?d => exists d end.
  let x := eval vm_compute in (from_str2 Release C73_nested) in match x with Ok ?d => exists d end.
  repeat split; vm_compute; reflexivity.
Qed.
Example C73_example_maths : exists d2 out, from_str2 Debug C73_text = Ok d2 /\ maths_from_chunks Debug d2 = Ok out /\ depth2 d2 = 3 /\ depth3 out = 3 /\
  maths_fuel 3 Debug d2 = OutOfFuel /\ maths_fuel 4 Debug d2 = Ok out.
Proof.
  let x := eval vm_compute in (from_str2 Debug C73_text) in match x with Ok ?d => exists d end.
  let x := eval vm_compute in (bind (from_str2 Debug C73_text) (maths_from_chunks Debug)) in match x with Ok ?d => exists d end.
  repeat split; vm_compute; reflexivity.
Qed.
(** three maths blocks around nothing but text: depth three without brackets that nest *)
Definition C73_maths_only : str := S! "\begin{document}x\[a\(b$c$\)\]\end{document}".
Example C73_example_document : exists d3, source_fits C73_maths_only /\ (count_newlines C73_maths_only < 2147483648)%N /\
  from_str3 Debug C73_maths_only = Ok d3 /\ depth3 (d_body d3) = 3.
Proof.
  let x := eval vm_compute in (from_str3 Debug C73_maths_only) in match x with Ok ?d => exists d end.
  repeat split; vm_compute; reflexivity.
Qed.
