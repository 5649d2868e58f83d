(** * Properties16: parsing what Display prints, stages 1 to 3

    Only statements, short proofs from lemmas, assumptions and non-vacuity examples.
    [canonical] and [reparse_safe] are described in SpecCanon1.v, [converts] in Spec2.v, [tidy]
    in SpecMaths3.v. *)
From Verif Require Import Base Ast1 Parse1 Ast2 Ast3 ModelTests1 Spec1 SpecDoc1 SpecDoc2 SpecDoc3 Spec2 SpecCanon1 SpecMaths3 SpecClass3
  Refine1 Gram1 Facts1 Good2 Env2 Canon1 MathsFwd MathsBwd Doc3 Again2.

(** ** C02: the sources that Display reproduces are exactly the texts of the canonical documents *)
Theorem C02_sources_partial : forall p s, source_fits s ->
  ((exists d, from_str1 p s = Ok d /\ show1 d = s) <-> exists d, canonical 1 d /\ show1 d = s).
Proof.
  intros p s B. split; intros (d & H & E); exists d; (split; [|exact E]); subst s; now apply (from_str1_show_iff p d B).
Qed.
Print Assumptions C02_sources_partial.

(** ** C57: parsing the Display of a stage-2 document gives it back exactly if it is the
    stage-2 form of a canonical stage-1 document; for one obtained by parsing, exactly if
    [reparse_safe] holds of its stage-1 chunks at every depth *)
Theorem C57_inverse_iff : forall p d2, source_fits (show2 d2) ->
  (from_str2 p (show2 d2) = Ok d2 <-> exists d1, canonical 1 d1 /\ converts d1 d2).
Proof. exact from_str2_show_iff. Qed.
Print Assumptions C57_inverse_iff.
Theorem C57_parsed_iff : forall p q s d1 d2, source_fits s -> from_str1 p s = Ok d1 -> try_from2 p d1 = Ok d2 ->
  (from_str2 q (show2 d2) = Ok d2 <-> everywhere reparse_safe d1).
Proof. exact reparse2_iff. Qed.
Print Assumptions C57_parsed_iff.
Definition C57_source : str := lines_of ["a"; "\begin {b}[x"; "]y{\begin{c}\end{c}"; "}\end{b} z"]%string.
Example C57_example : exists d1 d2, source_fits C57_source /\ from_str1 Debug C57_source = Ok d1 /\ try_from2 Debug d1 = Ok d2 /\
  from_str2 Debug (show2 d2) = Ok d2 /\ everywhere reparse_safe d1 /\ length d2 = 3%nat.
Proof.
  let x := eval vm_compute in (from_str1 Debug C57_source) in match x with Ok ?d => exists d;
    let y := eval vm_compute in (try_from2 Debug d) in match y with Ok ?o => exists o end end.
  split; [vm_compute; reflexivity|]. split; [vm_compute; reflexivity|]. split; [vm_compute; reflexivity|]. split; [vm_compute; reflexivity|].
  split; [|reflexivity].
  eapply (C57_parsed_iff Debug Debug C57_source); [vm_compute; reflexivity|vm_compute; reflexivity|vm_compute; reflexivity|vm_compute; reflexivity].
Qed.
(** inside an environment: a closing bracket in a scope written with round brackets; a scope in a curly argument *)
Example C57_unsafe : exists s d2, from_str2 Debug s = Ok d2 /\ s = S! "\begin{b}t(\a }\b)\end{b}" /\
  from_str2 Debug (show2 d2) = Err (mkError 1 (UnexpectedClosing Curly1)).
Proof. exists (S! "\begin{b}t(\a }\b)\end{b}"). eexists. split; [vm_compute; reflexivity|]. split; [reflexivity|vm_compute; reflexivity]. Qed.
Example C57_unsafe_arg : exists s d2 d2', from_str2 Debug s = Ok d2 /\ s = S! "\begin{b}{(a)}\end{b}" /\
  from_str2 Debug (show2 d2) = Ok d2' /\ d2' <> d2.
Proof.
  exists (S! "\begin{b}{(a)}\end{b}"). eexists. eexists. split; [vm_compute; reflexivity|]. split; [reflexivity|].
  split; [vm_compute; reflexivity|discriminate].
Qed.

(** ** C58: two documents obtained by stage-1 parsing with the same stage-2 form are equal, line numbers
    and blanks included *)
Theorem C58_one_to_one : forall p q p' q' s s' d1 d1' d2, source_fits s -> source_fits s' ->
  from_str1 p s = Ok d1 -> from_str1 q s' = Ok d1' -> try_from2 p' d1 = Ok d2 -> try_from2 q' d1' = Ok d2 -> d1 = d1'.
Proof.
  intros p q p' q' s s' d1 d1' d2 B B' H H'. apply try_from2_inj; [exists p, s|exists q, s']; auto.
Qed.
Print Assumptions C58_one_to_one.
(** two sources with the same (non-trivial) result *)
Example C58_example : exists s s' d1 d2, s <> s' /\ source_fits s /\ source_fits s' /\
  from_str1 Debug s = Ok d1 /\ from_str1 Debug s' = Ok d1 /\ try_from2 Debug d1 = Ok d2 /\
  s = S! "\begin{a}[x]\b (y)\end{a}" /\ s' = S! "\begin{a}[[x]]\b (y)\end{a}" /\ (2 <= length d1)%nat.
Proof.
  exists (S! "\begin{a}[x]\b (y)\end{a}"), (S! "\begin{a}[[x]]\b (y)\end{a}").
  eexists. eexists. split; [discriminate|]. split; [vm_compute; reflexivity|]. split; [vm_compute; reflexivity|].
  split; [vm_compute; reflexivity|]. split; [vm_compute; reflexivity|]. split; [vm_compute; reflexivity|].
  split; [reflexivity|]. split; [reflexivity|]. cbn. auto.
Qed.
(** hand-built documents can collide: the lines of the label and its chunks are lost *)
Example C58_hand_built : exists d1 d1' d2, d1 <> d1' /\ try_from2 Debug d1 = Ok d2 /\ try_from2 Debug d1' = Ok d2.
Proof.
  exists [begin_cmd 1 [] [mkChunk1 1 (Text1 (S! "a"))] []; end_cmd 1 [] [mkChunk1 1 (Text1 (S! "a"))]],
         [begin_cmd 1 [] [mkChunk1 1 (Text1 (S! "a"))] []; end_cmd 2 [] [mkChunk1 1 (Text1 (S! "a"))]].
  eexists. split; [discriminate|]. split; vm_compute; reflexivity.
Qed.

(** ** C59: a stage-3 document is what its Display parses to, if its source has one document environment with
    the same blanks before both labels, is tidy (C29) and can be re-parsed at stage 1 (C09) *)
Theorem C59_round_trip : forall p q s d1 pre l args content pb post d3,
  source_fits s -> count_newlines s < 2147483648 ->
  let d2 := pre ++ mkChunk2 l (Environment2 (mkEnv2 (S! "document") args content pb pb)) :: post in
  Forall (fun c => ~ is_document c) pre -> Forall (fun c => ~ is_document c) post ->
  from_str1 p s = Ok d1 -> try_from2 p d1 = Ok d2 -> try_from3 p d2 = Ok d3 ->
  everywhere reparse_safe d1 -> tidy (atoms d2) ->
  show3 d3 = show2 d2 /\ (q = p \/ p = Debug -> from_str3 q (show3 d3) = Ok d3).
Proof.
  intros p q s d1 pre l args content pb post d3 B Bn d2 F1 F2 H1 H2 H3 S T.
  assert (P : parsed d1) by (exists p, s; auto).
  pose proof (proj1 converts_show _ _ (proj1 (try_from2_converts p d1 d2 P) H2)) as Es.
  assert (Sm : count_newlines (show2 d2) < 2147483648).
  { rewrite Es. pose proof (from_str1_newlines p s d1 B H1) as Hn. unfold nls in Hn. rewrite Hn. exact Bn. }
  assert (E : show3 d3 = show2 d2) by (apply (show3_exact p pre l args content pb pb post d3 F1 F2 Sm Sm H3); exact T).
  split; [exact E|]. intros Hq. unfold from_str3. rewrite E, (proj2 (C57_parsed_iff p q s d1 d2 B H1 H2) S). cbn [bind].
  destruct Hq as [->| ->]; [exact H3|]. destruct q; [exact H3|].
  destruct (Mono.try_from3_leq true Debug Release Mono.dr d2) as [K|K]; [congruence|now rewrite <- K].
Qed.
Print Assumptions C59_round_trip.
Definition C59_source : str := lines_of ["\documentclass{a}"; "\begin {document}[o]"; "$\alpha x$, \(b\)"; ""; "y\end {document}"; "z"]%string.
Example C59_example : exists d1 pre l args content pb post d3,
  let d2 := pre ++ mkChunk2 l (Environment2 (mkEnv2 (S! "document") args content pb pb)) :: post in
  source_fits C59_source /\ count_newlines C59_source < 2147483648 /\
  Forall (fun c => ~ is_document c) pre /\ Forall (fun c => ~ is_document c) post /\
  from_str1 Debug C59_source = Ok d1 /\ try_from2 Debug d1 = Ok d2 /\ try_from3 Debug d2 = Ok d3 /\
  everywhere reparse_safe d1 /\ tidy (atoms d2) /\ from_str3 Release (show3 d3) = Ok d3 /\ length (d_body d3) = 6%nat.
Proof.
  let x := eval vm_compute in (from_str1 Debug C59_source) in match x with Ok ?d => exists d;
    let y := eval vm_compute in (try_from2 Debug d) in
    match y with Ok (?a :: ?b :: mkChunk2 ?l (Environment2 (mkEnv2 _ ?args ?content ?pb _)) :: ?post) =>
      exists [a; b], l, args, content, pb, post end end.
  eexists. split; [vm_compute; reflexivity|]. split; [vm_compute; reflexivity|].
  split; [repeat constructor; intros (? & ? & ? & ? & ? & ?); discriminate|].
  split; [repeat constructor; intros (? & ? & ? & ? & ? & ?); discriminate|].
  split; [vm_compute; reflexivity|]. split; [vm_compute; reflexivity|]. split; [vm_compute; reflexivity|].
  split; [|split; [|split; [vm_compute; reflexivity|vm_compute; reflexivity]]].
  - eapply (C57_parsed_iff Debug Debug C59_source); [vm_compute; reflexivity|vm_compute; reflexivity|vm_compute; reflexivity|vm_compute; reflexivity].
  - eapply (maths_exact Debug); [vm_compute; reflexivity|vm_compute; reflexivity|vm_compute; reflexivity].
Qed.
(** without these conditions the second parse gives something else: an inner bracket command is lost *)
Example C59_untidy : exists s d3 d3', from_str3 Debug s = Ok d3 /\ s = S! "\begin{document}q\(a\(b\)\)\end{document}" /\
  from_str3 Debug (show3 d3) = Ok d3' /\ d3' <> d3.
Proof.
  exists (S! "\begin{document}q\(a\(b\)\)\end{document}"). eexists. eexists. split; [vm_compute; reflexivity|]. split; [reflexivity|].
  split; [vm_compute; reflexivity|discriminate].
Qed.
