(** * Properties33: a stage-2 document that goes up to stage 3 and down again (C79)

    Only statements, short proofs from lemmas, assumptions and non-vacuity examples. The specification is in SpecSeen.v. *)
From Verif Require Import Base Ast1 Parse1 Ast2 Ast3 ModelTests1 SpecDoc1 SpecMaths3 SpecReads SpecUnnum SpecClass3 SpecRead3 SpecWrap SpecSeen MathsBwd Mono ReadsW Back3 Seen Seen2.
From Coq Require Import Lia.

(** ** C79 *)
(** With exactly one document environment: what comes back is the same to a reader exactly if the document is tidy. *)
Theorem C79_restored : forall pre l args content pb pe post d3 d',
  Forall (fun c => ~ is_document c) pre -> Forall (fun c => ~ is_document c) post ->
  let d := pre ++ mkChunk2 l (Environment2 (mkEnv2 (S! "document") args content pb pe)) :: post in
  in_range d -> u32_lines d -> count_newlines (show2 d) < 2147483648 ->
  try_from3 Release d = Ok d3 -> from3_to2 Release d3 = @Ok error _ d' ->
  (seen d' = seen d <-> tidy (atoms d)).
Proof.
  intros pre l args content pb pe post d3 d' H1 H2 d R U S T F. destruct (restored d _ _ _ d3 d' (conj R U) S (one_parts pre l args content pb pe post H1 H2) T F) as [_ K].
  destruct (one_same pre l (mkEnv2 (S! "document") args content pb pe) post) as (A & B & _). rewrite A, B in K. exact K.
Qed.
(** The printed text tells: if it is the same, so is everything else a reader sees. *)
Theorem C79_text_tells : forall pre l args content pb pe post d3 d',
  Forall (fun c => ~ is_document c) pre -> Forall (fun c => ~ is_document c) post ->
  let d := pre ++ mkChunk2 l (Environment2 (mkEnv2 (S! "document") args content pb pe)) :: post in
  in_range d -> u32_lines d -> count_newlines (show2 d) < 2147483648 ->
  try_from3 Release d = Ok d3 -> from3_to2 Release d3 = @Ok error _ d' ->
  (show2 d' = show2 d <-> seen d' = seen d).
Proof.
  intros pre l args content pb pe post d3 d' H1 H2 d R U S T F. destruct (restored d _ _ _ d3 d' (conj R U) S (one_parts pre l args content pb pe post H1 H2) T F) as [K K'].
  destruct (one_same pre l (mkEnv2 (S! "document") args content pb pe) post) as (A & B & C). rewrite B in K'. rewrite C in K. unfold d. tauto.
Qed.
(** Whatever the number of document environments: what comes back is the document put together from the preamble, the last of
    these environments and the rest, exactly if that document is tidy. *)
Theorem C79_any_number : forall d pre envs trail d3 d', in_range d -> u32_lines d -> count_newlines (show2 d) < 2147483648 ->
  parts d pre envs trail -> try_from3 Release d = Ok d3 -> from3_to2 Release d3 = @Ok error _ d' ->
  (seen d' = seen (put_together pre envs trail) <-> tidy (atoms (put_together pre envs trail))).
Proof. intros d pre envs trail d3 d' R U S P T F. exact (proj2 (restored d _ _ _ d3 d' (conj R U) S P T F)). Qed.
(** Without maths everything comes back. *)
Theorem C79_no_maths : forall pre l args content pb pe post d3 d',
  Forall (fun c => ~ is_document c) pre -> Forall (fun c => ~ is_document c) post ->
  let d := pre ++ mkChunk2 l (Environment2 (mkEnv2 (S! "document") args content pb pe)) :: post in
  forallb mathless d = true -> in_range d -> u32_lines d -> count_newlines (show2 d) < 2147483648 ->
  try_from3 Release d = Ok d3 -> from3_to2 Release d3 = @Ok error _ d' -> seen d' = seen d.
Proof.
  intros pre l args content pb pe post d3 d' H1 H2 d M R U S T F. apply (C79_restored pre l args content pb pe post d3 d' H1 H2 R U S T F). now apply mathless_tidy.
Qed.
(** Conversion is one-to-one on tidy documents: documents that look different become different stage-3 documents. *)
Theorem C79_one_to_one : forall pre l args content pb pe post pre' l' args' content' pb' pe' post' x y,
  Forall (fun c => ~ is_document c) pre -> Forall (fun c => ~ is_document c) post -> Forall (fun c => ~ is_document c) pre' -> Forall (fun c => ~ is_document c) post' ->
  let a := pre ++ mkChunk2 l (Environment2 (mkEnv2 (S! "document") args content pb pe)) :: post in
  let b := pre' ++ mkChunk2 l' (Environment2 (mkEnv2 (S! "document") args' content' pb' pe')) :: post' in
  in_range a -> u32_lines a -> count_newlines (show2 a) < 2147483648 -> in_range b -> u32_lines b -> count_newlines (show2 b) < 2147483648 ->
  tidy (atoms a) -> tidy (atoms b) -> try_from3 Release a = Ok x -> try_from3 Release b = Ok y ->
  unnumbered_document3 x = unnumbered_document3 y -> seen a = seen b.
Proof.
  intros pre l args content pb pe post pre' l' args' content' pb' pe' post' x y H1 H2 H1' H2' a b R U S R' U' S' Ta Tb Hx Hy E.
  destruct (back3_release (E := error) x) as [a2 Ha]. destruct (back3_release (E := error) y) as [b2 Hb].
  pose proof (proj2 (C79_restored pre l args content pb pe post x a2 H1 H2 R U S Hx Ha) Ta) as Ea.
  pose proof (proj2 (C79_restored pre' l' args' content' pb' pe' post' y b2 H1' H2' R' U' S' Hy Hb) Tb) as Eb.
  unfold a, b. rewrite <- Ea, <- Eb. exact (un_down x y a2 b2 E Ha Hb).
Qed.
(** The same for sources: the ranges follow from the size of the source. *)
Theorem C79_sources : forall s pre l args content pb pe post d3 d', source_fits s -> count_newlines s < 2147483648 ->
  let d := pre ++ mkChunk2 l (Environment2 (mkEnv2 (S! "document") args content pb pe)) :: post in
  from_str2 Release s = Ok d -> Forall (fun c => ~ is_document c) pre -> Forall (fun c => ~ is_document c) post ->
  from_str3 Release s = Ok d3 -> from3_to2 Release d3 = @Ok error _ d' ->
  (seen d' = seen d <-> tidy (atoms d)) /\ (show2 d' = show2 d <-> seen d' = seen d).
Proof.
  intros s pre l args content pb pe post d3 d' B Bn d P H1 H2 H3 F. destruct (parsed_fits Release s d B Bn P) as [R U].
  assert (T : try_from3 Release d = Ok d3) by (unfold from_str3 in H3; rewrite P in H3; exact H3). assert (S : count_newlines (show2 d) < 2147483648) by (now rewrite (parsed_newlines Release s d B P)).
  split; [exact (C79_restored pre l args content pb pe post d3 d' H1 H2 R U S T F)|]. exact (C79_text_tells pre l args content pb pe post d3 d' H1 H2 R U S T F).
Qed.
(** In the debug profile the same comes out, or one of the two steps panics. *)
Theorem C79_debug : forall d d3 d', try_from3 Release d = Ok d3 -> from3_to2 Release d3 = @Ok error _ d' ->
  try_from3 Debug d = Panic \/ (try_from3 Debug d = Ok d3 /\ (@from3_to2 error Debug d3 = Panic \/ from3_to2 Debug d3 = @Ok error _ d')).
Proof.
  intros d d3 d' H1 H2. destruct (try_from3_leq true Debug Release dr d) as [K|K]; [left; exact K|right]. split; [congruence|]. destruct (from3_to2_leq (E := error) true Debug Release dr d3) as [J|J]; [left; exact J|right; congruence].
Qed.
Print Assumptions C79_restored.
Print Assumptions C79_text_tells.
Print Assumptions C79_any_number.
Print Assumptions C79_no_maths.
Print Assumptions C79_one_to_one.
Print Assumptions C79_sources.
Print Assumptions C79_debug.

(** ** Examples *)
(** a document that comes back: class, options, arguments of the body, both kinds of dollars, both kinds of brackets, nesting, a break, two texts side by side in the trailing part *)
Definition C79_text : str := lines_of ["\documentclass[a4paper,lang=en]{article}"; "\title{A $x$}"; "\begin{document}[$u$]"; "k $\alpha{$x$} b$ m"; ""; "z $$\frac{1}{2}$$ and \(y \[w\] $c$\beta\)"; "\end{document}"; "t $e$"; ""]%string.
Example C79_example : exists pre l args content pb pe post d3 d',
  let d := pre ++ mkChunk2 l (Environment2 (mkEnv2 (S! "document") args content pb pe)) :: post in
  source_fits C79_text /\ count_newlines C79_text < 2147483648 /\ from_str2 Release C79_text = Ok d /\
  Forall (fun c => ~ is_document c) pre /\ Forall (fun c => ~ is_document c) post /\ from_str3 Release C79_text = Ok d3 /\ from3_to2 Release d3 = @Ok error _ d' /\
  in_range d /\ u32_lines d /\ seen d' = seen d /\ tidy (atoms d) /\ d' <> d /\ forallb mathless d = false /\ length (d_body d3) = 9%nat.
Proof.
  let x := eval vm_compute in (from_str2 Release C79_text) in
  match x with Ok (?a :: ?b :: ?c :: ?e :: mkChunk2 ?l (Environment2 (mkEnv2 _ ?args ?content ?pb ?pe)) :: ?post) => exists [a; b; c; e], l, args, content, pb, pe, post end.
  let x := eval vm_compute in (from_str3 Release C79_text) in match x with Ok ?d => exists d end.
  let x := eval vm_compute in (let* d := from_str3 Release C79_text in from3_to2 Release d) in match x with Ok ?d => exists d end.
  cbv zeta. split; [vm_compute; reflexivity|]. split; [vm_compute; reflexivity|]. match goal with |- from_str2 _ _ = Ok ?d /\ _ => assert (P : from_str2 Release C79_text = Ok d) by (vm_compute; reflexivity) end.
  split; [exact P|]. pose proof (parsed_fits Release C79_text _ ltac:(vm_compute; reflexivity) ltac:(vm_compute; reflexivity) P) as [R U].
  match goal with |- Forall _ ?a /\ Forall _ ?b /\ _ => assert (N1 : Forall (fun c => ~ is_document c) a) by (repeat constructor; intros (? & ? & ? & ? & ? & ?); discriminate); assert (N2 : Forall (fun c => ~ is_document c) b) by (repeat constructor; intros (? & ? & ? & ? & ? & ?); discriminate) end.
  split; [exact N1|]. split; [exact N2|]. match goal with |- ?A /\ ?B /\ _ => assert (H3 : A) by (vm_compute; reflexivity); assert (H4 : B) by (vm_compute; reflexivity) end.
  split; [exact H3|]. split; [exact H4|]. split; [exact R|]. split; [exact U|].
  match goal with |- ?A /\ _ => assert (Sn : A) by (vm_compute; reflexivity) end. split; [exact Sn|]. split.
  - refine (proj1 (proj1 (C79_sources C79_text _ _ _ _ _ _ _ _ _ _ _ P N1 N2 H3 H4)) Sn); vm_compute; reflexivity.
  - split; [vm_compute; discriminate|]. split; vm_compute; reflexivity.
Qed.
(** one without maths *)
Definition C79_plain : str := lines_of ["\documentclass{article}"; "\begin {document}x\a{b}[c]"; ""; "\begin{q}r\end{q}\end{document}z"]%string.
Example C79_no_maths_example : exists pre l args content pb pe post d3 d',
  let d := pre ++ mkChunk2 l (Environment2 (mkEnv2 (S! "document") args content pb pe)) :: post in
  from_str2 Release C79_plain = Ok d /\ Forall (fun c => ~ is_document c) pre /\ Forall (fun c => ~ is_document c) post /\ forallb mathless d = true /\ in_range d /\ u32_lines d /\
  count_newlines (show2 d) < 2147483648 /\ try_from3 Release d = Ok d3 /\ from3_to2 Release d3 = @Ok error _ d'.
Proof.
  let x := eval vm_compute in (from_str2 Release C79_plain) in
  match x with Ok (?a :: ?b :: mkChunk2 ?l (Environment2 (mkEnv2 _ ?args ?content ?pb ?pe)) :: ?post) => exists [a; b], l, args, content, pb, pe, post end.
  let x := eval vm_compute in (from_str3 Release C79_plain) in match x with Ok ?d => exists d end.
  let x := eval vm_compute in (let* d := from_str3 Release C79_plain in from3_to2 Release d) in match x with Ok ?d => exists d end.
  cbv zeta. match goal with |- from_str2 _ _ = Ok ?d /\ _ => assert (P : from_str2 Release C79_plain = Ok d) by (vm_compute; reflexivity) end.
  split; [exact P|]. pose proof (parsed_fits Release C79_plain _ ltac:(vm_compute; reflexivity) ltac:(vm_compute; reflexivity) P) as [R U].
  split; [repeat constructor; intros (? & ? & ? & ? & ? & ?); discriminate|]. split; [repeat constructor; intros (? & ? & ? & ? & ? & ?); discriminate|].
  split; [vm_compute; reflexivity|]. split; [exact R|]. split; [exact U|]. split; [vm_compute; reflexivity|]. split; vm_compute; reflexivity.
Qed.
(** documents that do not come back: text before the end of a dollar block moves out of it; brackets nested in brackets of the same kind are lost *)
Example C79_refuted : Forall (fun st => exists d d3 d', from_str2 Release (fst st) = Ok d /\ try_from3 Release d = Ok d3 /\ from3_to2 Release d3 = @Ok error _ d' /\ show2 d' = snd st /\ seen d' <> seen d)
  [(S! "\begin{document}$a\b c$\end{document}", S! "\begin{document}a$\b c$\end{document}");
   (S! "\begin{document}k\(x\(y\)\)\end{document}", S! "\begin{document}k\(xy\)\end{document}"); (S! "x", S! "x\begin{document}\end{document}")].
Proof.
  repeat (apply Forall_cons; [cbn [fst snd]|]); [| | |apply Forall_nil];
  match goal with |- exists d d3 d', from_str2 _ ?s = _ /\ _ =>
    let x := eval vm_compute in (from_str2 Release s) in match x with Ok ?d => exists d end;
    let y := eval vm_compute in (from_str3 Release s) in match y with Ok ?d => exists d end;
    let z := eval vm_compute in (let* d := from_str3 Release s in from3_to2 Release d) in match z with Ok ?d => exists d end end;
  (split; [vm_compute; reflexivity|]); (split; [vm_compute; reflexivity|]); (split; [vm_compute; reflexivity|]); (split; [vm_compute; reflexivity|]); vm_compute; discriminate.
Qed.
(** two document environments: the last one, and everything else behind it *)
Example C79_two : exists d d3 d' pre envs trail, from_str2 Release (S! "a\begin{document}x\end{document}b\begin{document}$y$\end{document}c") = Ok d /\ try_from3 Release d = Ok d3 /\ from3_to2 Release d3 = @Ok error _ d' /\
  parts d pre envs trail /\ length envs = 2%nat /\ seen d' = seen (put_together pre envs trail) /\ show2 d' = S! "a\begin{document}$y$\end{document}bc".
Proof.
  let s := constr:(S! "a\begin{document}x\end{document}b\begin{document}$y$\end{document}c") in
  let x := eval vm_compute in (from_str2 Release s) in match x with Ok ?d => exists d end;
  let y := eval vm_compute in (from_str3 Release s) in match y with Ok ?d => exists d end;
  let z := eval vm_compute in (let* d := from_str3 Release s in from3_to2 Release d) in match z with Ok ?d => exists d end;
  let x := eval vm_compute in (from_str2 Release s) in match x with Ok [?a; mkChunk2 _ (Environment2 ?e1); ?b; mkChunk2 _ (Environment2 ?e2); ?c] => exists [a], [e1; e2], [b; c] end.
  split; [vm_compute; reflexivity|]. split; [vm_compute; reflexivity|]. split; [vm_compute; reflexivity|]. split; [|split; [reflexivity|split; vm_compute; reflexivity]].
  eexists. split; [reflexivity|]. split; [repeat constructor; intros (? & ? & ? & ? & ? & ?); discriminate|]. split; [intros c r E; injection E as <- _; now repeat eexists|].
  repeat first [apply dv_nil|apply dv_document|apply dv_other; [intros (? & ? & ? & ? & ? & ?); discriminate|]].
Qed.
