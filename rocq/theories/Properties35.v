(** * Properties35: what the conversion to stage 3 may lose (C81), and when nothing is lost (C32)

    Only statements, short proofs from lemmas, assumptions and non-vacuity examples. The specification is in SpecLost.v. *)
From Verif Require Import Base Ast1 Parse1 Ast2 Ast3 ModelTests1 Spec1 SpecDoc1 SpecDoc2 SpecDoc3 SpecMaths3 SpecReads SpecClass3 SpecRead3 SpecWrap SpecSeen SpecLost
  Env2 Doc3 Read3 ReadsW Mono Seen2 Lost Lost2 Lost3.
From Coq Require Import Permutation.
Local Open Scope N_scope.

(** ** C81: lists of chunks (document sections, arguments, contents of environments) *)
Theorem C81_chunks : forall p cs out, in_range cs -> u32_lines cs -> maths_from_chunks p cs = Ok out ->
  forall x, (occurs x (show_chunks3 out) <= occurs x (show2 cs))%nat.
Proof. exact (fun p cs out R U M x => proj1 (maths_conserves p cs out (conj R U) M x)). Qed.
Print Assumptions C81_chunks.
Theorem C81_chunks_kept : forall p cs out, in_range cs -> u32_lines cs -> maths_from_chunks p cs = Ok out -> forallb bare cs = true ->
  forall x, bracketing x = false -> occurs x (show_chunks3 out) = occurs x (show2 cs).
Proof. exact (fun p cs out R U M B x => proj2 (maths_conserves p cs out (conj R U) M x) B). Qed.
Print Assumptions C81_chunks_kept.
Theorem C81_chunks_dollars : forall p cs out, in_range cs -> u32_lines cs -> maths_from_chunks p cs = Ok out -> forallb bracketless cs = true ->
  Permutation (show_chunks3 out) (show2 cs).
Proof. exact (fun p cs out R U => maths_permutes p cs out (conj R U)). Qed.
Print Assumptions C81_chunks_dollars.

(** ** Documents *)
Theorem C81_document : forall p d pre envs trail d3, in_range d -> u32_lines d -> parts d pre envs trail -> try_from3 p d = Ok d3 ->
  forall x, (occurs x (show3 d3) <= occurs x (show2 (reprinted pre envs trail)))%nat.
Proof. exact (fun p d pre envs trail d3 R U HP H x => proj1 (document_occurs p d pre envs trail d3 (conj R U) HP H x)). Qed.
Print Assumptions C81_document.
Theorem C81_document_kept : forall p d pre envs trail d3, in_range d -> u32_lines d -> parts d pre envs trail -> try_from3 p d = Ok d3 -> forallb bare d = true ->
  forall x, bracketing x = false -> occurs x (show3 d3) = occurs x (show2 (reprinted pre envs trail)).
Proof. exact (fun p d pre envs trail d3 R U HP H B x => proj2 (document_occurs p d pre envs trail d3 (conj R U) HP H x) B). Qed.
Print Assumptions C81_document_kept.
Theorem C81_document_dollars : forall p d pre envs trail d3, in_range d -> u32_lines d -> parts d pre envs trail -> try_from3 p d = Ok d3 -> forallb bracketless d = true ->
  Permutation (show3 d3) (show2 (reprinted pre envs trail)).
Proof. exact (fun p d pre envs trail d3 R U => document_permutes p d pre envs trail d3 (conj R U)). Qed.
Print Assumptions C81_document_dollars.

(** ** Sources: a parsed document has no arguments at the bracket commands *)
Lemma from3_split p s d3 d : from_str2 p s = Ok d -> from_str3 p s = Ok d3 -> try_from3 p d = Ok d3.
Proof. intros H K. unfold from_str3 in K. now rewrite H in K. Qed.
Theorem C81_parsed : forall p s d, source_fits s -> from_str2 p s = Ok d -> forallb bare d = true.
Proof. exact (fun p s d B H => proj1 (parsed_bare p s d B H)). Qed.
Print Assumptions C81_parsed.
Theorem C81_sources : forall p s d pre envs trail d3, source_fits s -> count_newlines s < 2147483648 ->
  from_str2 p s = Ok d -> parts d pre envs trail -> from_str3 p s = Ok d3 ->
  (forall x, bracketing x = false -> occurs x (show3 d3) = occurs x (show2 (reprinted pre envs trail))) /\
  (forall x, (occurs x (show3 d3) <= occurs x (show2 (reprinted pre envs trail)))%nat).
Proof.
  intros p s d pre envs trail d3 B N H HP K. pose proof (parsed_fits p s d B N H) as F. pose proof (from3_split _ _ _ _ H K) as T.
  pose proof (document_occurs p d pre envs trail d3 F HP T) as C. split; intros x; [|apply C]. apply C. exact (proj1 (parsed_bare p s d B H)).
Qed.
Print Assumptions C81_sources.
(** one document environment: the blanks of [\end] are replaced by those of [\begin]; apart from that, of a
    character that is not part of the brackets nothing is lost and nothing is added *)
Theorem C81_one_environment : forall p s pre l args content pb pe post d3, source_fits s -> count_newlines s < 2147483648 ->
  from_str2 p s = Ok (pre ++ mkChunk2 l (Environment2 (mkEnv2 (S! "document") args content pb pe)) :: post) ->
  Forall (fun c => ~ is_document c) pre -> Forall (fun c => ~ is_document c) post ->
  from_str3 p s = Ok d3 ->
  forall x, bracketing x = false ->
  (occurs x (show3 d3) + occurs x pe = occurs x (show2 (pre ++ mkChunk2 l (Environment2 (mkEnv2 (S! "document") args content pb pe)) :: post)) + occurs x pb)%nat.
Proof.
  intros p s pre l args content pb pe post d3 B N H H1 H2 K x X.
  rewrite (proj1 (C81_sources p s _ pre [mkEnv2 (S! "document") args content pb pe] post d3 B N H (one_parts _ _ _ _ _ _ _ H1 H2) K) x X).
  unfold reprinted, put_together. cbn [map last alike]. rewrite !o2_app, !o2_cons.
  change (show_chunk2 (mkChunk2 1 ?v)) with (show_variant2 v). repeat match goal with |- context [show_chunk2 (mkChunk2 ?k (Environment2 ?e))] => change (show_chunk2 (mkChunk2 k (Environment2 e))) with (show_variant2 (Environment2 e)) end.
  rewrite (env_occ x _ _ _ pb pb), (env_occ x _ _ _ pb pe). Lia.lia.
Qed.
Print Assumptions C81_one_environment.
(** the five characters do get lost, and an argument of a bracket command, which only a document put together by hand has, as well *)
Theorem C81_brackets_refuted : exists s d d3, from_str2 Debug s = Ok d /\ from_str3 Debug s = Ok d3 /\ s = S! "\begin{document}a\( x\(y\)z\)b\end{document}" /\ show2 d = s /\
  show3 d3 = S! "\begin{document}a\( xyz\)b\end{document}".
Proof.
  let s := eval vm_compute in (S! "\begin{document}a\( x\(y\)z\)b\end{document}") in exists s;
  let x := eval vm_compute in (from_str2 Debug s) in match x with Ok ?d => exists d end;
  let x := eval vm_compute in (from_str3 Debug s) in match x with Ok ?d => exists d end.
  repeat split; vm_compute; reflexivity.
Qed.
Print Assumptions C81_brackets_refuted.
Theorem C81_arguments_refuted : exists cs out, maths_from_chunks Debug cs = Ok out /\
  show2 cs = S! "\({x}a\)" /\ show_chunks3 out = S! "\(a\)".
Proof.
  exists [mkChunk2 1 (Command2 (mkCommand2 (S! "(") [([], mkScope2 [mkChunk2 1 (Text2 (S! "x"))] Curly2)])); mkChunk2 1 (Text2 (S! "a")); mkChunk2 1 (Command2 (mkCommand2 (S! ")") []))].
  eexists. split; [vm_compute; reflexivity|]. split; vm_compute; reflexivity.
Qed.
Print Assumptions C81_arguments_refuted.

(** ** C32: when a source prints at stage 3 as it does at stage 2 *)
Theorem C32_sources_exact_partial : forall p s d d3, source_fits s -> count_newlines s < 2147483648 -> from_str2 p s = Ok d -> from_str3 p s = Ok d3 ->
  (show3 d3 = show2 d <->
   (exists pre l args content pb post, d = pre ++ mkChunk2 l (Environment2 (mkEnv2 (S! "document") args content pb pb)) :: post /\
      Forall (fun c => ~ is_document c) pre /\ Forall (fun c => ~ is_document c) post) /\
   tidy (atoms d)).
Proof.
  intros p s d d3 B N H K. pose proof (from3_split _ _ _ _ H K) as T. assert (Sm : count_newlines (show2 d) < 2147483648) by (rewrite (parsed_newlines p s d B H); exact N). split.
  - intros E. destruct (parsed_bare p s d B H) as [Bb Bl]. destruct (nothing_lost p d d3 (parsed_fits p s d B N H) Sm Bb Bl T E) as (pre & l & args & content & pb & post & E1 & E2 & E3 & E4).
    split; [|exact E4]. now exists pre, l, args, content, pb, post.
  - intros [(pre & l & args & content & pb & post & -> & E2 & E3) E4]. now apply (show3_exact p pre l args content pb pb post d3 E2 E3 Sm Sm T).
Qed.
Print Assumptions C32_sources_exact_partial.

(** ** Examples: dollars that move, a dropped document environment, brackets *)
Definition C81_source : str := lines_of ["\documentclass{a}"; "\begin{document}x\end{document}"; "$$a$b$ \[ \[c\] \]"; "\begin {document}y $p$\end{document} e"]%string.
Example C81_example : exists d pre e1 e2 trail d3,
  from_str2 Debug C81_source = Ok d /\ show2 d = C81_source /\ parts d pre [e1; e2] trail /\ from_str3 Debug C81_source = Ok d3 /\
  forallb bare d = true /\
  show3 d3 = lines_of ["\documentclass{a}"; "\begin {document}y $p$\end {document}"; "$$ab$$ \[ c \]"; " e"]%string /\
  show2 (reprinted pre [e1; e2] trail) = lines_of ["\documentclass{a}"; "\begin {document}y $p$\end {document}"; "$$a$b$ \[ \[c\] \]"; " e"]%string.
Proof.
  let x := eval vm_compute in (from_str2 Debug C81_source) in match x with Ok ?d =>
    match d with ?a :: ?b :: mkChunk2 _ (Environment2 ?e1) :: ?r1 =>
    let r1' := r1 in
    let rec go acc r := match r with mkChunk2 _ (Environment2 ?e2) :: ?r2 => exists d, [a; b], e1, e2, (acc ++ r2) | ?c :: ?r2 => go (acc ++ [c]) r2 end in go (@nil chunk2) r1 end end.
  let x := eval vm_compute in (from_str3 Debug C81_source) in match x with Ok ?d => exists d end.
  split; [vm_compute; reflexivity|]. split; [vm_compute; reflexivity|]. split.
  { eexists. split; [vm_compute; reflexivity|]. assert (X : forall c, match c with mkChunk2 _ (Environment2 (mkEnv2 lab _ _ _ _)) => str_eqb lab (S! "document") | _ => false end = false -> ~ is_document c).
    { intros c Hc (l & a & k & q & r & ->). vm_compute in Hc. discriminate. }
    split; [repeat (apply Forall_cons; [apply X; reflexivity|]); apply Forall_nil|]. split.
    - intros c r E. injection E as <- _. now repeat eexists.
    - cbn [app]. repeat first [apply dv_nil|apply dv_document|apply dv_other; [apply X; reflexivity|]]. }
  split; [vm_compute; reflexivity|]. split; [vm_compute; reflexivity|]. split; vm_compute; reflexivity.
Qed.
Print Assumptions C81_example.
(** only dollars: the printed characters are permuted *)
Definition C81_dollars : str := S! "\begin{document}$$a$b$ u $x$\end{document}".
Example C81_dollars_example : exists d d3, from_str2 Debug C81_dollars = Ok d /\ from_str3 Debug C81_dollars = Ok d3 /\ forallb bracketless d = true /\
  show3 d3 = S! "\begin{document}$$ab$$ u $x$\end{document}" /\ in_range d /\ u32_lines d.
Proof.
  let x := eval vm_compute in (from_str2 Debug C81_dollars) in match x with Ok ?d => exists d end.
  let x := eval vm_compute in (from_str3 Debug C81_dollars) in match x with Ok ?d => exists d end.
  split; [vm_compute; reflexivity|]. split; [vm_compute; reflexivity|]. split; [vm_compute; reflexivity|]. split; [vm_compute; reflexivity|].
  apply (parsed_fits Debug C81_dollars); [vm_compute; reflexivity|vm_compute; reflexivity|vm_compute; reflexivity].
Qed.
Print Assumptions C81_dollars_example.
