(** * Properties23: documents built by pushing (C69)

    Only statements, short proofs from lemmas, assumptions and non-vacuity examples.
    [foldM push [] l] pushes the elements of [l] one after the other into an empty document, stopping at the first error.
    [joinN] puts neighbouring texts together, [numberedN] gives each variant the line on which the previous one ends
    (SpecBuild.v). *)
From Verif Require Import Base Ast1 Parse1 Ast2 Ast3 SpecDoc1 SpecDoc2 SpecDoc3 SpecBuild Valid3 Rebuild Properties1.

(** ** Stage 1. Pushing the chunks of a document, one by one, succeeds exactly when the document is valid, and gives it back
    (with neighbouring texts joined). *)
Theorem C69_rebuild1 : forall p d d', 2 + count_newlines (show1 d) < two32 ->
  (foldM (push_chunk1 p) [] d = Ok d' <-> validate1 p d = Ok tt /\ d' = join1 d).
Proof. exact rebuild1. Qed.
Print Assumptions C69_rebuild1.
(** otherwise the error is that of the first chunk after a valid beginning *)
Theorem C69_rebuild1_error : forall p d e, 2 + count_newlines (show1 d) < two32 ->
  (foldM (push_chunk1 p) [] d = Err e <->
   exists pre c post, d = pre ++ c :: post /\ validate1 p pre = Ok tt /\
     (validate_chunk1 c = Err e \/
      (validate_chunk1 c = Ok tt /\ line_no1 c <> 1 + count_newlines (show1 pre) /\
       e = IncorrectChunkLineNumber (1 + count_newlines (show1 pre)) (line_no1 c)))).
Proof. exact rebuild1_error. Qed.
Print Assumptions C69_rebuild1_error.
(** Pushing variants: line numbers are filled in *)
Theorem C69_push1 : forall p vs d', 2 + count_newlines (concat (map show_variant1 vs)) < two32 ->
  (foldM (push1 p) [] vs = Ok d' <-> Forall (fun v => validate_variant1 v = Ok tt) vs /\ d' = join1 (numbered1 1 vs)).
Proof. exact build1. Qed.
Print Assumptions C69_push1.
Theorem C69_push1_error : forall p vs e, 2 + count_newlines (concat (map show_variant1 vs)) < two32 ->
  (foldM (push1 p) [] vs = Err e <->
   exists pre v post, vs = pre ++ v :: post /\ Forall (fun v => validate_variant1 v = Ok tt) pre /\ validate_variant1 v = Err e).
Proof. exact build1_error. Qed.
Print Assumptions C69_push1_error.
(** Text may be pushed in pieces *)
Theorem C69_pieces1 : forall p d s t d', lines_add_up1 d -> 2 + count_newlines (show1 d) + count_newlines s < two32 ->
  (foldM (push1 p) d [Text1 s; Text1 t] = Ok d' <-> push1 p d (Text1 (s ++ t)) = Ok d').
Proof. exact push_twice1. Qed.
Print Assumptions C69_pieces1.
(** What [join] and [numbered] do: the Display stays, and a document without neighbouring texts is not changed *)
Theorem C69_join1 : forall d, show1 (join1 d) = show1 d /\
  (join1 d = d <-> forall pre l s l' t post, d <> pre ++ mkChunk1 l (Text1 s) :: mkChunk1 l' (Text1 t) :: post).
Proof. intros d. split; [apply join1_show|]. symmetry. apply join1_id. Qed.
Print Assumptions C69_join1.
(** so a parsed document, if valid, is what is built from its chunks *)
Theorem C69_parsed1 : forall p s d, source_fits s -> 2 + count_newlines (show1 d) < two32 -> from_str1 p s = Ok d ->
  (foldM (push_chunk1 p) [] d = Ok d <-> validate1 p d = Ok tt).
Proof.
  intros p s d B B2 H. assert (J : join1 d = d).
  { apply join1_id. intros pre l a l' t post E. destruct (C08_no_adjacent p s d B H d pre _ _ post (w1_self _) E) as [X _]. discriminate X. }
  rewrite (rebuild1 p d d B2), J. tauto.
Qed.
Print Assumptions C69_parsed1.
Example C69_example1 : let d := [mkChunk1 1 (Text1 (S! "a" ++ [10])); mkChunk1 2 (Text1 (S! "b")); mkChunk1 2 (Command1 (mkCommand1 (S! "c") []));
    mkChunk1 2 (Text1 [10]); mkChunk1 3 (Scope1 (mkScope1 [] Curly1))] in
  2 + count_newlines (show1 d) < two32 /\ validate1 Debug d = Ok tt /\ foldM (push_chunk1 Debug) [] d = Ok (join1 d) /\ length (join1 d) = 4%nat /\
  foldM (push1 Debug) [] (map variant_of1 d) = Ok (join1 d) /\ numbered1 1 (map variant_of1 d) = d.
Proof. vm_compute. repeat split; reflexivity. Qed.

(** ** Stage 2 *)
Theorem C69_rebuild2 : forall p d d', 2 + count_newlines (show2 d) < two32 ->
  (foldM (push_chunk2 p) [] d = Ok d' <-> validate2 p d = Ok tt /\ d' = join2 d).
Proof. exact rebuild2. Qed.
Print Assumptions C69_rebuild2.
Theorem C69_rebuild2_error : forall p d e, 2 + count_newlines (show2 d) < two32 ->
  (foldM (push_chunk2 p) [] d = Err e <->
   exists pre c post, d = pre ++ c :: post /\ validate2 p pre = Ok tt /\
     (validate_chunk2 c = Err e \/
      (validate_chunk2 c = Ok tt /\ line_no2 c <> 1 + count_newlines (show2 pre) /\
       e = IncorrectChunkLineNumber (1 + count_newlines (show2 pre)) (line_no2 c)))).
Proof. exact rebuild2_error. Qed.
Print Assumptions C69_rebuild2_error.
Theorem C69_push2 : forall p vs d', 2 + count_newlines (concat (map show_variant2 vs)) < two32 ->
  (foldM (push2 p) [] vs = Ok d' <-> Forall (fun v => validate_variant2 v = Ok tt) vs /\ d' = join2 (numbered2 1 vs)).
Proof. exact build2. Qed.
Print Assumptions C69_push2.
Theorem C69_push2_error : forall p vs e, 2 + count_newlines (concat (map show_variant2 vs)) < two32 ->
  (foldM (push2 p) [] vs = Err e <->
   exists pre v post, vs = pre ++ v :: post /\ Forall (fun v => validate_variant2 v = Ok tt) pre /\ validate_variant2 v = Err e).
Proof. exact build2_error. Qed.
Print Assumptions C69_push2_error.
Theorem C69_pieces2 : forall p d s t d', lines_add_up2 d -> 2 + count_newlines (show2 d) + count_newlines s < two32 ->
  (foldM (push2 p) d [Text2 s; Text2 t] = Ok d' <-> push2 p d (Text2 (s ++ t)) = Ok d').
Proof. exact push_twice2. Qed.
Print Assumptions C69_pieces2.
Theorem C69_join2 : forall d, show2 (join2 d) = show2 d /\
  (join2 d = d <-> forall pre l s l' t post, d <> pre ++ mkChunk2 l (Text2 s) :: mkChunk2 l' (Text2 t) :: post).
Proof. intros d. split; [apply join2_show|]. symmetry. apply join2_id. Qed.
Print Assumptions C69_join2.
Example C69_example2 : let d := [mkChunk2 1 (Text2 (S! "a" ++ [10])); mkChunk2 2 (Text2 (S! "b"));
    mkChunk2 2 (Environment2 (mkEnv2 (S! "e") [([], mkScope2 [] Square2)] [mkChunk2 7 (Text2 [10; 10])] [] []));
    mkChunk2 4 (Text2 (S! "z"))] in
  2 + count_newlines (show2 d) < two32 /\ validate2 Debug d = Ok tt /\ foldM (push_chunk2 Debug) [] d = Ok (join2 d) /\ length (join2 d) = 3%nat /\
  foldM (push2 Debug) [] (map variant_of2 d) = Ok (join2 d) /\ numbered2 1 (map variant_of2 d) = d.
Proof. vm_compute. repeat split; reflexivity. Qed.

(** ** Stage 3: each section by itself *)
Theorem C69_push3 : forall p s d0 vs d', get_section s d0 = [] -> 2 + count_newlines (concat (map show_variant3 vs)) < two32 ->
  (foldM (push3 p s) d0 vs = Ok d' <->
   Forall (fun v => validate_variant3 p v = Ok tt) vs /\ d' = set_section s d0 (join3 (numbered3 1 vs))).
Proof. exact build_section. Qed.
Print Assumptions C69_push3.
Theorem C69_push3_error : forall p s d0 vs e, get_section s d0 = [] -> 2 + count_newlines (concat (map show_variant3 vs)) < two32 ->
  (foldM (push3 p s) d0 vs = Err e <->
   exists pre v post, vs = pre ++ v :: post /\ Forall (fun v => validate_variant3 p v = Ok tt) pre /\ validate_variant3 p v = Err e).
Proof. exact build_section_error. Qed.
Print Assumptions C69_push3_error.
Theorem C69_section3_error : forall p s d0 cs e, get_section s d0 = [] -> 2 + count_newlines (show_chunks3 cs) < two32 ->
  (foldM (push_chunk3 p s) d0 cs = Err e <->
   exists pre c post, cs = pre ++ c :: post /\ well_formed_vec3 pre /\
     (validate_chunk3 p c = Err e \/
      (validate_chunk3 p c = Ok tt /\ line_no3 c <> 1 + count_newlines (show_chunks3 pre) /\
       e = IncorrectChunkLineNumber (1 + count_newlines (show_chunks3 pre)) (line_no3 c)))).
Proof. exact rebuild_section_error. Qed.
Print Assumptions C69_section3_error.
(** and the whole: the document without the chunks of its sections, filled section by section *)
Theorem C69_rebuild3 : forall p d d', (forall s, 2 + count_newlines (show_chunks3 (get_section s d)) < two32) ->
  let empty := set_section Preamable (set_section Body (set_section Trailing d []) []) [] in
  ((let* a := foldM (push_chunk3 p Preamable) empty (d_preamable d) in
    let* b := foldM (push_chunk3 p Body) a (d_body d) in
    foldM (push_chunk3 p Trailing) b (d_trailing d)) = Ok d' <->
   validate3 p d = Ok tt /\
   d' = set_section Preamable (set_section Body (set_section Trailing d
          (join3 (d_trailing d))) (join3 (d_body d))) (join3 (d_preamable d))).
Proof. exact rebuild_document_iff. Qed.
Print Assumptions C69_rebuild3.
Theorem C69_join3 : forall d, show_chunks3 (join3 d) = show_chunks3 d /\
  (join3 d = d <-> forall pre l s l' t post, d <> pre ++ mkChunk3 l (Text3 s) :: mkChunk3 l' (Text3 t) :: post).
Proof. intros d. split; [apply join3_show|]. symmetry. apply join3_id. Qed.
Print Assumptions C69_join3.
Example C69_example3 : let s := S! "\documentclass[a=b]{c}" ++ [10] ++ S! "\begin{document}a" ++ [10; 10] ++ S! "b$c$d\end{document}" in
  exists d, from_str3 Debug s = Ok d /\ validate3 Debug d = Ok tt /\ length (d_body d) = 5%nat /\
  let empty := set_section Preamable (set_section Body (set_section Trailing d []) []) [] in
  (let* a := foldM (push_chunk3 Debug Preamable) empty (d_preamable d) in
   let* b := foldM (push_chunk3 Debug Body) a (d_body d) in
   foldM (push_chunk3 Debug Trailing) b (d_trailing d)) = Ok d.
Proof. cbv zeta. eexists. split; [vm_compute; reflexivity|]. vm_compute. repeat split; reflexivity. Qed.
