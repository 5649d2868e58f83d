(** * Properties34: editing a chunk in place (C80)

    Only statements, short proofs from lemmas, assumptions and non-vacuity examples. The specification is in SpecEdit.v. *)
From Verif Require Import Base Ast1 Parse1 Ast2 Ast3 Api ModelTests1 Spec1 SpecDoc1 SpecDoc2 SpecDoc3 SpecEdit Facts1 Lines Valid1 Valid2 Valid3 Edit.

(** The newlines of a variant as it is printed *)
Definition newlines1 (v : variant1) : N := count_newlines (show_variant1 v).
Definition newlines2 (v : variant2) : N := count_newlines (show_variant2 v).
Definition newlines3 (v : variant3) : N := count_newlines (show_variant3 v).
Lemma as_new {A} (r : outcome internal_error unit) (d : A) : (let* _ := r in Ok d) = match r with Ok _ => Ok d | Err e => Err e | Panic => Panic | OutOfFuel => OutOfFuel end.
Proof. now destruct r as [[]|e| |]. Qed.
Lemma new_inv {A} (r : outcome internal_error unit) (d d' : A) : (let* _ := r in Ok d) = Ok d' -> r = Ok tt /\ d' = d.
Proof. destruct r as [[]|e| |]; cbn [bind]; intros H; try discriminate. now injection H as <-. Qed.

(** ** C80 *)
(** Stage 1: the printed text changes exactly where the replaced contents were printed. *)
Theorem C80_display1 : forall a c b v w y, changed1 v w (variant_of1 c) y ->
  exists before after, show1 (a ++ c :: b) = before ++ show_variant1 v ++ after /\
                       show1 (a ++ set_variant1 c y :: b) = before ++ show_variant1 w ++ after.
Proof.
  intros a [l x] b v w y C. destruct (changed1_show _ _ _ _ C) as (A & Z & E1 & E2). exists (show1 a ++ A), (Z ++ show1 b).
  cbn [set_variant1 variant_of1] in *. rewrite !show1_app, !show1_cons.
  change (show_chunk1 (mkChunk1 l x)) with (show_variant1 x). change (show_chunk1 (mkChunk1 l y)) with (show_variant1 y).
  rewrite E1, E2. split; now rewrite <- !app_assoc.
Qed.
Print Assumptions C80_display1.
(** The edited chunks form a document again exactly if the new contents are acceptable and, unless the edited chunk is the last one,
    print as many newlines as the old; otherwise the error is that of the new contents, or names the line of the next chunk. *)
Theorem C80_new1 : forall p a c b v w y d, changed1 v w (variant_of1 c) y ->
  1 + count_newlines (show1 (a ++ c :: b)) < two32 -> 1 + count_newlines (show1 (a ++ set_variant1 c y :: b)) < two32 ->
  document1_new p (a ++ c :: b) = Ok d ->
  document1_new p (a ++ set_variant1 c y :: b) =
  match chunk1_new (line_no1 c) w with
  | Ok _ => match b with
            | [] => Ok (a ++ [set_variant1 c y])
            | next :: _ => if newlines1 w =? newlines1 v then Ok (a ++ set_variant1 c y :: b)
                           else Err (IncorrectChunkLineNumber (line_no1 next + newlines1 w - newlines1 v) (line_no1 next))
            end
  | Err e => Err e | Panic => Panic | OutOfFuel => OutOfFuel
  end.
Proof.
  intros p a [l x] b v w y d C B1 B2 V. apply new_inv in V as [V _]. cbn [set_variant1 variant_of1] in *.
  pose proof (edit1 p a l x b v w y C B1 B2 V) as K. unfold document1_new, validate1. rewrite as_new, K. clear K. unfold chunk1_new, newlines1.
  change (validate_chunk1 (mkChunk1 (line_no1 (mkChunk1 l x)) w)) with (validate_variant1 w).
  destruct (validate_variant1 w) as [[]|e| |]; try reflexivity. cbn [bind]. destruct b as [|n b]; [reflexivity|]. now destruct (_ =? _).
Qed.
Print Assumptions C80_new1.
(** Stage 2: the printed text changes exactly where the replaced contents were printed. *)
Theorem C80_display2 : forall a c b v w y, changed2 v w (variant_of2 c) y ->
  exists before after, show2 (a ++ c :: b) = before ++ show_variant2 v ++ after /\
                       show2 (a ++ set_variant2 c y :: b) = before ++ show_variant2 w ++ after.
Proof.
  intros a [l x] b v w y C. destruct (changed2_show _ _ _ _ C) as (A & Z & E1 & E2). exists (show2 a ++ A), (Z ++ show2 b).
  cbn [set_variant2 variant_of2] in *. rewrite !show2_app, !show2_cons.
  change (show_chunk2 (mkChunk2 l x)) with (show_variant2 x). change (show_chunk2 (mkChunk2 l y)) with (show_variant2 y).
  rewrite E1, E2. split; now rewrite <- !app_assoc.
Qed.
Print Assumptions C80_display2.
(** The edited chunks form a document again exactly if the new contents are acceptable and, unless the edited chunk is the last one,
    print as many newlines as the old; otherwise the error is that of the new contents, or names the line of the next chunk. *)
Theorem C80_new2 : forall p a c b v w y d, changed2 v w (variant_of2 c) y ->
  1 + count_newlines (show2 (a ++ c :: b)) < two32 -> 1 + count_newlines (show2 (a ++ set_variant2 c y :: b)) < two32 ->
  document2_new p (a ++ c :: b) = Ok d ->
  document2_new p (a ++ set_variant2 c y :: b) =
  match chunk2_new (line_no2 c) w with
  | Ok _ => match b with
            | [] => Ok (a ++ [set_variant2 c y])
            | next :: _ => if newlines2 w =? newlines2 v then Ok (a ++ set_variant2 c y :: b)
                           else Err (IncorrectChunkLineNumber (line_no2 next + newlines2 w - newlines2 v) (line_no2 next))
            end
  | Err e => Err e | Panic => Panic | OutOfFuel => OutOfFuel
  end.
Proof.
  intros p a [l x] b v w y d C B1 B2 V. apply new_inv in V as [V _]. cbn [set_variant2 variant_of2] in *.
  pose proof (edit2 p a l x b v w y C B1 B2 V) as K. unfold document2_new, validate2. rewrite as_new, K. clear K. unfold chunk2_new, newlines2.
  change (validate_chunk2 (mkChunk2 (line_no2 (mkChunk2 l x)) w)) with (validate_variant2 w).
  destruct (validate_variant2 w) as [[]|e| |]; try reflexivity. cbn [bind]. destruct b as [|n b]; [reflexivity|]. now destruct (_ =? _).
Qed.
Print Assumptions C80_new2.
(** Stage 3: the printed text changes exactly where the replaced contents were printed. *)
Theorem C80_display3 : forall a c b v w y, changed3 v w (variant_of3 c) y ->
  exists before after, show_chunks3 (a ++ c :: b) = before ++ show_variant3 v ++ after /\
                       show_chunks3 (a ++ set_variant3 c y :: b) = before ++ show_variant3 w ++ after.
Proof.
  intros a [l x] b v w y C. destruct (changed3_show _ _ _ _ C) as (A & Z & E1 & E2). exists (show_chunks3 a ++ A), (Z ++ show_chunks3 b).
  cbn [set_variant3 variant_of3] in *. rewrite !show_chunks3_app, !show_chunks3_cons.
  change (show_chunk3 (mkChunk3 l x)) with (show_variant3 x). change (show_chunk3 (mkChunk3 l y)) with (show_variant3 y).
  rewrite E1, E2. split; now rewrite <- !app_assoc.
Qed.
Print Assumptions C80_display3.
(** The same for two stage-3 documents that differ by an edit in one section. *)
Theorem C80_new3 : forall p s d a c b v w y d' d2, get_section s d = a ++ c :: b -> changed3 v w (variant_of3 c) y ->
  1 + count_newlines (show_chunks3 (a ++ c :: b)) < two32 -> 1 + count_newlines (show_chunks3 (a ++ set_variant3 c y :: b)) < two32 ->
  document3_new p d = Ok d' ->
  get_section s d2 = a ++ set_variant3 c y :: b -> (forall s', s' <> s -> get_section s' d2 = get_section s' d) ->
  document3_new p d2 =
  match chunk3_new p (line_no3 c) w with
  | Ok _ => match b with
            | [] => Ok d2
            | next :: _ => if newlines3 w =? newlines3 v then Ok d2
                           else Err (IncorrectChunkLineNumber (line_no3 next + newlines3 w - newlines3 v) (line_no3 next))
            end
  | Err e => Err e | Panic => Panic | OutOfFuel => OutOfFuel
  end.
Proof.
  intros p s d a [l x] b v w y d' d2 G C B1 B2 V G2 O. apply new_inv in V as [V _]. unfold validate3 in V.
  apply seq_bind in V as [V1 V]. apply seq_bind in V as [V2 V3]. cbn [set_variant3 variant_of3] in *.
  assert (K : validate_from3 p 1 (a ++ mkChunk3 l x :: b) = Ok tt) by (destruct s; cbn [get_section] in G; rewrite <- G; assumption).
  apply (edit3 p a l x b v w y C B1 B2) in K.
  assert (K' : validate3 p d2 = validate_from3 p 1 (a ++ mkChunk3 l y :: b)).
  { unfold validate3. change (d_preamable d2) with (get_section Preamable d2). change (d_body d2) with (get_section Body d2). change (d_trailing d2) with (get_section Trailing d2).
    change (d_preamable d) with (get_section Preamable d) in V1. change (d_body d) with (get_section Body d) in V2. change (d_trailing d) with (get_section Trailing d) in V3.
    destruct s; rewrite G2, !O by discriminate; rewrite ?V1, ?V2, ?V3; cbn [bind]; rewrite ?bind_unit; reflexivity. }
  unfold document3_new. rewrite K', as_new, K. clear K K'. unfold chunk3_new, newlines3.
  change (validate_chunk3 p (mkChunk3 (line_no3 (mkChunk3 l x)) w)) with (validate_variant3 p w).
  destruct (validate_variant3 p w) as [[]|e| |]; try reflexivity. cbn [bind]. destruct b as [|n b]; [reflexivity|]. now destruct (_ =? _).
Qed.
Print Assumptions C80_new3.
(** A line number that is set in place: a document again exactly if it is the old one. *)
Theorem C80_line2 : forall p a c b n d, 1 + count_newlines (show2 (a ++ c :: b)) < two32 ->
  document2_new p (a ++ c :: b) = Ok d ->
  document2_new p (a ++ set_line_no2 c n :: b) =
  if n =? line_no2 c then Ok (a ++ c :: b) else Err (IncorrectChunkLineNumber (line_no2 c) n).
Proof.
  intros p a [l x] b n d B V. apply new_inv in V as [V _]. cbn [set_line_no2 line_no2]. unfold document2_new, validate2 in *.
  rewrite as_new, (renumber2 p a l n x b B V). destruct (N.eqb_spec n l) as [->|]; reflexivity.
Qed.
Print Assumptions C80_line2.
(** An edit that changes the number of newlines is repaired by moving the chunks that follow. *)
Theorem C80_moved2 : forall p a c b v w y d, changed2 v w (variant_of2 c) y ->
  1 + count_newlines (show2 (a ++ c :: b)) < two32 -> 1 + count_newlines (show2 (a ++ set_variant2 c y :: b)) < two32 ->
  document2_new p (a ++ c :: b) = Ok d ->
  let moved := map (fun z => set_line_no2 z (line_no2 z + newlines2 w - newlines2 v)) b in
  document2_new p (a ++ set_variant2 c y :: moved) =
  match chunk2_new (line_no2 c) w with
  | Ok _ => Ok (a ++ set_variant2 c y :: moved)
  | Err e => Err e | Panic => Panic | OutOfFuel => OutOfFuel
  end.
Proof.
  intros p a [l x] b v w y d C B1 B2 V moved. apply new_inv in V as [V _]. cbn [set_variant2 variant_of2] in *. unfold document2_new, validate2 in *.
  subst moved. unfold newlines2. rewrite as_new, (edit_moved2 p a l x b v w y C B1 B2 V). unfold chunk2_new.
  change (validate_chunk2 (mkChunk2 (line_no2 (mkChunk2 l x)) w)) with (validate_variant2 w).
  now destruct (validate_variant2 w) as [[]|e| |].
Qed.
Print Assumptions C80_moved2.

(** ** The hypotheses are met *)
(** an edit inside an argument of a command *)
Definition C80_doc1 (v : variant1) : variant1 := Command1 (mkCommand1 (S! "a") [([], mkScope1 [mkChunk1 1 (Text1 (S! "x")); mkChunk1 1 v] Curly1)]).
Lemma C80_in1 v w : changed1 v w (C80_doc1 v) (C80_doc1 w).
Proof. exact (ch1_arg v w v w (S! "a") [] [] [] [mkChunk1 1 (Text1 (S! "x"))] 1 1 [] Curly1 (ch1_self v w)). Qed.
Definition C80_old : variant1 := Scope1 (mkScope1 [mkChunk1 1 (Text1 (S! "y"))] Square1).
Definition C80_next : list chunk1 := [mkChunk1 1 (Text1 (lines_of ["b"; ""]%string)); mkChunk1 2 (Command1 (mkCommand1 (S! "c") []))].
Example C80_accepted1 : exists d, document1_new Debug ([] ++ mkChunk1 1 (C80_doc1 C80_old) :: C80_next) = Ok d /\
  show1 d = lines_of ["\a{x[y]}b"; "\c"]%string /\
  document1_new Debug ([] ++ set_variant1 (mkChunk1 1 (C80_doc1 C80_old)) (C80_doc1 (Text1 (S! "z"))) :: C80_next) = Ok ([mkChunk1 1 (C80_doc1 (Text1 (S! "z")))] ++ C80_next).
Proof.
  eexists. split; [vm_compute; reflexivity|]. split; [vm_compute; reflexivity|].
  rewrite (C80_new1 Debug [] (mkChunk1 1 (C80_doc1 C80_old)) C80_next C80_old (Text1 (S! "z")) (C80_doc1 (Text1 (S! "z"))) ([mkChunk1 1 (C80_doc1 C80_old)] ++ C80_next) (C80_in1 _ _)); vm_compute; reflexivity.
Qed.
Example C80_rejected1 :
  document1_new Debug ([] ++ set_variant1 (mkChunk1 1 (C80_doc1 C80_old)) (C80_doc1 (Text1 (S! "%"))) :: C80_next) = Err (UnsanitisedCharInString c_percent) /\
  document1_new Debug ([] ++ set_variant1 (mkChunk1 1 (C80_doc1 C80_old)) (C80_doc1 (Text1 (lines_of ["z"; ""]%string))) :: C80_next) = Err (IncorrectChunkLineNumber 2 1).
Proof. split; vm_compute; reflexivity. Qed.
(** in the body of an environment, with the chunks that follow moved *)
Definition C80_env (v : variant2) : variant2 := Environment2 (mkEnv2 (S! "e") [] [mkChunk2 1 v; mkChunk2 1 (Text2 (S! "u"))] [] []).
Lemma C80_in2 v w : changed2 v w (C80_env v) (C80_env w).
Proof. exact (ch2_env v w v w (S! "e") [] [] 1 1 [mkChunk2 1 (Text2 (S! "u"))] [] [] (ch2_self v w)). Qed.
Example C80_repaired2 : let old := Text2 (S! "x") in let new := Text2 (lines_of ["p"; "q"]%string) in let c := mkChunk2 1 (C80_env old) in let b := [mkChunk2 1 (Text2 (S! "t"))] in
  (exists d, document2_new Debug ([] ++ c :: b) = Ok d) /\ changed2 old new (variant_of2 c) (C80_env new) /\
  document2_new Debug ([] ++ set_variant2 c (C80_env new) :: b) = Err (IncorrectChunkLineNumber 2 1) /\
  document2_new Debug ([] ++ set_variant2 c (C80_env new) :: [mkChunk2 2 (Text2 (S! "t"))]) = Ok [mkChunk2 1 (C80_env new); mkChunk2 2 (Text2 (S! "t"))] /\
  document2_new Debug ([] ++ set_line_no2 c 7 :: b) = Err (IncorrectChunkLineNumber 1 7).
Proof.
  cbv zeta. split; [eexists; vm_compute; reflexivity|]. split; [apply C80_in2|]. repeat split; vm_compute; reflexivity.
Qed.
(** in a maths block of the body *)
Definition C80_maths (v : variant3) : variant3 := Maths3 (mkMaths3 Dollars Inline [mkChunk3 1 v]).
Example C80_maths3 : forall old, changed3 old (Text3 (S! "z")) (C80_maths old) (C80_maths (Text3 (S! "z"))).
Proof. intros old. exact (ch3_maths old (Text3 (S! "z")) old (Text3 (S! "z")) Dollars Inline [] 1 1 [] (ch3_self _ _)). Qed.
Definition C80_doc3 (v : variant3) : document3 := mkDoc3 None [] [] [mkChunk3 1 (C80_maths v); mkChunk3 1 (Text3 (S! "t"))] [] [] [] [].
Example C80_accepted3 : exists d', document3_new Debug (C80_doc3 (Text3 (S! "x"))) = Ok d' /\
  show3 d' = S! "\begin{document}$x$t\end{document}" /\ document3_new Debug (C80_doc3 (Text3 (S! "z"))) = Ok (C80_doc3 (Text3 (S! "z"))).
Proof.
  eexists. split; [vm_compute; reflexivity|]. split; [vm_compute; reflexivity|].
  rewrite (C80_new3 Debug Body (C80_doc3 (Text3 (S! "x"))) [] (mkChunk3 1 (C80_maths (Text3 (S! "x")))) [mkChunk3 1 (Text3 (S! "t"))] (Text3 (S! "x")) (Text3 (S! "z")) (C80_maths (Text3 (S! "z"))) (C80_doc3 (Text3 (S! "x"))) (C80_doc3 (Text3 (S! "z")))
    eq_refl (C80_maths3 (Text3 (S! "x"))) ltac:(vm_compute; reflexivity) ltac:(vm_compute; reflexivity) ltac:(vm_compute; reflexivity) eq_refl).
  - vm_compute. reflexivity.
  - intros []; intros H; [reflexivity|now elim H|reflexivity].
Qed.
