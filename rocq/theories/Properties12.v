(** * Properties12: brackets, equality, constructors, the errors of validation, unchecked pushes

    Only statements, short proofs from lemmas, assumptions and non-vacuity examples.
    The specification of faults is in SpecFault.v. *)
From Verif Require Import Base Ast1 Parse1 Ast2 Ast3 Api ModelTests1 Spec1 SpecDoc1 SpecDoc2 SpecDoc3 Tok Refine1 Ind Facts1
  Valid1 Valid2 Valid3 SpecBack2 Back2 Eqb Eqb23 SpecFault Fault Rules.

(** ** C47: the bracket functions *)
Theorem C47_brackets :
  [open1 Curly1; close1 Curly1] = S! "{}" /\ [open1 Round1; close1 Round1] = S! "()" /\
  [open1 Square1; close1 Square1] = S! "[]" /\
  [open2 Curly2; close2 Curly2] = S! "{}" /\ [open2 Round2; close2 Round2] = S! "()" /\
  [open2 Square2; close2 Square2] = S! "[]" /\
  [open3 Curly3; close3 Curly3] = S! "{}" /\ [open3 Round3; close3 Round3] = S! "()" /\
  [open3 Square3; close3 Square3] = S! "[]".
Proof. repeat split. Qed.
Print Assumptions C47_brackets.
(** for every character: it is an opening (closing) bracket iff it opens (closes) some variant; the inverse finds exactly
    that variant, and panics ([unreachable!]) on every other character *)
Theorem C47_inverse : forall c v,
  (is_opening c = true <-> exists v', open1 v' = c) /\
  (is_closing c = true <-> exists v', close1 v' = c) /\
  (@from_opening error c = Ok v <-> open1 v = c) /\
  (@from_closing error c = Ok v <-> close1 v = c) /\
  (@from_opening error c = Panic <-> is_opening c = false) /\
  (@from_closing error c = Panic <-> is_closing c = false) /\
  ~ (is_opening c = true /\ is_closing c = true).
Proof.
  intros c v.
  assert (O : is_opening c = true <-> exists v', open1 v' = c).
  { unfold is_opening. rewrite !orb_true_iff, !N.eqb_eq. split.
    - intros [[->| ->]| ->]; [exists Curly1|exists Square1|exists Round1]; reflexivity.
    - intros [[| |] <-]; cbn; auto. }
  assert (C : is_closing c = true <-> exists v', close1 v' = c).
  { unfold is_closing. rewrite !orb_true_iff, !N.eqb_eq. split.
    - intros [[->| ->]| ->]; [exists Curly1|exists Square1|exists Round1]; reflexivity.
    - intros [[| |] <-]; cbn; auto. }
  split; [exact O|]. split; [exact C|].
  assert (FO : @from_opening error c = Ok v <-> open1 v = c).
  { split.
    - unfold from_opening.
      destruct (N.eqb_spec c c_lcurly) as [->|]; [intros H; injection H as <-; reflexivity|].
      destruct (N.eqb_spec c c_lsquare) as [->|]; [intros H; injection H as <-; reflexivity|].
      destruct (N.eqb_spec c c_lround) as [->|]; [intros H; injection H as <-; reflexivity|].
      discriminate.
    - intros <-. destruct v; reflexivity. }
  assert (FC : @from_closing error c = Ok v <-> close1 v = c).
  { split.
    - unfold from_closing.
      destruct (N.eqb_spec c c_rcurly) as [->|]; [intros H; injection H as <-; reflexivity|].
      destruct (N.eqb_spec c c_rsquare) as [->|]; [intros H; injection H as <-; reflexivity|].
      destruct (N.eqb_spec c c_rround) as [->|]; [intros H; injection H as <-; reflexivity|].
      discriminate.
    - intros <-. destruct v; reflexivity. }
  split; [exact FO|]. split; [exact FC|]. split; [|split].
  - unfold from_opening, is_opening. destruct (c =? c_lcurly), (c =? c_lsquare), (c =? c_lround); cbn; split; intros H; (reflexivity || discriminate).
  - unfold from_closing, is_closing. destruct (c =? c_rcurly), (c =? c_rsquare), (c =? c_rround); cbn; split; intros H; (reflexivity || discriminate).
  - intros [H1 H2]. apply O in H1 as [v1 H1]. apply C in H2 as [v2 H2]. destruct v1, v2; cbv in H1, H2; congruence.
Qed.
Print Assumptions C47_inverse.
(** converting a variant between stages keeps the brackets and loses nothing *)
Theorem C47_conversions : forall v1 v2 v3,
  open2 (sv2_of_sv1 v1) = open1 v1 /\ close2 (sv2_of_sv1 v1) = close1 v1 /\ sv1_of_sv2 (sv2_of_sv1 v1) = v1 /\
  open1 (sv1_of_sv2 v2) = open2 v2 /\ close1 (sv1_of_sv2 v2) = close2 v2 /\ sv2_of_sv1 (sv1_of_sv2 v2) = v2 /\
  open3 (sv3_of_sv2 v2) = open2 v2 /\ close3 (sv3_of_sv2 v2) = close2 v2 /\ sv2_of_sv3 (sv3_of_sv2 v2) = v2 /\
  open2 (sv2_of_sv3 v3) = open3 v3 /\ close2 (sv2_of_sv3 v3) = close3 v3 /\ sv3_of_sv2 (sv2_of_sv3 v3) = v3.
Proof. intros [| |] [| |] [| |]; repeat split. Qed.
Print Assumptions C47_conversions.

(** ** C48: [==] holds exactly between equal values, at every stage and for every type *)
Theorem C48_stage1 :
  (forall a b, chunk1_eqb a b = true <-> a = b) /\ (forall a b, variant1_eqb a b = true <-> a = b) /\
  (forall a b, command1_eqb a b = true <-> a = b) /\ (forall a b, scope1_eqb a b = true <-> a = b) /\
  (forall a b, sv1_eqb a b = true <-> a = b) /\ (forall a b, chunks1_eqb a b = true <-> a = b).
Proof.
  assert (V : forall a b, variant1_eqb a b = true <-> a = b).
  { intros a b. transitivity (chunk1_eqb (mkChunk1 0 a) (mkChunk1 0 b) = true); [reflexivity|].
    rewrite chunk1_eqb_eq. split; [intros H; now injection H|intros ->; reflexivity]. }
  split; [exact chunk1_eqb_eq|]. split; [exact V|]. split; [|split; [|split]].
  - intros a b. transitivity (variant1_eqb (Command1 a) (Command1 b) = true); [reflexivity|].
    rewrite V. split; [intros H; now injection H|intros ->; reflexivity].
  - intros a b. transitivity (variant1_eqb (Scope1 a) (Scope1 b) = true); [reflexivity|].
    rewrite V. split; [intros H; now injection H|intros ->; reflexivity].
  - exact sv1_eqb_eq.
  - exact chunks1_eqb_eq.
Qed.
Print Assumptions C48_stage1.
Theorem C48_stage2 :
  (forall a b, chunk2_eqb a b = true <-> a = b) /\ (forall a b, variant2_eqb a b = true <-> a = b) /\
  (forall a b, command2_eqb a b = true <-> a = b) /\ (forall a b, scope2_eqb a b = true <-> a = b) /\
  (forall a b, env2_eqb a b = true <-> a = b) /\ (forall a b, sv2_eqb a b = true <-> a = b) /\
  (forall a b, document2_eqb a b = true <-> a = b).
Proof.
  assert (V : forall a b, variant2_eqb a b = true <-> a = b).
  { intros a b. transitivity (chunk2_eqb (mkChunk2 0 a) (mkChunk2 0 b) = true); [reflexivity|].
    pose proof (chunk2_eqb_eq (mkChunk2 0 a) (mkChunk2 0 b)) as Q. rewrite Q. split; [intros H; now injection H|intros ->; reflexivity]. }
  split; [exact chunk2_eqb_eq|]. split; [exact V|]. split; [|split; [|split; [|split]]].
  - intros a b. transitivity (variant2_eqb (Command2 a) (Command2 b) = true); [reflexivity|].
    rewrite V. split; [intros H; now injection H|intros ->; reflexivity].
  - intros a b. transitivity (variant2_eqb (Scope2 a) (Scope2 b) = true); [reflexivity|].
    rewrite V. split; [intros H; now injection H|intros ->; reflexivity].
  - intros a b. transitivity (variant2_eqb (Environment2 a) (Environment2 b) = true); [reflexivity|].
    rewrite V. split; [intros H; now injection H|intros ->; reflexivity].
  - exact sv2_eqb_eq.
  - exact document2_eqb_eq.
Qed.
Print Assumptions C48_stage2.
Theorem C48_stage3 :
  (forall a b, chunk3_eqb a b = true <-> a = b) /\ (forall a b, variant3_eqb a b = true <-> a = b) /\
  (forall a b, command3_eqb a b = true <-> a = b) /\ (forall a b, scope3_eqb a b = true <-> a = b) /\
  (forall a b, env3_eqb a b = true <-> a = b) /\ (forall a b, maths3_eqb a b = true <-> a = b) /\
  (forall a b, sv3_eqb a b = true <-> a = b) /\ (forall a b, document3_eqb a b = true <-> a = b).
Proof.
  assert (V : forall a b, variant3_eqb a b = true <-> a = b).
  { intros a b. transitivity (chunk3_eqb (mkChunk3 0 a) (mkChunk3 0 b) = true); [reflexivity|].
    pose proof (chunk3_eqb_eq (mkChunk3 0 a) (mkChunk3 0 b)) as Q. rewrite Q. split; [intros H; now injection H|intros ->; reflexivity]. }
  split; [exact chunk3_eqb_eq|]. split; [exact V|]. split; [|split; [|split; [|split; [|split]]]].
  - intros a b. transitivity (variant3_eqb (Command3 a) (Command3 b) = true); [reflexivity|].
    rewrite V. split; [intros H; now injection H|intros ->; reflexivity].
  - intros a b. transitivity (variant3_eqb (Scope3 a) (Scope3 b) = true); [reflexivity|].
    rewrite V. split; [intros H; now injection H|intros ->; reflexivity].
  - intros a b. transitivity (variant3_eqb (Environment3 a) (Environment3 b) = true); [reflexivity|].
    rewrite V. split; [intros H; now injection H|intros ->; reflexivity].
  - intros a b. transitivity (variant3_eqb (Maths3 a) (Maths3 b) = true); [reflexivity|].
    rewrite V. split; [intros H; now injection H|intros ->; reflexivity].
  - exact sv3_eqb_eq.
  - exact document3_eqb_eq.
Qed.
Print Assumptions C48_stage3.
(** The line number counts: two documents with the same text may differ. *)
Example C48_example : chunk1_eqb (mkChunk1 1 (Text1 (S! "a"))) (mkChunk1 2 (Text1 (S! "a"))) = false.
Proof. reflexivity. Qed.

(** ** C50: which error validation reports: exactly the first fault *)
Theorem C50_stage1 : forall p d e, 1 + count_newlines (show1 d) < two32 -> (validate1 p d = Err e <-> doc_fault1 d e).
Proof. exact validate1_err_iff. Qed.
Theorem C50_stage2 : forall p d e, 1 + count_newlines (show2 d) < two32 -> (validate2 p d = Err e <-> doc_fault2 d e).
Proof. exact validate2_err_iff. Qed.
Theorem C50_stage3 : forall p d e,
  1 + count_newlines (show_chunks3 (d_preamable d)) < two32 ->
  1 + count_newlines (show_chunks3 (d_body d)) < two32 ->
  1 + count_newlines (show_chunks3 (d_trailing d)) < two32 ->
  (validate3 p d = Err e <-> doc_fault3 d e).
Proof. exact validate3_err_iff. Qed.
Print Assumptions C50_stage1.
Print Assumptions C50_stage2.
Print Assumptions C50_stage3.
(** one chunk: no line numbers are involved *)
Theorem C50_chunks : forall c1 c2 c3 p e,
  (validate_chunk1 c1 = Err e <-> fault1 c1 e) /\
  (validate_chunk2 c2 = Err e <-> fault2 c2 e) /\
  (count_newlines (show_chunk3 c3) < two32 -> (validate_chunk3 p c3 = Err e <-> fault3 c3 e)).
Proof.
  intros c1 c2 c3 p e. split; [apply fault1_iff|]. split; [apply fault2_iff|]. intros B. now apply fault3_iff.
Qed.
Print Assumptions C50_chunks.
(** The first of several faults: a special character, nested, before a wrong line number. *)
Definition C50_doc1 : list chunk1 :=
  [mkChunk1 1 (Text1 (S! "a" ++ [c_newline]));
   mkChunk1 2 (Command1 (mkCommand1 (S! "b") [([], mkScope1 [mkChunk1 7 (Text1 (S! "c"))] Round1);
                                             ([], mkScope1 [mkChunk1 7 (Text1 (S! "c")); mkChunk1 9 (Text1 (S! "x%{"))] Curly1)]));
   mkChunk1 5 (Text1 (S! "}"))].
Example C50_example1 : doc_fault1 C50_doc1 (UnsanitisedCharInString (c_percent)).
Proof. apply (C50_stage1 Debug); vm_compute; reflexivity. Qed.
Example C50_example1_line : doc_fault1 [mkChunk1 1 (Text1 (S! "a")); mkChunk1 2 (Text1 (S! "}"))] (IncorrectChunkLineNumber 1 2).
Proof. apply (C50_stage1 Release); vm_compute; reflexivity. Qed.
Example C50_example2 :
  doc_fault2 [mkChunk2 1 (Environment2 (mkEnv2 (S! "e") [([c_newline], mkScope2 [] Square2)]
                  [mkChunk2 1 (Command2 (mkCommand2 (S! "end") []))] [] []));
              mkChunk2 1 (Text2 (S! "{"))] EndCommand.
Proof. apply (C50_stage2 Debug); vm_compute; reflexivity. Qed.
Example C50_example3 :
  doc_fault3 (mkDoc3 None [] [mkChunk3 1 (Text3 (S! "p"))]
     [mkChunk3 1 (Maths3 (mkMaths3 Dollars Inline [mkChunk3 1 (ParagraphBreak3 [c_newline])]))] [] [] []
     [mkChunk3 1 (Text3 (S! "{"))]) ParagraphBreakTooShort.
Proof. apply (C50_stage3 Debug); vm_compute; reflexivity. Qed.
Example C50_example3_text :
  fault3 (mkChunk3 1 (Text3 (S! "a" ++ [c_newline] ++ S! " " ++ [c_newline] ++ S! "}"))) UnbrokenParagraph.
Proof. apply (proj2 (proj2 (C50_chunks (mkChunk1 1 (Text1 [])) (mkChunk2 1 (Text2 [])) _ Debug _))); vm_compute; reflexivity. Qed.

(** ** C49: a checking constructor returns exactly the value built from its arguments when that is well formed,
    and the first fault otherwise *)
Lemma new_spec {A} (v : outcome internal_error unit) (x : A) (good : Prop) (bad : internal_error -> Prop) :
  (good <-> v = Ok tt) -> (forall e, bad e <-> v = Err e) -> v = Ok tt \/ (exists e, v = Err e) ->
  (good -> (let* _ := v in Ok x) = Ok x) /\ (~ good -> exists e, bad e /\ (let* _ := v in Ok x) = Err e).
Proof.
  intros G B T. split.
  - intros H. apply G in H. rewrite H. reflexivity.
  - intros H. destruct T as [K|[e K]]; [now apply G in K|]. exists e. rewrite B, K. auto.
Qed.
Lemma validate_from1_total p d : forall L, L + count_newlines (show1 d) < two32 -> 1 <= L ->
  validate_from1 p L d = Ok tt \/ exists e, validate_from1 p L d = Err e.
Proof.
  induction d as [|c d IH]; intros L B H1; cbn [validate_from1]; [now left|].
  change (show1 (c :: d)) with (show_chunk1 c ++ show1 d) in B. rewrite count_newlines_app in B.
  destruct (negb _); [eauto|].
  assert (T : validate_chunk1 c = Ok tt \/ exists e, validate_chunk1 c = Err e) by (destruct c as [l v]; apply validate_variant1_total).
  destruct T as [K|[e K]]; rewrite K; cbn [bind]; [|eauto].
  rewrite lines_ok1 by lia. cbn [bind]. rewrite sub32_ok by lia. cbn [bind]. rewrite add32_ok by lia. cbn [bind].
  apply IH; lia.
Qed.
Lemma validate1_total p d : 1 + count_newlines (show1 d) < two32 -> validate1 p d = Ok tt \/ exists e, validate1 p d = Err e.
Proof. intros B. apply validate_from1_total; lia. Qed.
Lemma validate_from2_total p d : forall L, L + count_newlines (show2 d) < two32 -> 1 <= L ->
  validate_from2 p L d = Ok tt \/ exists e, validate_from2 p L d = Err e.
Proof.
  induction d as [|c d IH]; intros L B H1; cbn [validate_from2]; [now left|].
  rewrite show2_cons, count_newlines_app in B.
  destruct (negb _); [eauto|].
  destruct (validate_chunk2_total c) as [K|[e K]]; rewrite K; cbn [bind]; [|eauto].
  rewrite lines_ok2 by lia. cbn [bind]. rewrite sub32_ok by lia. cbn [bind]. rewrite add32_ok by lia. cbn [bind].
  apply IH; lia.
Qed.
Lemma validate2_total p d : 1 + count_newlines (show2 d) < two32 -> validate2 p d = Ok tt \/ exists e, validate2 p d = Err e.
Proof. intros B. apply validate_from2_total; lia. Qed.
Lemma validate_from3_total p d : forall L, L + count_newlines (show_chunks3 d) < two32 -> 1 <= L ->
  validate_from3 p L d = Ok tt \/ exists e, validate_from3 p L d = Err e.
Proof.
  induction d as [|c d IH]; intros L B H1; cbn [validate_from3]; [now left|].
  rewrite show_chunks3_cons, count_newlines_app in B.
  destruct (negb _); [eauto|].
  destruct (validate_chunk3_total p c) as [K|[e K]]; [lia|..]; rewrite K; cbn [bind]; [|eauto].
  rewrite lines_ok3 by lia. cbn [bind]. rewrite sub32_ok by lia. cbn [bind]. rewrite add32_ok by lia. cbn [bind].
  apply IH; lia.
Qed.

Theorem C49_stage1 : forall p d l v lab args cs sv,
  (1 + count_newlines (show1 d) < two32 ->
   (well_formed1 d -> document1_new p d = Ok d) /\ (~ well_formed1 d -> exists e, doc_fault1 d e /\ document1_new p d = Err e)) /\
  (let x := mkChunk1 l v in
   (sound1 [x] -> chunk1_new l v = Ok x) /\ (~ sound1 [x] -> exists e, fault1 x e /\ chunk1_new l v = Err e)) /\
  (let x := mkCommand1 lab args in
   (sound1 [mkChunk1 l (Command1 x)] -> command1_new lab args = Ok x) /\
   (~ sound1 [mkChunk1 l (Command1 x)] -> exists e, fault1 (mkChunk1 l (Command1 x)) e /\ command1_new lab args = Err e)) /\
  (let x := mkScope1 cs sv in
   (sound1 cs -> scope1_new cs sv = Ok x) /\ (~ sound1 cs -> exists e, faults1 cs e /\ scope1_new cs sv = Err e)).
Proof.
  intros p d l v lab args cs sv.
  assert (S1 : forall c, sound1 [c] <-> validate_chunk1 c = Ok tt).
  { intros c. rewrite sound1_iff. cbn [iterM]. destruct (validate_chunk1 c) as [[]|e| |]; cbn [bind]; split; congruence. }
  assert (T1 : forall c, validate_chunk1 c = Ok tt \/ exists e, validate_chunk1 c = Err e).
  { intros [l0 v0]. apply validate_variant1_total. }
  split; [|split; [|split]]; cbn zeta.
  - intros B. apply new_spec; [symmetry; now apply validate1_iff|intros e; symmetry; now apply validate1_err_iff|now apply validate1_total].
  - apply new_spec; [apply S1|intros e; symmetry; apply fault1_iff|apply T1].
  - apply new_spec; [apply (S1 (mkChunk1 l (Command1 (mkCommand1 lab args))))|intros e; symmetry; apply (fault1_iff (mkChunk1 l (Command1 (mkCommand1 lab args))))|apply (T1 (mkChunk1 l (Command1 (mkCommand1 lab args))))].
  - apply new_spec; [apply sound1_iff| |apply (T1 (mkChunk1 l (Scope1 (mkScope1 cs sv))))].
    intros e. symmetry. apply faults1_iff, Forall_forall. intros c _. apply fault1_iff.
Qed.
Print Assumptions C49_stage1.
Theorem C49_stage2 : forall p d l v lab args cs sv pb pe,
  (1 + count_newlines (show2 d) < two32 ->
   (well_formed2 d -> document2_new p d = Ok d) /\ (~ well_formed2 d -> exists e, doc_fault2 d e /\ document2_new p d = Err e)) /\
  (let x := mkChunk2 l v in
   (sound2 [x] -> chunk2_new l v = Ok x) /\ (~ sound2 [x] -> exists e, fault2 x e /\ chunk2_new l v = Err e)) /\
  (let x := mkCommand2 lab args in
   (sound2 [mkChunk2 l (Command2 x)] -> command2_new lab args = Ok x) /\
   (~ sound2 [mkChunk2 l (Command2 x)] -> exists e, fault2 (mkChunk2 l (Command2 x)) e /\ command2_new lab args = Err e)) /\
  (let x := mkScope2 cs sv in
   (sound2 cs -> scope2_new cs sv = Ok x) /\ (~ sound2 cs -> exists e, faults2 cs e /\ scope2_new cs sv = Err e)) /\
  (let x := mkEnv2 lab args cs pb pe in
   (sound2 [mkChunk2 l (Environment2 x)] -> env2_new lab args cs pb pe = Ok x) /\
   (~ sound2 [mkChunk2 l (Environment2 x)] -> exists e, fault2 (mkChunk2 l (Environment2 x)) e /\ env2_new lab args cs pb pe = Err e)).
Proof.
  intros p d l v lab args cs sv pb pe.
  assert (S1 : forall c, sound2 [c] <-> validate_chunk2 c = Ok tt).
  { intros c. rewrite sound2_iff. cbn [iterM]. destruct (validate_chunk2 c) as [[]|e| |]; cbn [bind]; split; congruence. }
  split; [|split; [|split; [|split]]]; cbn zeta.
  - intros B. apply new_spec; [symmetry; now apply validate2_iff|intros e; symmetry; now apply validate2_err_iff|now apply validate2_total].
  - apply new_spec; [apply S1|intros e; symmetry; apply fault2_iff|apply validate_chunk2_total].
  - apply new_spec; [apply (S1 (mkChunk2 l (Command2 (mkCommand2 lab args))))|intros e; symmetry; apply (fault2_iff (mkChunk2 l (Command2 (mkCommand2 lab args))))|apply (validate_chunk2_total (mkChunk2 l (Command2 (mkCommand2 lab args))))].
  - apply new_spec; [apply sound2_iff| |apply (validate_chunk2_total (mkChunk2 l (Scope2 (mkScope2 cs sv))))].
    intros e. symmetry. apply faults2_iff, Forall_forall. intros c _. apply fault2_iff.
  - apply new_spec; [apply (S1 (mkChunk2 l (Environment2 (mkEnv2 lab args cs pb pe))))|intros e; symmetry; apply (fault2_iff (mkChunk2 l (Environment2 (mkEnv2 lab args cs pb pe))))|apply (validate_chunk2_total (mkChunk2 l (Environment2 (mkEnv2 lab args cs pb pe))))].
Qed.
Print Assumptions C49_stage2.
Theorem C49_stage3 : forall p l v lab args cs sv pb pe mv mt,
  (let x := mkChunk3 l v in count_newlines (show_chunk3 x) < two32 ->
   (sound3 [x] -> chunk3_new p l v = Ok x) /\ (~ sound3 [x] -> exists e, fault3 x e /\ chunk3_new p l v = Err e)) /\
  (let x := mkCommand3 lab args in count_newlines (show_command3 x) < two32 ->
   (sound3 [mkChunk3 l (Command3 x)] -> command3_new p lab args = Ok x) /\
   (~ sound3 [mkChunk3 l (Command3 x)] -> exists e, fault3 (mkChunk3 l (Command3 x)) e /\ command3_new p lab args = Err e)) /\
  (let x := mkScope3 cs sv in count_newlines (show_chunks3 cs) < two32 ->
   (sound3 cs -> scope3_new p cs sv = Ok x) /\ (~ sound3 cs -> exists e, faults3 cs e /\ scope3_new p cs sv = Err e)) /\
  (let x := mkEnv3 lab args cs pb pe in count_newlines (show_env3 x) < two32 ->
   (sound3 [mkChunk3 l (Environment3 x)] -> env3_new p lab args cs pb pe = Ok x) /\
   (~ sound3 [mkChunk3 l (Environment3 x)] -> exists e, fault3 (mkChunk3 l (Environment3 x)) e /\ env3_new p lab args cs pb pe = Err e)) /\
  (let x := mkMaths3 mv mt cs in count_newlines (show_chunks3 cs) < two32 ->
   (sound3 cs -> maths3_new p mv mt cs = Ok x) /\ (~ sound3 cs -> exists e, faults3 cs e /\ maths3_new p mv mt cs = Err e)).
Proof.
  intros p l v lab args cs sv pb pe mv mt.
  assert (S1 : forall c, count_newlines (show_chunk3 c) < two32 -> (sound3 [c] <-> validate_chunk3 p c = Ok tt)).
  { intros c B. rewrite (sound3_iff p) by (now rewrite show_chunks3_one).
    cbn [iterM]. destruct (validate_chunk3 p c) as [[]|e| |]; cbn [bind]; split; congruence. }
  assert (F : Forall (agree3 p) cs) by (apply Forall_forall; intros c _; apply fault3_iff).
  split; [|split; [|split; [|split]]]; cbn zeta; intros B.
  - apply new_spec; [now apply S1|intros e; symmetry; now apply fault3_iff|now apply validate_chunk3_total].
  - apply new_spec; [now apply (S1 (mkChunk3 l (Command3 (mkCommand3 lab args))))|intros e; symmetry; now apply (fault3_iff p (mkChunk3 l (Command3 (mkCommand3 lab args))))|now apply (validate_chunk3_total p (mkChunk3 l (Command3 (mkCommand3 lab args))))].
  - apply new_spec; [now apply sound3_iff|intros e; symmetry; now apply faults3_iff|].
    apply (validate_chunk3_total p (mkChunk3 l (Scope3 (mkScope3 cs sv)))). cbn [show_chunk3 show_variant3]. now rewrite nl_scope3.
  - apply new_spec; [now apply (S1 (mkChunk3 l (Environment3 (mkEnv3 lab args cs pb pe))))|intros e; symmetry; now apply (fault3_iff p (mkChunk3 l (Environment3 (mkEnv3 lab args cs pb pe))))|now apply (validate_chunk3_total p (mkChunk3 l (Environment3 (mkEnv3 lab args cs pb pe))))].
  - apply new_spec; [now apply sound3_iff|intros e; symmetry; now apply faults3_iff|].
    assert (T : validate_chunk3 p (mkChunk3 l (Scope3 (mkScope3 cs sv))) = Ok tt \/ exists e, validate_chunk3 p (mkChunk3 l (Scope3 (mkScope3 cs sv))) = Err e).
    { apply validate_chunk3_total. cbn [show_chunk3 show_variant3]. now rewrite nl_scope3. }
    exact T.
Qed.
Print Assumptions C49_stage3.
(** a stage-3 document: every argument ends up in its own field *)
Theorem C49_document3 : forall p pre class opts body args bp ep post d,
  d_class d = class -> d_options d = opts -> d_preamable d = pre -> d_body d = body -> d_body_args d = args ->
  d_begin_prec d = bp -> d_end_prec d = ep -> d_trailing d = post ->
  1 + count_newlines (show_chunks3 pre) < two32 -> 1 + count_newlines (show_chunks3 body) < two32 ->
  1 + count_newlines (show_chunks3 post) < two32 ->
  document3_new_unchecked pre class opts body args bp ep post = d /\
  document3_decompose d = (class, opts, pre, body, args, bp, ep, post) /\
  (well_formed3 d -> document3_make p pre class opts body args bp ep post = Ok d) /\
  (~ well_formed3 d -> exists e, doc_fault3 d e /\ document3_make p pre class opts body args bp ep post = Err e).
Proof.
  intros p pre class opts body args bp ep post d <- <- <- <- <- <- <- <- B1 B2 B3.
  split; [now destruct d|]. split; [reflexivity|].
  replace (document3_make p _ _ _ _ _ _ _ _) with (document3_new p d) by (destruct d; reflexivity).
  apply new_spec; [symmetry; now apply validate3_iff|intros e; symmetry; now apply validate3_err_iff|].
  unfold validate3. destruct (validate_from3_total p (d_preamable d) 1) as [->|[e ->]]; [lia|lia| |cbn [bind]; eauto].
  cbn [bind]. destruct (validate_from3_total p (d_body d) 1) as [->|[e ->]]; [lia|lia| |cbn [bind]; eauto].
  cbn [bind]. apply validate_from3_total; lia.
Qed.
Print Assumptions C49_document3.
Example C49_example :
  env2_new (S! "e") [] [mkChunk2 1 (Text2 (S! "x"))] [] [c_newline]
    = Ok (mkEnv2 (S! "e") [] [mkChunk2 1 (Text2 (S! "x"))] [] [c_newline]) /\
  env2_new (S! "e") [] [mkChunk2 1 (Text2 (S! "x\")) ] [] [c_newline] = Err (UnsanitisedCharInString (c_bslash)).
Proof. split; vm_compute; reflexivity. Qed.

(** ** C51: the unchecked pushes: same effect as the checked ones, on any document and with any chunk *)
Theorem C51_unchecked1 : forall p d v c L,
  joined1 d c (push_chunk_unchecked1 d c) /\
  (ends_at1 d L -> L + 1 < two32 ->
   exists d', @push_unchecked1 internal_error p d v = Ok d' /\ joined1 d (mkChunk1 L v) d').
Proof.
  intros p d v c L. split; [apply joined1_push|]. intros H B. unfold push_unchecked1. rewrite (end_line1_ends p d L H B).
  eexists. split; [reflexivity|apply joined1_push].
Qed.
Print Assumptions C51_unchecked1.
Theorem C51_unchecked2 : forall p d v c L,
  joined2 d c (push_chunk_unchecked2 d c) /\
  (ends_at2 d L -> L + 1 < two32 ->
   exists d', @push_unchecked2 internal_error p d v = Ok d' /\ joined2 d (mkChunk2 L v) d').
Proof.
  intros p d v c L. split; [apply joined2_push|]. intros H B. unfold push_unchecked2. rewrite (end_line2_ends p d L H B).
  eexists. split; [reflexivity|apply joined2_push].
Qed.
Print Assumptions C51_unchecked2.
(** only the chosen section of a stage-3 document changes *)
Definition same_but (s : section) (d d' : document3) : Prop :=
  (forall s', s' <> s -> get_section s' d' = get_section s' d) /\
  d_class d' = d_class d /\ d_options d' = d_options d /\ d_body_args d' = d_body_args d /\
  d_begin_prec d' = d_begin_prec d /\ d_end_prec d' = d_end_prec d.
Lemma set_same_but s d cs : same_but s d (set_section s d cs).
Proof. split; [|now destruct s]. intros s' H. now destruct s, s'. Qed.
Theorem C51_unchecked3 : forall p s d v c L,
  (let d' := push_chunk_unchecked3 s d c in joined3 (get_section s d) c (get_section s d') /\ same_but s d d') /\
  (ends_at3 (get_section s d) L -> L + 1 < two32 ->
   exists d', @push_unchecked3 internal_error p s d v = Ok d' /\
     joined3 (get_section s d) (mkChunk3 L v) (get_section s d') /\ same_but s d d').
Proof.
  intros p s d v c L. unfold push_chunk_unchecked3, push_unchecked3. cbn zeta. split.
  - rewrite get_set_same. split; [apply joined3_push|apply set_same_but].
  - intros H B. unfold push_vec_unchecked. rewrite (end_line3_ends p _ L H B). cbn [bind].
    eexists. split; [reflexivity|]. rewrite get_set_same. split; [apply joined3_push|apply set_same_but].
Qed.
Print Assumptions C51_unchecked3.
Example C51_example : exists d, @push_unchecked3 internal_error Debug Body document3_default (Text3 (S! "{")) = Ok d /\
  d_body d = [mkChunk3 1 (Text3 (S! "{"))].
Proof. eexists. split; reflexivity. Qed.
