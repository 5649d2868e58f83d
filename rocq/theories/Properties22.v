(** * Properties22: which parsed and converted documents are valid (C68)

    Only statements, short proofs from lemmas, assumptions and non-vacuity examples.
    Validity is as in SpecDoc1-3: [lines_add_up2] says that each top-level chunk carries the line its first character has
    in the Display, [clean2] that no text, label or environment label of the document contains [\ { } [ ] ( )] where it may not. *)
From Verif Require Import Base Ast1 Parse1 Ast2 Ast3 SpecDoc1 SpecDoc2 SpecDoc3 SpecMaths3 SpecReads SpecClass3 SpecRead3 SpecWrap Lines Valid3 Mono Keep2 Keep3 ReadsW KeepW.

(** ** Stage 2. A parsed document is valid exactly when its line numbers add up and it contains no stray closing bracket:
    everything else that [validate] looks for, parsing never produces. *)
Theorem C68_stage2 : forall p q s d2, source_fits s -> from_str2 p s = Ok d2 ->
  (validate2 q d2 = Ok tt <->
   lines_add_up2 d2 /\
   (forall cs l t, within2 d2 cs -> In (mkChunk2 l (Text2 t)) cs -> existsb is_closing t = false) /\
   (forall cs l lab args body pb pe, within2 d2 cs ->
      In (mkChunk2 l (Environment2 (mkEnv2 lab args body pb pe))) cs -> existsb special lab = false)).
Proof. exact parsed_validate2. Qed.
Print Assumptions C68_stage2.
Example C68_stage2_example : let s := S! "\a{b}" ++ [10] ++ S! "\begin{x}[o]y" ++ [10] ++ S! "\end{x}z" in
  source_fits s /\ exists d2, from_str2 Debug s = Ok d2 /\ validate2 Debug d2 = Ok tt /\ length d2 = 4%nat.
Proof. cbv zeta. split; [vm_compute; reflexivity|]. eexists. split; [vm_compute; reflexivity|]. split; vm_compute; reflexivity. Qed.

(** Converting a valid stage-1 document gives a valid stage-2 document, exactly when each top-level [\begin], from its
    backslash to its last argument, is written on one line and no environment is named with a special character. *)
Theorem C68_convert2 : forall p q d d2, 1 + count_newlines (show1 d) < two32 ->
  validate1 p d = Ok tt -> try_from2 p d = Ok d2 ->
  (validate2 q d2 = Ok tt <->
   (forall l lab args body pb pe, In (mkChunk2 l (Environment2 (mkEnv2 lab args body pb pe))) d2 ->
      count_newlines (pb ++ lab ++ show_args2 args) = 0) /\
   (forall cs l lab args body pb pe, within2 d2 cs ->
      In (mkChunk2 l (Environment2 (mkEnv2 lab args body pb pe))) cs -> existsb special lab = false)).
Proof. exact valid_validate2. Qed.
Print Assumptions C68_convert2.
(** neither condition can be dropped: a [\begin] over two lines, ... *)
Theorem C68_begin_refuted : exists d d2, validate1 Debug d = Ok tt /\ try_from2 Debug d = Ok d2 /\ validate2 Debug d2 <> Ok tt /\
  show1 d = S! "\begin{a}" ++ [10] ++ S! "[b]\end{a}".
Proof.
  let x := eval vm_compute in (from_str1 Debug (S! "\begin{a}" ++ [10] ++ S! "[b]\end{a}")) in match x with Ok ?d => exists d end.
  let x := eval vm_compute in (from_str2 Debug (S! "\begin{a}" ++ [10] ++ S! "[b]\end{a}")) in match x with Ok ?d => exists d end.
  split; [vm_compute; reflexivity|]. split; [vm_compute; reflexivity|]. split; [vm_compute; discriminate|vm_compute; reflexivity].
Qed.
Print Assumptions C68_begin_refuted.
(** ... and an environment named by a command *)
Theorem C68_name_refuted : exists d d2, validate1 Debug d = Ok tt /\ try_from2 Debug d = Ok d2 /\ validate2 Debug d2 <> Ok tt /\
  show1 d = S! "\begin{\a}\end{\a}".
Proof.
  let x := eval vm_compute in (from_str1 Debug (S! "\begin{\a}\end{\a}")) in match x with Ok ?d => exists d end.
  let x := eval vm_compute in (from_str2 Debug (S! "\begin{\a}\end{\a}")) in match x with Ok ?d => exists d end.
  split; [vm_compute; reflexivity|]. split; [vm_compute; reflexivity|]. split; [vm_compute; discriminate|vm_compute; reflexivity].
Qed.
Print Assumptions C68_name_refuted.

(** ** Stage 3. As at stage 2, section by section. *)
Theorem C68_stage3 : forall p q s d3, source_fits s -> count_newlines s < 2147483648 -> from_str3 p s = Ok d3 ->
  (validate3 q d3 = Ok tt <->
   (forall sec, lines_add_up3 (get_section sec d3)) /\
   (forall sec cs l t, within3 (get_section sec d3) cs -> In (mkChunk3 l (Text3 t)) cs -> existsb is_closing t = false) /\
   (forall sec cs l lab args body pb pe, within3 (get_section sec d3) cs ->
      In (mkChunk3 l (Environment3 (mkEnv3 lab args body pb pe))) cs -> existsb special lab = false)).
Proof.
  intros p q s d3 B Bn H. apply (wparsed_validate3 q s d3 B Bn). destruct p; [|exact H].
  destruct (from_str3_leq true Debug Release dr s) as [K|K]; congruence.
Qed.
Print Assumptions C68_stage3.
(** Converting a document without stray special characters: nothing but the line numbers can make the result invalid. *)
Theorem C68_convert3 : forall q d d3, in_range d -> count_newlines (show2 d) < 2147483648 -> N.of_nat (length (show2 d)) + 1 < two32 ->
  (forall cs, within2 d cs -> Forall clean2 cs) -> try_from3 Debug d = Ok d3 ->
  (validate3 q d3 = Ok tt <-> forall sec, lines_add_up3 (get_section sec d3)).
Proof. exact valid_validate3. Qed.
Theorem C68_convert3_release : forall q d d3, in_range d -> u32_lines d -> count_newlines (show2 d) < 2147483648 -> N.of_nat (length (show2 d)) + 1 < two32 ->
  (forall cs, within2 d cs -> Forall clean2 cs) -> try_from3 Release d = Ok d3 ->
  (validate3 q d3 = Ok tt <-> forall sec, lines_add_up3 (get_section sec d3)).
Proof. exact (fun q d d3 R U => wvalid_validate3 q d d3 (conj R U)). Qed.
Print Assumptions C68_convert3.
Print Assumptions C68_convert3_release.
(** The section after the document is numbered from the start of the file but validated as if it started on line 1: when
    it is not empty, a parsed document is valid only if everything up to the end of the document is on one line. *)
Theorem C68_trailing : forall p q s pre c post d3, source_fits s -> count_newlines s < 2147483648 ->
  from_str2 p s = Ok (pre ++ c :: post) -> is_document c -> Forall (fun c => ~ is_document c) pre ->
  from_str3 p s = Ok d3 -> d_trailing d3 <> [] -> validate3 q d3 = Ok tt ->
  count_newlines (show2 (pre ++ [c])) = 0.
Proof.
  intros p q s pre c post d3 B Bn E2 Hc Fp E3. destruct p; [|exact (wtrailing_line q s pre c post d3 B Bn E2 Hc Fp E3)].
  exact (trailing_line q s pre c post d3 B Bn E2 Hc Fp E3).
Qed.
Print Assumptions C68_trailing.
(** so a file like any other is parsed to an invalid document *)
Theorem C68_final_newline_refuted :
  let s := S! "\begin{document}" ++ [10] ++ S! "a" ++ [10] ++ S! "\end{document}" ++ [10] in
  exists d3, from_str3 Debug s = Ok d3 /\ validate3 Debug d3 = Err (IncorrectChunkLineNumber 1 4).
Proof. cbv zeta. eexists. split; [vm_compute; reflexivity|vm_compute; reflexivity]. Qed.
Print Assumptions C68_final_newline_refuted.
(** but not every one *)
Example C68_stage3_example : let s := S! "\documentclass[a=b]{c}\begin{document}" ++ [10] ++ S! "a$b$" ++ [10] ++ S! "\end{document}" in
  source_fits s /\ exists d3, from_str3 Debug s = Ok d3 /\ validate3 Debug d3 = Ok tt /\ length (d_body d3) = 3%nat.
Proof. cbv zeta. split; [vm_compute; reflexivity|]. eexists. split; [vm_compute; reflexivity|]. split; vm_compute; reflexivity. Qed.
(** a source that only a build without overflow checks reads, and whose document is valid: line numbers inside maths are not checked *)
Example C68_release_example : let s := S! "\begin{document}$\alpha x" ++ [10] ++ S! "y" ++ [10] ++ S! "w\beta z$\end{document}" in
  source_fits s /\ exists d3, from_str3 Debug s = Panic /\ from_str3 Release s = Ok d3 /\ validate3 Debug d3 = Ok tt.
Proof. cbv zeta. split; [vm_compute; reflexivity|]. eexists. split; [vm_compute; reflexivity|]. split; [vm_compute; reflexivity|]. vm_compute; reflexivity. Qed.
