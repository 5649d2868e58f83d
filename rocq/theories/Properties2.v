(** * Properties2: the property theorems about stage 2 (src/ast2)

    Only statements, one-line proofs, assumptions and non-vacuity examples. *)
From Verif Require Import Base Ast1 Parse1 Ast2 Ast3 Spec1 SpecDoc1 SpecDoc2 SpecDoc3 ModelTests1 Tok Pure1 Refine1 Gram1 Ind Lines
  Facts1 Valid1 Valid2 Valid3 Rules Spec2 Eqb Conv2 Fail2 Facts2 Good2 Env2.

(** ** C11 (stage 2): lines() counts the newlines of Display *)
Theorem C11_lines_chunk2 : forall p c, 1 + count_newlines (show_chunk2 c) < two32 ->
  @lines_chunk2 error p c = Ok (1 + count_newlines (show_chunk2 c)).
Proof. exact (@lines_ok2 error). Qed.
Print Assumptions C11_lines_chunk2.
Theorem C11_lines_scope2 : forall p c, 1 + count_newlines (show_scope2 c) < two32 ->
  @lines_scope2 error p c = Ok (1 + count_newlines (show_scope2 c)).
Proof. exact (@lines_scope2_correct error). Qed.
Print Assumptions C11_lines_scope2.
Theorem C11_lines_command2 : forall p c, 1 + count_newlines (show_command2 c) < two32 ->
  @lines_command2 error p c = Ok (1 + count_newlines (show_command2 c)).
Proof. exact (@lines_command2_correct error). Qed.
Print Assumptions C11_lines_command2.
Theorem C11_lines_env2 : forall p c, 1 + count_newlines (show_env2 c) < two32 ->
  @lines_env2 error p c = Ok (1 + count_newlines (show_env2 c)).
Proof. exact (@lines_env2_correct error). Qed.
Print Assumptions C11_lines_env2.
Theorem C11_lines_document2 : forall p d, 1 + count_newlines (show2 d) < two32 ->
  @lines2 error p d = Ok (1 + count_newlines (show2 d)).
Proof. exact (@lines2_correct error). Qed.
Print Assumptions C11_lines_document2.
Example C11_example2 : exists d, from_str2 Debug (lines_of ["\begin{a}[x"; "]b"; "\end"; "{a}"]%string) = Ok d /\
  @lines2 error Debug d = Ok 4.
Proof. eexists. split; [vm_compute; reflexivity|vm_compute; reflexivity]. Qed.

(** ** C12 (stage 2): pushing appends to Display *)
Theorem C12_push2 : forall p d v d', push2 p d v = Ok d' -> show2 d' = show2 d ++ show_variant2 v.
Proof. exact push2_show. Qed.
Print Assumptions C12_push2.
Theorem C12_push_chunk2 : forall p d c d', push_chunk2 p d c = Ok d' -> show2 d' = show2 d ++ show_chunk2 c.
Proof. exact push_chunk2_show. Qed.
Print Assumptions C12_push_chunk2.

(** ** C13 (stage 2): any history of pushes keeps a valid document valid *)
Theorem C13_history2 : forall p d ops, well_formed2 d ->
  2 + count_newlines (show2 d) + count_newlines (concat (map op_text2 ops)) < two32 ->
  exists d', run_ops2 p d ops = Ok d' /\ validate2 p d' = Ok tt.
Proof. exact run_ops2_valid. Qed.
Print Assumptions C13_history2.
Example C13_example2 : well_formed2 [] /\ run_ops2 Debug []
   [OpPush2 (Text2 [97; c_newline]); OpPush2 (Command2 (mkCommand2 (S! "begin") []));
    OpPushChunk2 (mkChunk2 2 (Environment2 (mkEnv2 (S! "x") [] [mkChunk2 1 (Text2 (S! "b"))] [] [])))]
   = Ok [mkChunk2 1 (Text2 [97; c_newline]);
         mkChunk2 2 (Environment2 (mkEnv2 (S! "x") [] [mkChunk2 1 (Text2 (S! "b"))] [] []))].
Proof. split; [|reflexivity]. apply (validate2_iff Debug []); reflexivity. Qed.

(** ** C14 (stage 2): the exact result of push_chunk and push *)
Theorem C14_push_chunk2_any : forall p d c L, ends_at2 d L -> L + 1 < two32 ->
  (forall e, validate_chunk2 c = Err e -> push_chunk2 p d c = Err e) /\
  (validate_chunk2 c = Ok tt -> line_no2 c <> L ->
     push_chunk2 p d c = Err (IncorrectChunkLineNumber L (line_no2 c))) /\
  (validate_chunk2 c = Ok tt -> line_no2 c = L ->
     exists d', push_chunk2 p d c = Ok d' /\ joined2 d c d').
Proof. exact push_chunk2_any. Qed.
Print Assumptions C14_push_chunk2_any.
Theorem C14_push2_any : forall p d v L, ends_at2 d L -> L + 1 < two32 ->
  (forall e, validate_variant2 v = Err e -> push2 p d v = Err e) /\
  (validate_variant2 v = Ok tt -> exists d', push2 p d v = Ok d' /\ joined2 d (mkChunk2 L v) d').
Proof. exact push2_any. Qed.
Print Assumptions C14_push2_any.
(** a valid document ends on the last line of its Display *)
Theorem C14_ends_at2 : forall d, well_formed2 d -> ends_at2 d (1 + count_newlines (show2 d)).
Proof. exact wf_ends_at2. Qed.
Print Assumptions C14_ends_at2.
Example C14_example2 : ends_at2 [mkChunk2 7 (Text2 [97; c_newline])] 8.
Proof. right. exists [], (mkChunk2 7 (Text2 [97; c_newline])). split; reflexivity. Qed.

(** ** C15 (stage 2): validate decides well-formedness *)
Theorem C15_validate2 : forall p d, 1 + count_newlines (show2 d) < two32 ->
  (validate2 p d = Ok tt <-> well_formed2 d).
Proof. exact validate2_iff. Qed.
Print Assumptions C15_validate2.
Example C15_example2 : validate2 Debug
  [mkChunk2 1 (Text2 [97; c_newline]); mkChunk2 2 (Command2 (mkCommand2 (S! "%") [([], mkScope2 [] Square2)]))] = Ok tt.
Proof. reflexivity. Qed.

(** ** C16: the conversion to stage 2 preserves Display *)
Theorem C16_display : forall p d d2, try_from2 p d = Ok d2 -> show2 d2 = show1 d.
Proof. exact try_from2_show. Qed.
Print Assumptions C16_display.
Example C16_example : exists d d2, from_str1 Debug (S! "\x[\begin {a}(b)c{d}\end{a}]") = Ok d /\ try_from2 Debug d = Ok d2.
Proof. eexists. eexists. split; [vm_compute; reflexivity|vm_compute; reflexivity]. Qed.

(** ** C17: exactly the well-nested documents are accepted *)
Theorem C17_accepts : forall p d, parsed d -> ((exists d2, try_from2 p d = Ok d2) <-> well_nested d).
Proof. exact try_from2_parsed_iff. Qed.
Print Assumptions C17_accepts.
(** for documents built by hand, with any line numbers: without overflow checks the same,
    with overflow checks only well-nested documents are accepted *)
Theorem C17_accepts_any_release : forall d, (exists d2, try_from2 Release d = Ok d2) <-> well_nested d.
Proof. exact try_from2_release_iff. Qed.
Print Assumptions C17_accepts_any_release.
Theorem C17_accepts_any : forall p d d2, try_from2 p d = Ok d2 -> well_nested d.
Proof. exact try_from2_well_nested. Qed.
Print Assumptions C17_accepts_any.
(** nesting is bracket matching at every level: nothing stays open, and what is inside
    scopes and arguments is well nested *)
Theorem C17_nesting_is_matching : forall d, inside_ok d -> (well_nested d <-> opens [] d).
Proof. exact (fun d H => conj (well_nested_opens d) (fun O => opens_well_nested d O H)). Qed.
Print Assumptions C17_nesting_is_matching.
Example C17_example : exists d d', from_str1 Debug (S! "\begin{a}\begin{b}\end{b}x{\begin{a}\end{a}}\end{a}") = Ok d /\
  (exists d2, try_from2 Debug d = Ok d2) /\
  from_str1 Debug (S! "\begin{a}\begin{b}\end{a}\end{b}") = Ok d' /\ (exists e, try_from2 Debug d' = Err e).
Proof.
  eexists. eexists. split; [vm_compute; reflexivity|]. split; [eexists; vm_compute; reflexivity|].
  split; [vm_compute; reflexivity|]. eexists. vm_compute. reflexivity.
Qed.

(** ** C18: no begin or end command is left *)
Theorem C18_no_begin_end : forall p d d2, try_from2 p d = Ok d2 ->
  forall cs l lab args, within2 d2 cs -> In (mkChunk2 l (Command2 (mkCommand2 lab args))) cs ->
  lab <> S! "begin" /\ lab <> S! "end".
Proof. exact try_from2_no_be. Qed.
Print Assumptions C18_no_begin_end.

(** ** C19: parsing to stage 2 always returns, in both profiles with the same result *)
Theorem C19_parse_total : forall p s, source_fits s ->
  (exists d, from_str2 p s = Ok d) \/ (exists e, from_str2 p s = Err e).
Proof. exact from_str2_total. Qed.
Print Assumptions C19_parse_total.
Theorem C19_profiles_agree : forall s, source_fits s -> from_str2 Debug s = from_str2 Release s.
Proof. exact from_str2_profiles. Qed.
Print Assumptions C19_profiles_agree.
(** the restriction to parsed documents is needed with overflow checks *)
Theorem C19_hand_built_refuted : exists d, try_from2 Debug d = Panic.
Proof.
  exists [mkChunk1 5 (Command1 (mkCommand1 (S! "begin") [([], mkScope1 [] Curly1)])); mkChunk1 1 (Text1 (S! "a"))].
  vm_compute. reflexivity.
Qed.
Print Assumptions C19_hand_built_refuted.

(** ** C22: line counts *)
Theorem C22_line_count : forall p s d2, source_fits s -> from_str2 p s = Ok d2 ->
  @lines2 error p d2 = Ok (1 + count_newlines s).
Proof. exact (@from_str2_lines error). Qed.
Print Assumptions C22_line_count.
Example C22_example : exists d2, from_str2 Debug (lines_of ["\begin{a}["; "]%"; "\x{"; "}\end"; "{a}"]%string) = Ok d2 /\
  @lines2 error Debug d2 = Ok 5.
Proof. eexists. split; [vm_compute; reflexivity|vm_compute; reflexivity]. Qed.

(** ** C23: line numbers of environments: refuted; the exact line instead *)
Theorem C23_env_line_refuted : exists s l e, from_str2 Debug s = Ok [mkChunk2 l (Environment2 e)] /\ l <> 1.
Proof.
  exists (lines_of ["\begin{a}["; "]\end{a}"]%string). eexists. eexists.
  split; [vm_compute; reflexivity|vm_compute; discriminate].
Qed.
Print Assumptions C23_env_line_refuted.
(** at every depth: the line of \begin plus the newlines before the end of its last argument *)
Theorem C23_env_line_partial : forall p s d2, source_fits s -> from_str2 p s = Ok d2 ->
  forall cs, within2 d2 cs -> forall pre l lab args body pb pe post,
  cs = pre ++ mkChunk2 l (Environment2 (mkEnv2 lab args body pb pe)) :: post ->
  l = 1 + count_newlines (show2 pre) + count_newlines (pb ++ lab ++ show_args2 args).
Proof. exact env_line2. Qed.
Print Assumptions C23_env_line_partial.
(** every chunk's line is one of the lines its Display covers *)
Theorem C23_chunk_line_partial : forall p s d2, source_fits s -> from_str2 p s = Ok d2 ->
  forall cs, within2 d2 cs -> forall pre c post, cs = pre ++ c :: post ->
  1 + count_newlines (show2 pre) <= line_no2 c <= 1 + count_newlines (show2 (pre ++ [c])).
Proof. exact other_line2. Qed.
Print Assumptions C23_chunk_line_partial.
Example C23_example : exists d2 pre l e post,
  from_str2 Debug (lines_of ["a"; "\begin{a}"; "b"; "\begin{c}\end{c}"; "\end{a}"]%string) = Ok d2 /\
  d2 = pre ++ mkChunk2 l (Environment2 e) :: post /\ l = 2.
Proof. eexists. exists [mkChunk2 1 (Text2 [97; c_newline])]. eexists. eexists. eexists. split; [vm_compute; reflexivity|]. split; reflexivity. Qed.

(** ** C24: error lines: refuted; the exact errors instead *)
Theorem C24_error_line_refuted : exists s e, from_str2 Debug s = Err e /\ err_line e > 1 + count_newlines s.
Proof. exists (S! "{\end{a}}"). eexists. split; [vm_compute; reflexivity|vm_compute; reflexivity]. Qed.
Print Assumptions C24_error_line_refuted.
(** inside arguments, lines are not counted from the start of the document *)
Theorem C24_error_line_arg_refuted : exists s e, from_str2 Debug s = Err e /\
  s = lines_of ["a"; "b"; "\x[\end{a}]"]%string /\ err_line e = 1.
Proof. eexists. eexists. split; [|split; [reflexivity|]]; [vm_compute; reflexivity|reflexivity]. Qed.
Print Assumptions C24_error_line_arg_refuted.
(** when the fault is not inside a scope or an argument: the error is at a begin or end
    command, on its line; for an unclosed environment, on the line its \begin ends *)
Theorem C24_error_line_partial : forall p d e, parsed d -> inside_ok d -> try_from2 p d = Err e ->
  exists pre c post, d = pre ++ c :: post /\ ~ plain c /\
    (err_line e = 1 + count_newlines (show1 pre) /\
       (err_type e = NoEnvironmentLabel \/ err_type e = TooManyArgsEnd \/ exists lab, err_type e = UnexpectedEnd lab)
     \/ exists lab, err_type e = UnclosedEnvironment lab /\ err_line e = 1 + count_newlines (show1 (pre ++ [c]))).
Proof. exact flat_errors. Qed.
Print Assumptions C24_error_line_partial.
(** in general: exactly the errors described by [rejects] *)
Theorem C24_errors_exact_partial : forall p d e, parsed d -> (try_from2 p d = Err e <-> rejects d e).
Proof. exact try_from2_rejects. Qed.
Print Assumptions C24_errors_exact_partial.
(** for any document, parsed or not: four kinds of errors *)
Theorem C24_error_kinds : forall p d e, try_from2 p d = Err e ->
  err_type e = NoEnvironmentLabel \/ err_type e = TooManyArgsEnd \/
  (exists lab, err_type e = UnexpectedEnd lab) \/ (exists lab, err_type e = UnclosedEnvironment lab).
Proof. exact (fun p d e H => proj1 (fails_kinds p) d e (proj1 (try_from2_err_iff p d e) H)). Qed.
Print Assumptions C24_error_kinds.
Example C24_example : exists d e, from_str1 Debug (lines_of ["a"; "\begin{a}"; "{b}"; "\end{c}"]%string) = Ok d /\
  try_from2 Debug d = Err e /\ err_line e = 4 /\ inside_ok d.
Proof.
  eexists. eexists. split; [vm_compute; reflexivity|]. split; [vm_compute; reflexivity|]. split; [reflexivity|].
  split; intros; repeat (match goal with H : In _ _ |- _ => destruct H as [H|H]; [try discriminate H|]; try now destruct H end).
  all: repeat match goal with H : mkChunk1 _ _ = mkChunk1 _ _ |- _ => injection H; clear H; intros; subst end.
  all: repeat (match goal with H : In _ _ |- _ => destruct H as [H|H]; [injection H; clear H; intros; subst|]; try now destruct H end).
  all: repeat constructor.
Qed.

(** ** C40 (stage 2): the conversion terminates on every document *)
Theorem C40_try_from2_terminates : forall p d, try_from2 p d <> OutOfFuel.
Proof. exact try_from2_total. Qed.
Print Assumptions C40_try_from2_terminates.

(** ** C42: the stage-2 form of a parsed document *)
Theorem C42_conversion : forall p d d2, parsed d -> (try_from2 p d = Ok d2 <-> converts d d2).
Proof. exact try_from2_converts. Qed.
Print Assumptions C42_conversion.
Example C42_example : exists d, parsed d /\ length d = 5%nat.
Proof.
  eexists. split.
  - exists Debug, (S! "\begin{a}b\begin{c}\end{c}\end{a}"). split; [reflexivity|]. vm_compute. reflexivity.
  - reflexivity.
Qed.
