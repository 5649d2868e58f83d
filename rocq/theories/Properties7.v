(** * Properties7: which chunks become maths blocks, and agreement of the build profiles

    Only statements, one-line proofs, assumptions and non-vacuity examples.  Specification:
    SpecMaths3.v. *)
From Verif Require Import Base Ast1 Parse1 Ast2 Ast3 SpecDoc1 SpecDoc2 SpecDoc3 SpecPar3 SpecMaths3 ModelTests1
  Mono MathsRec SpecBracketLine Dollars BracketLine.

(** ** C30: bracket maths *)
Theorem C30_block : forall p t pre l args body l' args' post o co o2,
  (forall l v, In (mkChunk2 l v) body -> ~ has_label [opener t] v /\ ~ has_label [closer t] v) ->
  maths_from_chunks p pre = Ok o -> maths_from_chunks p body = Ok co -> maths_from_chunks p post = Ok o2 ->
  maths_from_chunks p (pre ++ mkChunk2 l (Command2 (mkCommand2 [opener t] args)) :: body
                           ++ mkChunk2 l' (Command2 (mkCommand2 [closer t] args')) :: post) =
  Ok (o ++ mkChunk3 l (Maths3 (mkMaths3 Brackets t co)) :: o2).
Proof. exact brackets_block. Qed.
Print Assumptions C30_block.
(** errors inside the body are reported *)
Theorem C30_body_error : forall p t pre l args body l' args' post o,
  (forall l v, In (mkChunk2 l v) body -> ~ has_label [opener t] v /\ ~ has_label [closer t] v) ->
  maths_from_chunks p pre = Ok o -> (forall co, maths_from_chunks p body <> Ok co) ->
  maths_from_chunks p (pre ++ mkChunk2 l (Command2 (mkCommand2 [opener t] args)) :: body
                           ++ mkChunk2 l' (Command2 (mkCommand2 [closer t] args')) :: post) =
  maths_from_chunks p body.
Proof. exact brackets_body_fails. Qed.
Print Assumptions C30_body_error.
Theorem C30_unexpected_end : forall p t pre l args post o, maths_from_chunks p pre = Ok o ->
  maths_from_chunks p (pre ++ mkChunk2 l (Command2 (mkCommand2 [closer t] args)) :: post) =
  Err (mkError l UnexpectedMathsEnd).
Proof. exact stray_closer. Qed.
Print Assumptions C30_unexpected_end.
Theorem C30_unclosed : forall p t pre l args body o, maths_from_chunks p pre = Ok o ->
  (forall l v, In (mkChunk2 l v) body -> ~ has_label [opener t] v /\ ~ has_label [closer t] v) ->
  maths_from_chunks p (pre ++ mkChunk2 l (Command2 (mkCommand2 [opener t] args)) :: body) =
  Err (mkError l UnclosedMaths).
Proof. exact unclosed_simple. Qed.
Print Assumptions C30_unclosed.
(** Nested brackets of the same kind, beyond the claim: they are matched by depth (a u32), and
    their commands are dropped from the content. *)
Theorem C30_nested : forall p t pre l args body kept l' args' co o,
  nesting t 1 body kept 1 -> N.of_nat (length body) + 1 < 4294967296 ->
  maths_from_chunks p pre = Ok o -> maths_from_chunks p kept = Ok co ->
  maths_from_chunks p (pre ++ mkChunk2 l (Command2 (mkCommand2 [opener t] args)) :: body
                           ++ [mkChunk2 l' (Command2 (mkCommand2 [closer t] args'))]) =
  Ok (o ++ [mkChunk3 l (Maths3 (mkMaths3 Brackets t co))]).
Proof. exact brackets_nested. Qed.
Print Assumptions C30_nested.
Theorem C30_nested_unclosed : forall p t pre l args body kept d o, maths_from_chunks p pre = Ok o ->
  nesting t 1 body kept d -> N.of_nat (length body) + 1 < 4294967296 ->
  maths_from_chunks p (pre ++ mkChunk2 l (Command2 (mkCommand2 [opener t] args)) :: body) =
  Err (mkError l UnclosedMaths).
Proof. exact unclosed_brackets. Qed.
Print Assumptions C30_nested_unclosed.
Example C30_example : exists pre body post o co o2,
  (forall l v, In (mkChunk2 l v) body -> ~ has_label [opener Inline] v /\ ~ has_label [closer Inline] v) /\
  maths_from_chunks Debug pre = Ok o /\ maths_from_chunks Debug body = Ok co /\ maths_from_chunks Debug post = Ok o2 /\
  (2 <= length o /\ 3 <= length co /\ 2 <= length o2)%nat.
Proof.
  exists [mkChunk2 1 (Text2 (S! "a$b$"))],
    [mkChunk2 2 (Text2 (S! "x")); mkChunk2 2 (Command2 (mkCommand2 [c_lsquare] [])); mkChunk2 2 (Text2 (S! "y"));
     mkChunk2 2 (Command2 (mkCommand2 [c_rsquare] [])); mkChunk2 2 (Command2 (mkCommand2 (S! "alpha") []))],
    [mkChunk2 3 (Text2 (S! "z")); mkChunk2 3 (Scope2 (mkScope2 [] Curly2))].
  do 3 eexists. split; [|split; [vm_compute; reflexivity|split; [vm_compute; reflexivity|split; [vm_compute; reflexivity|cbn; lia]]]].
  intros l v H. cbn [In] in H. split; intros [args K]; subst v; cbn in H; intuition discriminate.
Qed.

(** ** C44: dollar maths inside one text *)
Theorem C44_inline : forall p pre l t m r post o ot co o2, 1 <= l ->
  ~ In c_dollar t -> ~ In c_dollar m -> m <> [] -> l + count_newlines t + count_newlines m < 4294967296 ->
  maths_from_chunks p pre = Ok o ->
  paragraph_from_chunks p (text_chunk3 l t) = @Ok error _ ot ->
  maths_from_chunks p [mkChunk2 1 (Text2 m)] = Ok co ->
  maths_from_chunks p (mkChunk2 (l + count_newlines t + count_newlines m) (Text2 r) :: post) = Ok o2 ->
  maths_from_chunks p (pre ++ mkChunk2 l (Text2 (t ++ [c_dollar] ++ m ++ [c_dollar] ++ r)) :: post) =
  Ok (o ++ ot ++ mkChunk3 (l + count_newlines t) (Maths3 (mkMaths3 Dollars Inline co)) :: o2).
Proof. exact dollars_inline. Qed.
Print Assumptions C44_inline.
Theorem C44_display : forall p pre l t m r post o ot co o2, 1 <= l ->
  ~ In c_dollar t -> ~ In c_dollar m -> l + count_newlines t + count_newlines m < 4294967296 ->
  maths_from_chunks p pre = Ok o ->
  paragraph_from_chunks p (text_chunk3 l t) = @Ok error _ ot ->
  maths_from_chunks p (match m with [] => [] | _ => [mkChunk2 1 (Text2 m)] end) = Ok co ->
  maths_from_chunks p (mkChunk2 (l + count_newlines t + count_newlines m) (Text2 r) :: post) = Ok o2 ->
  maths_from_chunks p (pre ++ mkChunk2 l (Text2 (t ++ [c_dollar; c_dollar] ++ m ++ [c_dollar; c_dollar] ++ r)) :: post) =
  Ok (o ++ ot ++ mkChunk3 (l + count_newlines t) (Maths3 (mkMaths3 Dollars Outline co)) :: o2).
Proof. exact dollars_display. Qed.
Print Assumptions C44_display.
Theorem C44_no_dollar : forall p l t, ~ In c_dollar t -> l + count_newlines t < 4294967296 ->
  maths_from_chunks p [mkChunk2 l (Text2 t)] = paragraph_from_chunks p (text_chunk3 l t).
Proof. exact dollars_none. Qed.
Print Assumptions C44_no_dollar.
Theorem C44_unclosed : forall p pre l t m o,
  ~ In c_dollar t -> ~ In c_dollar m -> l + count_newlines t + count_newlines m < 4294967296 ->
  maths_from_chunks p pre = Ok o ->
  exists line, maths_from_chunks p (pre ++ [mkChunk2 l (Text2 (t ++ [c_dollar] ++ m))]) = Err (mkError line UnclosedMaths).
Proof. exact dollars_unclosed. Qed.
Print Assumptions C44_unclosed.
(** ... but not always at the line of the dollar: the code reports line 0 *)
Theorem C44_unclosed_line_refuted : exists l m line, 1 <= l /\
  maths_from_chunks Debug [mkChunk2 l (Text2 ([c_dollar] ++ m))] = Err (mkError line UnclosedMaths) /\ line <> l.
Proof. exists 1, (S! "x"), 0. split; [lia|]. split; [vm_compute; reflexivity|lia]. Qed.
Print Assumptions C44_unclosed_line_refuted.
(** ... but at the line of the last bracketed maths block before it in the same list, 0 if there
    is none; for one dollar and for two *)
Theorem C44_unclosed_line_exact_partial : forall p pre l t m o,
  ~ In c_dollar t -> ~ In c_dollar m -> l + count_newlines t + count_newlines m < 4294967296 ->
  maths_from_chunks p pre = Ok o ->
  maths_from_chunks p (pre ++ [mkChunk2 l (Text2 (t ++ [c_dollar] ++ m))]) = Err (mkError (last_bracket_line o) UnclosedMaths) /\
  maths_from_chunks p (pre ++ [mkChunk2 l (Text2 (t ++ [c_dollar; c_dollar] ++ m))]) = Err (mkError (last_bracket_line o) UnclosedMaths).
Proof. exact dollars_unclosed_line. Qed.
Print Assumptions C44_unclosed_line_exact_partial.
Example C44_unclosed_line_example : exists o,
  maths_from_chunks Debug [mkChunk2 2 (Command2 (mkCommand2 (S! "[") [])); mkChunk2 3 (Text2 (S! "x")); mkChunk2 4 (Command2 (mkCommand2 (S! "]") []))] = Ok o /\
  last_bracket_line o = 2.
Proof. eexists. split; vm_compute; reflexivity. Qed.
Example C44_example : maths_from_chunks Debug [mkChunk2 1 (Text2 (lines_of ["a"; "$b$c"; "$$d$$"]%string))] =
  Ok [mkChunk3 1 (Text3 (lines_of ["a"; ""]%string)); mkChunk3 2 (Maths3 (mkMaths3 Dollars Inline [mkChunk3 1 (Text3 (S! "b"))]));
      mkChunk3 2 (Text3 (lines_of ["c"; ""]%string)); mkChunk3 3 (Maths3 (mkMaths3 Dollars Outline [mkChunk3 1 (Text3 (S! "d"))]))].
Proof. vm_compute. reflexivity. Qed.

(** ** C45: recognition is compositional *)
Theorem C45_compose : forall p a b oa ob, maths_from_chunks p a = Ok oa -> maths_from_chunks p b = Ok ob ->
  maths_from_chunks p (a ++ b) = Ok (oa ++ ob).
Proof. exact maths_app_ok. Qed.
Print Assumptions C45_compose.
Theorem C45_compose_error : forall p a b oa e, maths_from_chunks p a = Ok oa -> maths_from_chunks p b = Err e ->
  exists e', maths_from_chunks p (a ++ b) = Err e' /\ err_type e' = err_type e.
Proof. exact maths_app_err. Qed.
Print Assumptions C45_compose_error.
Theorem C45_paragraphs_compose : forall p a b, @paragraph_from_chunks error p (a ++ b) =
  let* x := paragraph_from_chunks p a in let* y := paragraph_from_chunks p b in Ok (x ++ y).
Proof. exact par_app. Qed.
Print Assumptions C45_paragraphs_compose.

(** ** C38: an operation that does not panic with overflow checks gives the same result without *)
Theorem C38_from_str : forall s,
  (from_str1 Debug s = Panic \/ from_str1 Debug s = from_str1 Release s) /\
  (from_str2 Debug s = Panic \/ from_str2 Debug s = from_str2 Release s) /\
  (from_str3 Debug s = Panic \/ from_str3 Debug s = from_str3 Release s).
Proof. exact (fun s => conj (from_str1_leq true _ _ dr s) (conj (from_str2_leq true _ _ dr s) (from_str3_leq true _ _ dr s))). Qed.
Print Assumptions C38_from_str.
Theorem C38_try_from : forall d1 d2,
  (try_from2 Debug d1 = Panic \/ try_from2 Debug d1 = try_from2 Release d1) /\
  (try_from3 Debug d2 = Panic \/ try_from3 Debug d2 = try_from3 Release d2) /\
  (maths_from_chunks Debug d2 = Panic \/ maths_from_chunks Debug d2 = maths_from_chunks Release d2).
Proof. exact (fun d1 d2 => conj (try_from2_leq true _ _ dr d1) (conj (try_from3_leq true _ _ dr d2) (maths_leq true _ _ dr d2))). Qed.
Print Assumptions C38_try_from.
Theorem C38_paragraph : forall cs,
  @paragraph_from_chunks error Debug cs = Panic \/ @paragraph_from_chunks error Debug cs = paragraph_from_chunks Release cs.
Proof. exact (fun cs => par_leq true _ _ dr cs). Qed.
Print Assumptions C38_paragraph.
Theorem C38_from : forall d2 d3,
  (@from2_to1 error Debug d2 = Panic \/ @from2_to1 error Debug d2 = from2_to1 Release d2) /\
  (@from3_to2 error Debug d3 = Panic \/ @from3_to2 error Debug d3 = from3_to2 Release d3).
Proof. exact (fun d2 d3 => conj (from2_to1_leq true _ _ dr d2) (from3_to2_leq true _ _ dr d3)). Qed.
Print Assumptions C38_from.
Theorem C38_lines : forall d1 d2 d3,
  (@lines1 error Debug d1 = Panic \/ @lines1 error Debug d1 = lines1 Release d1) /\
  (@lines2 error Debug d2 = Panic \/ @lines2 error Debug d2 = lines2 Release d2) /\
  (@lines3 error Debug d3 = Panic \/ @lines3 error Debug d3 = lines3 Release d3).
Proof. exact (fun d1 d2 d3 => conj (lines1_leq true _ _ dr d1) (conj (lines2_leq true _ _ dr d2) (lines3_leq true _ _ dr d3))). Qed.
Print Assumptions C38_lines.
Theorem C38_validate : forall d1 d2 d3,
  (validate1 Debug d1 = Panic \/ validate1 Debug d1 = validate1 Release d1) /\
  (validate2 Debug d2 = Panic \/ validate2 Debug d2 = validate2 Release d2) /\
  (validate3 Debug d3 = Panic \/ validate3 Debug d3 = validate3 Release d3).
Proof. exact (fun d1 d2 d3 => conj (validate_from1_leq true _ _ dr d1 1) (conj (validate_from2_leq true _ _ dr d2 1) (validate3_leq true _ _ dr d3))). Qed.
Print Assumptions C38_validate.
Theorem C38_push : forall d1 v1 d2 v2 d3 sec v3,
  (push1 Debug d1 v1 = Panic \/ push1 Debug d1 v1 = push1 Release d1 v1) /\
  (push2 Debug d2 v2 = Panic \/ push2 Debug d2 v2 = push2 Release d2 v2) /\
  (push3 Debug sec d3 v3 = Panic \/ push3 Debug sec d3 v3 = push3 Release sec d3 v3).
Proof. exact (fun d1 v1 d2 v2 d3 sec v3 => conj (push1_leq true _ _ dr d1 v1) (conj (push2_leq true _ _ dr d2 v2) (push3_leq true _ _ dr sec d3 v3))). Qed.
Print Assumptions C38_push.
Theorem C38_push_chunk : forall d1 c1 d2 c2 d3 sec c3,
  (push_chunk1 Debug d1 c1 = Panic \/ push_chunk1 Debug d1 c1 = push_chunk1 Release d1 c1) /\
  (push_chunk2 Debug d2 c2 = Panic \/ push_chunk2 Debug d2 c2 = push_chunk2 Release d2 c2) /\
  (push_chunk3 Debug sec d3 c3 = Panic \/ push_chunk3 Debug sec d3 c3 = push_chunk3 Release sec d3 c3).
Proof. exact (fun d1 v1 d2 v2 d3 sec v3 => conj (push_chunk1_leq true _ _ dr d1 v1) (conj (push_chunk2_leq true _ _ dr d2 v2) (push_chunk3_leq true _ _ dr sec d3 v3))). Qed.
Print Assumptions C38_push_chunk.
(** Panics are real: the same source gives a document in one profile and a panic in the other. *)
Example C38_example : exists s d, from_str3 Debug s = Panic /\ from_str3 Release s = Ok d.
Proof. exists (lines_of ["$\alpha x"; ""; "\beta y$"]%string). eexists. split; [vm_compute; reflexivity|vm_compute; reflexivity]. Qed.
