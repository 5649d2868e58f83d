(** * Properties13: exactly what the conversions back produce

    Only statements, short proofs from lemmas, assumptions and non-vacuity examples.
    The specification is in SpecFlat.v. *)
From Verif Require Import Base Ast1 Parse1 Ast2 Ast3 Api ModelTests1 Spec1 SpecDoc1 SpecDoc2 SpecDoc3 Spec2 SpecBack2 SpecBack3 SpecFlat
  Tok Refine1 Gram1 Back2 Back3 Flat.

(** ** C52: stage 2 to stage 1, chunk by chunk and line by line, in both profiles *)
Theorem C52_chunk : forall p c out, unfolds 0 c out -> fits1 out -> @into1_chunk error p c None = Ok out.
Proof. exact (@unfolds_exact error). Qed.
Theorem C52_push_into : forall p c out d d', unfolds 0 c out -> fits1 out -> joins1 d out d' -> @push_into1 error p d c = Ok d'.
Proof. exact (@unfolds_push error). Qed.
Theorem C52_document : forall p d out d', unfolds_all 0 d out -> fits1 out -> joins1 [] out d' -> @from2_to1 error p d = Ok d'.
Proof. exact (@unfolds_doc error). Qed.
(** the specification determines the result, and has one whenever the environments are on line 1 or later and their
    labels parse *)
Theorem C52_unique : forall d out out', unfolds_all 0 d out -> unfolds_all 0 d out' -> out = out'.
Proof. intros d out out' H. exact (proj1 (proj2 unfolds_det) 0 d out H out'). Qed.
Theorem C52_exists : forall d,
  (forall cs l e, within2 d cs -> In (mkChunk2 l (Environment2 e)) cs -> 1 <= l) ->
  every_label (fun lab => source_fits lab /\ exists x, parses 1 (tokens lab) x) d ->
  exists out, unfolds_all 0 d out.
Proof. exact unfolds_all_exists. Qed.
Print Assumptions C52_chunk.
Print Assumptions C52_push_into.
Print Assumptions C52_document.
Print Assumptions C52_unique.
Print Assumptions C52_exists.
Definition C52_inner : chunk2 := mkChunk2 2 (Environment2 (mkEnv2 (S! "i") [] [mkChunk2 3 (Text2 [c_newline])] [] (S! " "))).
Definition C52_chunk2 : chunk2 :=
  mkChunk2 5 (Environment2 (mkEnv2 (S! "e") [([c_newline], mkScope2 [mkChunk2 1 (Text2 (S! "x"))] Square2)]
                [mkChunk2 1 (Text2 [c_newline]); C52_inner] [c_newline] [])).
Definition C52_out : list chunk1 :=
  let lab x := [mkChunk1 1 (Text1 x)] in
  [begin_cmd 5 [c_newline] (lab (S! "e")) [([c_newline], mkScope1 [mkChunk1 1 (Text1 (S! "x"))] Square1)];
   mkChunk1 5 (Text1 [c_newline]);
   begin_cmd 6 [] (lab (S! "i")) [];
   mkChunk1 8 (Text1 [c_newline]);
   end_cmd 7 (S! " ") (lab (S! "i"));
   end_cmd 9 [] (lab (S! "e"))].
Lemma C52_label x : source_fits x -> from_str1 Debug x = Ok [mkChunk1 1 (Text1 x)] -> parses 1 (tokens x) [mkChunk1 1 (Text1 x)].
Proof. intros F H. now apply (from_str1_iff Debug x _ F). Qed.
Example C52_example : unfolds 0 C52_chunk2 C52_out /\ fits1 C52_out /\
  @into1_chunk error Debug C52_chunk2 None = Ok C52_out.
Proof.
  assert (U : unfolds 0 C52_chunk2 C52_out).
  { unfold C52_chunk2, C52_out. cbv zeta.
    change 9 with (5 + 0 + count_newlines ([c_newline] ++ S! "e" ++ show_args2 [([c_newline], mkScope2 [mkChunk2 1 (Text2 (S! "x"))] Square2)] ++ show2 [mkChunk2 1 (Text2 [c_newline]); C52_inner])).
    apply (uf_env 0 5 (S! "e") _ _ [c_newline] [] [mkChunk1 1 (Text1 (S! "e"))]
             [([c_newline], mkScope1 [mkChunk1 1 (Text1 (S! "x"))] Square1)]
             [mkChunk1 5 (Text1 [c_newline]); begin_cmd 6 [] [mkChunk1 1 (Text1 (S! "i"))] []; mkChunk1 8 (Text1 [c_newline]); end_cmd 7 (S! " ") [mkChunk1 1 (Text1 (S! "i"))]]).
    - discriminate.
    - reflexivity.
    - apply C52_label; [reflexivity|vm_compute; reflexivity].
    - constructor; [reflexivity| |constructor].
      apply (ua_cons 0 _ _ [_] []); [apply (uf_text 0 1)|constructor].
    - apply (ua_cons (5 + 0 - 1) _ _ [_] [_; _; _]); [apply (uf_text (5 + 0 - 1) 1)|].
      apply (ua_cons (5 + 0 - 1) _ _ [_; _; _] []); [|constructor]. unfold C52_inner.
      apply (uf_env (5 + 0 - 1) 2 (S! "i") [] [mkChunk2 3 (Text2 [c_newline])] [] (S! " ") [mkChunk1 1 (Text1 (S! "i"))] [] [mkChunk1 8 (Text1 [c_newline])]).
      + discriminate.
      + reflexivity.
      + apply C52_label; [reflexivity|vm_compute; reflexivity].
      + constructor.
      + apply (ua_cons _ _ _ [_] []); [apply (uf_text 5 3)|constructor]. }
  assert (F : fits1 C52_out) by (apply fc1_fits; vm_compute; reflexivity).
  split; [exact U|]. split; [exact F|]. exact (C52_chunk Debug _ _ U F).
Qed.

(** ** C53: stage 3 to stage 2, chunk by chunk and line by line, in both profiles *)
Theorem C53_chunk : forall p c out, lowers 0 c out -> 1 + count_newlines (show_chunk3 c) < two32 -> fits2 out ->
  @into2_chunk error p c = Ok out.
Proof. exact (@lowers_chunk error). Qed.
Theorem C53_document : forall p d out, lowers_doc d out ->
  1 + count_newlines (full_text d) < two32 -> 1 <= count_newlines (upto_end d) -> @from3_to2 error p d = Ok out.
Proof. exact (@lowers_document error). Qed.
Theorem C53_unique : forall c off out out', lowers off c out -> lowers off c out' -> out = out'.
Proof. intros c off out out' H. exact (proj1 lowers_det off c out H out'). Qed.
Theorem C53_exists : forall cs off, (forall es l m, within3 cs es -> In (mkChunk3 l (Maths3 m)) es -> 1 <= l) ->
  exists out, lowers_all off cs out.
Proof. exact lowers_all_exists. Qed.
Print Assumptions C53_chunk.
Print Assumptions C53_document.
Print Assumptions C53_unique.
Print Assumptions C53_exists.
(** a display block over several lines with a dollar block inside *)
Definition C53_c : chunk3 :=
  mkChunk3 4 (Maths3 (mkMaths3 Brackets Outline
    [mkChunk3 1 (Text3 [c_newline]);
     mkChunk3 2 (Maths3 (mkMaths3 Dollars Inline [mkChunk3 1 (Command3 (mkCommand3 (S! "x") []))]));
     mkChunk3 2 (Maths3 (mkMaths3 Dollars Outline []))])).
Definition C53_out : list chunk2 :=
  [mkChunk2 4 (Command2 (mkCommand2 (S! "[") [])); mkChunk2 4 (Text2 [c_newline]);
   mkChunk2 5 (Text2 (S! "$")); mkChunk2 5 (Command2 (mkCommand2 (S! "x") [])); mkChunk2 5 (Text2 (S! "$"));
   mkChunk2 5 (Text2 (S! "$$$$"));
   mkChunk2 5 (Command2 (mkCommand2 (S! "]") []))].
Example C53_example : lowers 0 C53_c C53_out /\ @into2_chunk error Debug C53_c = Ok C53_out.
Proof.
  assert (U : lowers 0 C53_c C53_out).
  { unfold C53_c.
      match goal with |- lowers _ (mkChunk3 _ (Maths3 (mkMaths3 _ _ ?c))) _ =>
        apply (lo_brackets 0 4 Outline c [mkChunk2 4 (Text2 [c_newline]);
          mkChunk2 5 (Text2 (S! "$")); mkChunk2 5 (Command2 (mkCommand2 (S! "x") [])); mkChunk2 5 (Text2 (S! "$"));
          mkChunk2 5 (Text2 (S! "$$$$"))]) end; [discriminate|].
      apply (la_cons (4 + 0 - 1) _ _ [_] [_; _; _; _]); [apply (lo_text (4 + 0 - 1) 1)|].
      apply (la_cons (4 + 0 - 1) _ _ [_; _; _] [_]).
      + apply (lo_dollars (4 + 0 - 1) 2 Inline _ [mkChunk2 5 (Command2 (mkCommand2 (S! "x") []))]
                 [mkChunk2 5 (Text2 (S! "$")); mkChunk2 5 (Command2 (mkCommand2 (S! "x") []))]); [discriminate| | |].
        * apply (la_cons _ _ _ [_] []); [apply (lo_command (2 + (4 + 0 - 1) - 1) 1); constructor|constructor].
        * apply fronted_other. intros (? & ? & ? & K). discriminate.
        * apply (joined_other2 [mkChunk2 5 (Text2 (S! "$")); mkChunk2 5 (Command2 (mkCommand2 (S! "x") []))]). intros (d0 & ? & ? & ? & ? & K & _). destruct d0 as [|? [|? [|? ?]]]; discriminate.
      + apply (la_cons (4 + 0 - 1) _ _ [_] []); [|constructor].
        apply (lo_dollars (4 + 0 - 1) 2 Outline [] [] [mkChunk2 5 (Text2 (S! "$$"))]); [discriminate|constructor| |].
        * apply fronted_other. intros (? & ? & ? & K). discriminate.
        * apply (joined_text2 [] 5 (S! "$$") 5 (S! "$$")). }
  split; [exact U|]. apply (C53_chunk Debug _ _ U); [reflexivity|]. apply fc2_fits. reflexivity.
Qed.
(** a whole document: the environment gets line 1 although it starts on line 2 *)
Example C53_document_example : exists s d3 out, from_str3 Debug s = Ok d3 /\ lowers_doc d3 out /\
  out = [mkChunk2 1 (Text2 (S! "p" ++ [c_newline]));
         mkChunk2 1 (Environment2 (mkEnv2 (S! "document") [] [mkChunk2 1 (Text2 (S! "$y$"))] [] []));
         mkChunk2 2 (Text2 (S! "t"))].
Proof.
  set (s := S! "p" ++ [c_newline] ++ S! "\begin{document}$y$\end{document}t").
  exists s. let x := eval vm_compute in (from_str3 Debug s) in match x with Ok ?d => exists d end. 
  exists [mkChunk2 1 (Text2 (S! "p" ++ [c_newline]));
     mkChunk2 1 (Environment2 (mkEnv2 (S! "document") [] [mkChunk2 1 (Text2 (S! "$y$"))] [] []));
     mkChunk2 2 (Text2 (S! "t"))].
  split; [vm_compute; reflexivity|]. split; [|reflexivity].
  refine (lo_doc _ [mkChunk2 1 (Text2 (S! "p" ++ [c_newline]))] [] [mkChunk2 1 (Text2 (S! "$y$"))] _
            [mkChunk2 2 (Text2 (S! "t"))] _ 1 _ _ _ _ eq_refl _ _ _).
  - reflexivity.
  - apply (la_cons 0 _ _ [_] []); [apply (lo_text 0 1)|constructor].
  - constructor.
  - apply (la_cons 0 _ _ [_] []); [|constructor]. apply (lo_dollars 0 1 Inline _ [mkChunk2 1 (Text2 (S! "y"))] [mkChunk2 1 (Text2 (S! "$y"))]); [discriminate| | |].
    + apply (la_cons _ _ _ [_] []); [apply (lo_text 0 1)|constructor].
    + apply fronted_text.
    + apply (joined_text2 [] 1 (S! "$y") 1 (S! "$")).
  - apply (la_cons 0 _ _ [_] []); [apply (lo_text 0 2)|constructor].
  - apply fc2_fits. reflexivity.
  - eapply js2_cons; [|constructor].
    match goal with |- joined2 ?d ?c _ => apply (joined_other2 d c) end. intros (d0 & ? & ? & ? & ? & K & _). destruct d0 as [|? [|? [|? ?]]]; discriminate.
Qed.
