(** * Cost3: the stage-2 to stage-3 conversion with a step counter (C67)

    A copy of the conversion of Ast3.v in which every function also returns the number of iterations of all its loops
    that were started, in this call and in all the recursive calls: over the chunks and the characters of their texts in
    [MathsBlock::from_chunks] (src/ast3/mathsblock.rs:82, 204), over the buffer of a dollar block that is closed (244,
    276), over chunks and characters in [Paragraph::from_chunks] (src/ast3/paragraph.rs:9, 20), over the chunks of the
    document (src/ast3/document.rs:288) and over the options of the document class and their characters (322-410).
    [counted3_erase] ties the copy to the model: forgetting the counter gives [try_from3] back. *)
From Verif Require Import Base Ast1 Parse1 Ast2 Ast3 Cost1.

(** a [map] over [l] whose function has no loop *)
Definition per_item {A B} (l : list A) (x : outcome error B) : counted B := (length l, x).

(** src/ast3/paragraph.rs:8-106 *)
Definition cpar_chunk (p : profile) (new : list chunk3) (c : chunk3) : counted (list chunk3) :=
  match c with
  | mkChunk3 line v =>
      match v with
      | Text3 s =>
          let$ st := cloop (fun st c => free (par_step p st c)) (mkPar new line [] line [] line 0%Z) s in
          free (Ok (par_finish st))
      | _ => free (Ok (new ++ [c]))
      end
  end.
Definition cparagraph (p : profile) (cs : list chunk3) : counted (list chunk3) := cloop (cpar_chunk p) [] cs.

Section FromChunks3.
  Context (p : profile).
  Context (rec : list chunk2 -> counted (list chunk3)).

  (** src/ast3/scope.rs:57-68 *)
  Definition cscope3_try_from (s : scope2) : counted scope3 :=
    match s with
    | mkScope2 cs v =>
        let$ cs := rec cs in
        let$ cs := cparagraph p cs in
        free (Ok (mkScope3 cs (sv3_of_sv2 v)))
    end.
  Definition cargs3_try_from (args : list (str * scope2)) : counted (list (str * scope3)) :=
    cmapM (fun a => match a with (prec, sc) =>
            let$ sc := cscope3_try_from sc in free (Ok (prec, sc)) end) args.
  (** src/ast3/command.rs:64-78 *)
  Definition ccommand3_try_from (c : command2) : counted command3 :=
    match c with
    | mkCommand2 label args => let$ args := cargs3_try_from args in free (Ok (mkCommand3 label args))
    end.
  (** src/ast3/environment.rs:85-105 *)
  Definition cenv3_try_from (e : environment2) : counted environment3 :=
    match e with
    | mkEnv2 label args content pb pe =>
        let$ args := cargs3_try_from args in
        let$ cs := rec content in
        let$ cs := cparagraph p cs in
        free (Ok (mkEnv3 label args cs pb pe))
    end.

  (** src/ast3/mathsblock.rs:227-254 and 259-286 *)
  Definition cmt_close (m : mtext) (t : maths_type) : counted mtext :=
    let st := mt_st m in
    let buffer := if negb (is_empty (mt_text m))
                  then ms_buffer st ++ [mkChunk2 (mt_line m) (Text2 (mt_text m))]
                  else ms_buffer st in
    let$ shifted :=
      per_item buffer (mapM (fun c => match c with mkChunk2 l v =>
              let* o := sub32 p (mt_line m) 1 in
              let* l := sub32 p l o in
              Ok (mkChunk2 l v) end) buffer) in
    let$ content := rec shifted in
    free (Ok (mkMT (mkM (ms_out st ++ [mkChunk3 (mt_line m) (Maths3 (mkMaths3 Dollars t content))])
                  MNone (ms_depth st) [] (ms_bline st))
             (mt_cursor m) [] (mt_cursor m))).

  (** src/ast3/mathsblock.rs:204-294 *)
  Definition cmt_step (m : mtext) (c : char) : counted mtext :=
    let$ m := free (if c =? c_newline then
                 let* l := add32 p (mt_cursor m) 1 in
                 Ok (mkMT (mt_st m) l (mt_text m) (mt_line m))
               else Ok m) in
    if c =? c_dollar then
      match ms_mode (mt_st m) with
      | MNone =>
          let m := mt_set_mode (mt_push_str m) (SingleDollar Dollars) in
          free (Ok (mkMT (mt_st m) (mt_cursor m) (mt_text m) (mt_cursor m)))
      | SingleDollar Dollars =>
          if is_empty (mt_text m) && is_empty (ms_buffer (mt_st m))
          then free (Ok (mt_set_mode m (DoubleDollar Dollars)))
          else cmt_close m Inline
      | DoubleDollar Dollars => free (Ok (mt_set_mode m DoubleClosing))
      | DoubleClosing => cmt_close m Outline
      | SingleDollar Brackets | DoubleDollar Brackets => free (Ok m)
      end
    else free (Ok (mkMT (mt_st m) (mt_cursor m) (mt_text m ++ [c]) (mt_line m))).

  (** src/ast3/mathsblock.rs:182-297 *)
  Definition cm_text (st : mstate) (line_no : N) (s : str) : counted mstate :=
    let$ m := cloop cmt_step (mkMT st line_no [] line_no) s in
    free (Ok (mt_st (mt_push_str m))).

  (** src/ast3/mathsblock.rs:125-134 and 141-150 *)
  Definition cm_close_brackets (st : mstate) (t : maths_type) : counted mstate :=
    let$ content := rec (ms_buffer st) in
    free (Ok (mkM (ms_out st ++ [mkChunk3 (ms_bline st) (Maths3 (mkMaths3 Brackets t content))])
            MNone 0 [] (ms_bline st))).

  (** src/ast3/mathsblock.rs:82-300 *)
  Definition cm_step (st : mstate) (chunk : chunk2) : counted mstate :=
    match chunk with
    | mkChunk2 line_no variant =>
      let mode := ms_mode st in
      match variant with
      | Command2 cmd =>
          let lab := label2 cmd in
          if is_none mode && (str_eqb lab [c_rround] || str_eqb lab [c_rsquare])
          then free (Err (mkError line_no UnexpectedMathsEnd))
          else if str_eqb lab [c_lround] && is_none mode then
            free (Ok (mkM (ms_out st) (SingleDollar Brackets) 1 (ms_buffer st) line_no))
          else if str_eqb lab [c_lsquare] && is_none mode then
            free (Ok (mkM (ms_out st) (DoubleDollar Brackets) 1 (ms_buffer st) line_no))
          else if str_eqb lab [c_lround] && is_single_br mode then
            free (let* d := add32 p (ms_depth st) 1 in Ok (m_set_depth st d))
          else if str_eqb lab [c_lsquare] && is_double_br mode then
            free (let* d := add32 p (ms_depth st) 1 in Ok (m_set_depth st d))
          else if str_eqb lab [c_rround] && is_single_br mode && (ms_depth st =? 1) then
            cm_close_brackets st Inline
          else if str_eqb lab [c_rsquare] && is_double_br mode && (ms_depth st =? 1) then
            cm_close_brackets st Outline
          else if str_eqb lab [c_rround] && is_single_br mode then
            free (let* d := sub32 p (ms_depth st) 1 in Ok (m_set_depth st d))
          else if str_eqb lab [c_rsquare] && is_double_br mode then
            free (let* d := sub32 p (ms_depth st) 1 in Ok (m_set_depth st d))
          else if is_none mode then
            let$ c := ccommand3_try_from cmd in
            free (Ok (m_push_out st (mkChunk3 line_no (Command3 c))))
          else free (Ok (m_push_buffer st chunk))
      | Scope2 s =>
          if is_none mode then
            let$ s := cscope3_try_from s in
            free (Ok (m_push_out st (mkChunk3 line_no (Scope3 s))))
          else free (Ok (m_push_buffer st chunk))
      | Environment2 e =>
          if is_none mode then
            let$ e := cenv3_try_from e in
            free (Ok (m_push_out st (mkChunk3 line_no (Environment3 e))))
          else free (Ok (m_push_buffer st chunk))
      | Text2 s =>
          if negb (is_single_br mode || is_double_br mode) then cm_text st line_no s
          else free (Ok (m_push_buffer st chunk))
      end
    end.

  (** src/ast3/mathsblock.rs:302-311 *)
  Definition cm_finish (st : mstate) : counted (list chunk3) :=
    if negb (is_none (ms_mode st)) then free (Err (mkError (ms_bline st) UnclosedMaths))
    else cparagraph p (ms_out st).
End FromChunks3.

Fixpoint cmaths_fuel (fuel : nat) (p : profile) (cs : list chunk2) : counted (list chunk3) :=
  match fuel with
  | O => free OutOfFuel
  | S fuel =>
      let rec := cmaths_fuel fuel p in
      let$ st := cloop (cm_step p rec) minit cs in
      cm_finish p st
  end.
(** src/ast3/mathsblock.rs:66-312 *)
Definition cmaths (p : profile) (cs : list chunk2) : counted (list chunk3) := cmaths_fuel (S (size2 cs)) p cs.

(** src/ast3/document.rs:322-419: the loop over the options, the loop over the characters of each and the two loops over
    the characters of its key *)
Definition option_steps (opt : str) : nat :=
  match fold_left opt_step opt ([], [], [], BmPrec) with
  | (_, arg, _, _) =>
      (1 + length opt + match split_once c_equal arg with Some (k, _) => length k + length k | None => O end)%nat
  end.
Definition cclass_arg_step (line_no : N) (st : option str * list option_entry) (a : str * scope2)
  : counted (option str * list option_entry) :=
  match snd a with
  | mkScope2 cs Curly2 => free (class_arg_step line_no st a)
  | mkScope2 cs _ => (list_sum (map option_steps (split_on c_comma (show2 cs))), class_arg_step line_no st a)
  end.

(** src/ast3/document.rs:288-431 *)
Definition cd_step (p : profile) (st : dstate) (chunk : chunk2) : counted dstate :=
  match chunk with
  | mkChunk2 line_no variant =>
    match variant with
    | Environment2 env =>
        if str_eqb (env_label2 env) s_document then
          let$ e := cenv3_try_from p (cmaths p) env in
          match e with
          | mkEnv3 _ args content b e =>
              let c := ds_construct st in
              free (Ok (mkD (mkDoc3 (d_class c) (d_options c) (d_preamable c) content args b e (d_trailing c))
                      (ds_pre st) (ds_trail st) true))
          end
        else free (Ok (d_push_other st chunk))
    | Command2 cmd =>
        if str_eqb (label2 cmd) s_documentclass && negb (ds_trailing st) then
          let c := ds_construct st in
          match d_class c with
          | Some _ => free (Err (mkError line_no DoubleDocumentClass))
          | None =>
              let$ co := cloop (cclass_arg_step line_no) (d_class c, d_options c) (arguments2 cmd) in
              let c := mkDoc3 (fst co) (snd co) (d_preamable c) (d_body c) (d_body_args c)
                              (d_begin_prec c) (d_end_prec c) (d_trailing c) in
              free (Ok (d_push_pre (mkD c (ds_pre st) (ds_trail st) (ds_trailing st)) chunk))
          end
        else free (Ok (d_push_other st chunk))
    | _ => free (Ok (d_push_other st chunk))
    end
  end.
Definition counted3 (p : profile) (d : document2) : counted document3 :=
  let$ st := cloop (cd_step p) dinit d in
  let c := ds_construct st in
  let$ pre := cmaths p (ds_pre st) in
  let$ pre := cparagraph p pre in
  let$ trail := cmaths p (ds_trail st) in
  let$ trail := cparagraph p trail in
  free (Ok (mkDoc3 (d_class c) (d_options c) pre (d_body c) (d_body_args c) (d_begin_prec c) (d_end_prec c) trail)).
(** The number of loop iterations of [ast3::Document::try_from] on [d], recursive calls included *)
Definition steps3 (p : profile) (d : document2) : nat := fst (counted3 p d).

(** ** Forgetting the counter *)
Lemma erase_par p cs : snd (cparagraph p cs) = paragraph_from_chunks p cs.
Proof.
  unfold cparagraph, paragraph_from_chunks. rewrite erase_loop. apply foldM_ext. intros new [l v].
  destruct v; try reflexivity. cbn [cpar_chunk par_chunk]. rewrite erase_bind, erase_loop. reflexivity.
Qed.
Section Erase.
  Context (p : profile) (crec : list chunk2 -> counted (list chunk3)) (rec : list chunk2 -> outcome error (list chunk3)).
  Hypothesis Hrec : forall s, snd (crec s) = rec s.
  Ltac eb := rewrite erase_bind; cbn [snd free]; apply bind_ext; intros ? _.
  Lemma erase_scope3 s : snd (cscope3_try_from p crec s) = scope3_try_from p rec s.
  Proof. destruct s as [cs v]. cbn [cscope3_try_from scope3_try_from]. rewrite erase_bind, Hrec. apply bind_ext. intros a _. rewrite erase_bind, erase_par. reflexivity. Qed.
  Lemma erase_args3 a : snd (cargs3_try_from p crec a) = args3_try_from p rec a.
  Proof.
    unfold cargs3_try_from, args3_try_from. rewrite erase_mapM. apply mapM_ext. intros [pr sc]. rewrite erase_bind, erase_scope3. reflexivity.
  Qed.
  Lemma erase_command3 c : snd (ccommand3_try_from p crec c) = command3_try_from p rec c.
  Proof. destruct c. cbn [ccommand3_try_from command3_try_from]. rewrite erase_bind, erase_args3. reflexivity. Qed.
  Lemma erase_env3 e : snd (cenv3_try_from p crec e) = env3_try_from p rec e.
  Proof.
    destruct e. cbn [cenv3_try_from env3_try_from]. rewrite erase_bind, erase_args3. apply bind_ext. intros a _.
    rewrite erase_bind, Hrec. apply bind_ext. intros b _. rewrite erase_bind, erase_par. reflexivity.
  Qed.
  Lemma erase_close m t : snd (cmt_close p crec m t) = mt_close p rec m t.
  Proof.
    unfold cmt_close, mt_close. cbv zeta. rewrite erase_bind. cbn [snd per_item]. apply bind_ext. intros a _.
    rewrite erase_bind, Hrec. reflexivity.
  Qed.
  Lemma erase_mt_step m c : snd (cmt_step p crec m c) = mt_step p rec m c.
  Proof.
    unfold cmt_step, mt_step. rewrite erase_bind. cbn [snd free]. apply bind_ext. intros m' _.
    destruct (c =? c_dollar); [|reflexivity]. destruct (ms_mode (mt_st m')) as [[]|[]| |]; try reflexivity.
    - destruct (_ && _); [reflexivity|apply erase_close].
    - apply erase_close.
  Qed.
  Lemma erase_m_text st l s : snd (cm_text p crec st l s) = m_text p rec st l s.
  Proof.
    unfold cm_text, m_text. rewrite erase_bind, erase_loop.
    rewrite (foldM_ext _ (mt_step p rec)) by apply erase_mt_step. reflexivity.
  Qed.
  Lemma erase_close_br st t : snd (cm_close_brackets crec st t) = m_close_brackets rec st t.
  Proof. unfold cm_close_brackets, m_close_brackets. rewrite erase_bind, Hrec. reflexivity. Qed.
  Lemma erase_m_step st c : snd (cm_step p crec st c) = m_step p rec st c.
  Proof.
    destruct c as [l v]. cbn [cm_step m_step]. cbv zeta. destruct v as [s|c|s|e].
    - destruct (negb (_ || _)); [apply erase_m_text|reflexivity].
    - repeat (match goal with |- snd (if ?b then _ else _) = _ => destruct b end; try reflexivity; try apply erase_close_br).
      rewrite erase_bind, erase_command3. reflexivity.
    - destruct (is_none _); [|reflexivity]. rewrite erase_bind, erase_scope3. reflexivity.
    - destruct (is_none _); [|reflexivity]. rewrite erase_bind, erase_env3. reflexivity.
  Qed.
End Erase.
Lemma erase3_fuel fuel p s : snd (cmaths_fuel fuel p s) = maths_fuel fuel p s.
Proof.
  revert s. induction fuel as [|fuel IH]; intros s; [reflexivity|]. cbn [cmaths_fuel maths_fuel].
  rewrite erase_bind, erase_loop.
  rewrite (foldM_ext _ (m_step p (maths_fuel fuel p))) by (intros; apply erase_m_step; auto).
  apply bind_ext. intros st _. unfold cm_finish, m_finish. destruct (negb _); [reflexivity|apply erase_par].
Qed.
Lemma erase_maths p s : snd (cmaths p s) = maths_from_chunks p s.
Proof. apply erase3_fuel. Qed.
Lemma erase_class l st a : snd (cclass_arg_step l st a) = class_arg_step l st a.
Proof. destruct a as [pr [cs []]]; reflexivity. Qed.
Lemma erase_d_step p st c : snd (cd_step p st c) = d_step p st c.
Proof.
  destruct c as [l v]. cbn [cd_step d_step]. destruct v as [s|c|s|e]; try reflexivity.
  - destruct (_ && _); [|reflexivity]. cbv zeta. destruct (d_class _); [reflexivity|]. rewrite erase_bind, erase_loop.
    rewrite (foldM_ext _ (class_arg_step l)) by apply erase_class. reflexivity.
  - destruct (str_eqb _ _); [|reflexivity]. rewrite erase_bind, (erase_env3 p (cmaths p) (maths_from_chunks p)) by apply erase_maths.
    apply bind_ext. intros [] _. reflexivity.
Qed.
Lemma counted3_erase p d : snd (counted3 p d) = try_from3 p d.
Proof.
  unfold counted3, try_from3. rewrite erase_bind, erase_loop, (foldM_ext _ (d_step p)) by apply erase_d_step.
  apply bind_ext. intros st _. cbv zeta.
  rewrite erase_bind, erase_maths. apply bind_ext. intros a _. rewrite erase_bind, erase_par. apply bind_ext. intros b _.
  rewrite erase_bind, erase_maths. apply bind_ext. intros a' _. rewrite erase_bind, erase_par. reflexivity.
Qed.
