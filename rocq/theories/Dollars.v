(** * Dollars: dollar maths inside one text *)
From Verif Require Import Base Ast1 Parse1 Ast2 Ast3 SpecMaths3 SpecPar3 Tok Ind Lines Eqb Refine1 Facts1 Valid1 Par3 Maths3 MathsRun Mono MathsRec.
From Coq Require Import Lia.

Lemma newline_char c : count_newlines [c] = if c =? c_newline then 1 else 0.
Proof. unfold count_newlines. cbn [filter]. now destruct (c =? c_newline). Qed.
Section D.
  Context (p : profile) (rec : list chunk2 -> outcome error (list chunk3)).
  Lemma chars_fold s : ~ In c_dollar s -> forall st cur text line, cur + count_newlines s < two32 ->
    foldM (mt_step p rec) (mkMT st cur text line) s = Ok (mkMT st (cur + count_newlines s) (text ++ s) line).
  Proof.
    induction s as [|c s IH]; intros Hd st cur text line HL; cbn [foldM].
    - change (count_newlines []) with 0. now rewrite N.add_0_r, app_nil_r.
    - change (c :: s) with ([c] ++ s) in HL. rewrite count_newlines_app, newline_char in HL. rewrite mt_step_char by (intros ->; apply Hd; now left).
      cbn [mt_cursor mt_st mt_text mt_line]. replace (count_newlines (c :: s)) with ((if c =? c_newline then 1 else 0) + count_newlines s) by (rewrite <- newline_char, <- count_newlines_app; reflexivity).
      destruct (c =? c_newline); [rewrite add32_ok by lia|]; cbn [bind]; rewrite IH; try (intros K; apply Hd; now right); try lia; (rewrite <- app_assoc; apply f_equal; f_equal; lia).
  Qed.
  Lemma m_text_none st l s : ms_mode st = MNone -> m_step p rec st (mkChunk2 l (Text2 s)) = m_text p rec st l s.
  Proof. intros H. unfold m_step. rewrite H. reflexivity. Qed.
  Lemma text_prefix st l x r st' l' : foldM (mt_step p rec) (mkMT st l [] l) x = Ok (mkMT st' l' [] l') ->
    m_text p rec st l (x ++ r) = m_text p rec st' l' r.
  Proof. intros H. unfold m_text. rewrite foldM_app', H. reflexivity. Qed.
  Lemma push_str_eq st cur text line : mt_push_str (mkMT st cur text line) = mkMT (mkM (ms_out st ++ text_chunk3 line text) (ms_mode st) (ms_depth st) (ms_buffer st) (ms_bline st)) cur [] line.
  Proof. unfold mt_push_str, m_push_out. destruct text; cbn [mt_text is_empty negb text_chunk3 mt_st mt_line mt_cursor]; [rewrite app_nil_r; now destruct st|reflexivity]. Qed.
  Lemma close_eq out md dep bl cur m line t co : 1 <= line -> m <> [] -> rec [mkChunk2 1 (Text2 m)] = Ok co ->
    mt_close p rec (mkMT (mkM out md dep [] bl) cur m line) t =
    Ok (mkMT (mkM (out ++ [mkChunk3 line (Maths3 (mkMaths3 Dollars t co))]) MNone dep [] bl) cur [] cur).
  Proof.
    intros Hl Hm Hr. unfold mt_close. cbn [mt_text mt_st ms_buffer mt_line ms_out ms_depth ms_bline mt_cursor]. destruct m as [|c m]; [congruence|]. cbn [is_empty negb app mapM].
    rewrite sub32_ok by lia. cbn [bind]. rewrite sub32_ok by lia. cbn [bind]. replace (line - (line - 1)) with 1 by lia. rewrite Hr. reflexivity.
  Qed.
  Lemma close_empty out md dep bl cur line t co : rec [] = Ok co ->
    mt_close p rec (mkMT (mkM out md dep [] bl) cur [] line) t =
    Ok (mkMT (mkM (out ++ [mkChunk3 line (Maths3 (mkMaths3 Dollars t co))]) MNone dep [] bl) cur [] cur).
  Proof. intros Hr. unfold mt_close. cbn [mt_text mt_st ms_buffer mt_line ms_out ms_depth ms_bline mt_cursor is_empty negb mapM bind]. now rewrite Hr. Qed.
  Lemma inline_prefix st l t m co : ms_mode st = MNone -> ms_buffer st = [] -> ~ In c_dollar t -> ~ In c_dollar m -> m <> [] -> 1 <= l ->
    l + count_newlines t + count_newlines m < two32 -> rec [mkChunk2 1 (Text2 m)] = Ok co ->
    foldM (mt_step p rec) (mkMT st l [] l) (t ++ [c_dollar] ++ m ++ [c_dollar]) =
    Ok (mkMT (mkM (ms_out st ++ text_chunk3 l t ++ [mkChunk3 (l + count_newlines t) (Maths3 (mkMaths3 Dollars Inline co))]) MNone (ms_depth st) [] (ms_bline st))
             (l + count_newlines t + count_newlines m) [] (l + count_newlines t + count_newlines m)).
  Proof.
    intros Hmode Hbuf Ht Hm Hne Hl HL Hr. rewrite foldM_app', chars_fold by (exact Ht || lia). cbn [bind app foldM]. rewrite mt_step_dollar. cbn [mt_st]. rewrite Hmode, push_str_eq.
    unfold mt_set_mode. cbn [bind mt_st mt_cursor mt_text mt_line ms_out ms_depth ms_buffer ms_bline]. rewrite foldM_app', chars_fold by (exact Hm || lia). cbn [bind app foldM].
    rewrite mt_step_dollar. cbn [mt_st ms_mode mt_text ms_buffer]. destruct m as [|c m]; [congruence|]. cbn [is_empty andb]. rewrite Hbuf.
    erewrite close_eq by (lia || discriminate || exact Hr). cbn [bind]. now rewrite <- app_assoc.
  Qed.
  Lemma display_prefix st l t m co : ms_mode st = MNone -> ms_buffer st = [] -> ~ In c_dollar t -> ~ In c_dollar m -> 1 <= l ->
    l + count_newlines t + count_newlines m < two32 -> rec (match m with [] => [] | _ => [mkChunk2 1 (Text2 m)] end) = Ok co ->
    foldM (mt_step p rec) (mkMT st l [] l) (t ++ [c_dollar; c_dollar] ++ m ++ [c_dollar; c_dollar]) =
    Ok (mkMT (mkM (ms_out st ++ text_chunk3 l t ++ [mkChunk3 (l + count_newlines t) (Maths3 (mkMaths3 Dollars Outline co))]) MNone (ms_depth st) [] (ms_bline st))
             (l + count_newlines t + count_newlines m) [] (l + count_newlines t + count_newlines m)).
  Proof.
    intros Hmode Hbuf Ht Hm Hl HL Hr. rewrite foldM_app', chars_fold by (exact Ht || lia). cbn [bind app foldM]. rewrite mt_step_dollar. cbn [mt_st]. rewrite Hmode, push_str_eq.
    unfold mt_set_mode. cbn [bind mt_st mt_cursor mt_text mt_line ms_out ms_depth ms_buffer ms_bline]. rewrite mt_step_dollar. cbn [mt_st ms_mode mt_text ms_buffer]. rewrite Hbuf. cbn [is_empty andb bind].
    unfold mt_set_mode. cbn [mt_st mt_cursor mt_text mt_line ms_out ms_depth ms_buffer ms_bline].
    rewrite foldM_app', chars_fold by (exact Hm || lia). cbn [bind app foldM]. rewrite mt_step_dollar. cbn [mt_st ms_mode bind]. unfold mt_set_mode. cbn [mt_st mt_cursor mt_text mt_line ms_out ms_depth ms_buffer ms_bline].
    rewrite mt_step_dollar. cbn [mt_st ms_mode]. destruct m as [|c m].
    - change (count_newlines []) with 0. rewrite N.add_0_r. erewrite close_empty by exact Hr. cbn [bind]. now rewrite <- app_assoc.
    - erewrite close_eq by (lia || discriminate || exact Hr). cbn [bind]. now rewrite <- app_assoc.
  Qed.
End D.

(** reading on after a prefix of a text, from text mode *)
Lemma after_prefix p x l l' out dep bl r post o2 : foldM (mt_step p (maths_from_chunks p)) (mkMT minit l [] l) x = Ok (mkMT (mkM out MNone dep [] bl) l' [] l') ->
  maths_from_chunks p (mkChunk2 l' (Text2 r) :: post) = Ok o2 ->
  maths_from_chunks p (mkChunk2 l (Text2 (x ++ r)) :: post) = let* o1 := paragraph_from_chunks p out in Ok (o1 ++ o2).
Proof.
  intros Hx Ho. rewrite maths_unfold in Ho |- *. cbn [foldM] in Ho |- *. rewrite m_text_none in Ho |- * by reflexivity. rewrite (text_prefix p _ _ _ _ _ _ _ Hx).
  assert (S : sim out (mkM out MNone dep [] bl) minit) by (split; [cbn; now rewrite app_nil_r|]; split; [reflexivity|]; split; [reflexivity|discriminate]).
  assert (S2 : same (sim out) (let* s' := m_text p (maths_from_chunks p) (mkM out MNone dep [] bl) l' r in foldM (m_step p (maths_from_chunks p)) s' post)
    (let* s' := m_text p (maths_from_chunks p) minit l' r in foldM (m_step p (maths_from_chunks p)) s' post)).
  { pose proof (fold_sim p (maths_from_chunks p) out (mkChunk2 l' (Text2 r) :: post) _ _ S) as K. cbn [foldM] in K. rewrite !m_text_none in K by reflexivity. exact K. }
  destruct (let* s' := m_text p (maths_from_chunks p) minit l' r in _) as [st1|e| |]; cbn [bind] in Ho; try discriminate.
  cbn [same] in S2. destruct S2 as (st2 & -> & S1 & S3 & S4 & S5). cbn [bind]. unfold m_finish in *. rewrite S3. destruct (negb (is_none (ms_mode st1))); [discriminate|].
  rewrite S1, par_app, Ho. reflexivity.
Qed.
Theorem dollars_inline p pre l t m r post o ot co o2 : 1 <= l -> ~ In c_dollar t -> ~ In c_dollar m -> m <> [] ->
  l + count_newlines t + count_newlines m < two32 ->
  maths_from_chunks p pre = Ok o ->
  paragraph_from_chunks p (text_chunk3 l t) = @Ok error _ ot -> maths_from_chunks p [mkChunk2 1 (Text2 m)] = Ok co ->
  maths_from_chunks p (mkChunk2 (l + count_newlines t + count_newlines m) (Text2 r) :: post) = Ok o2 ->
  maths_from_chunks p (pre ++ mkChunk2 l (Text2 (t ++ [c_dollar] ++ m ++ [c_dollar] ++ r)) :: post) =
  Ok (o ++ ot ++ mkChunk3 (l + count_newlines t) (Maths3 (mkMaths3 Dollars Inline co)) :: o2).
Proof.
  intros Hl Ht Hm Hne HL Ho Hot Hco H2. apply (maths_app_ok _ _ _ _ _ Ho).
  replace (t ++ [c_dollar] ++ m ++ [c_dollar] ++ r) with ((t ++ [c_dollar] ++ m ++ [c_dollar]) ++ r) by (rewrite <- !app_assoc; reflexivity).
  erewrite after_prefix; [|exact (inline_prefix p _ minit l t m co eq_refl eq_refl Ht Hm Hne Hl HL Hco)|exact H2].
  cbn [ms_out minit app]. rewrite par_app, Hot. unfold paragraph_from_chunks. cbn [bind foldM par_chunk app]. rewrite <- app_assoc. reflexivity.
Qed.
Theorem dollars_display p pre l t m r post o ot co o2 : 1 <= l -> ~ In c_dollar t -> ~ In c_dollar m ->
  l + count_newlines t + count_newlines m < two32 ->
  maths_from_chunks p pre = Ok o ->
  paragraph_from_chunks p (text_chunk3 l t) = @Ok error _ ot -> maths_from_chunks p (match m with [] => [] | _ => [mkChunk2 1 (Text2 m)] end) = Ok co ->
  maths_from_chunks p (mkChunk2 (l + count_newlines t + count_newlines m) (Text2 r) :: post) = Ok o2 ->
  maths_from_chunks p (pre ++ mkChunk2 l (Text2 (t ++ [c_dollar; c_dollar] ++ m ++ [c_dollar; c_dollar] ++ r)) :: post) =
  Ok (o ++ ot ++ mkChunk3 (l + count_newlines t) (Maths3 (mkMaths3 Dollars Outline co)) :: o2).
Proof.
  intros Hl Ht Hm HL Ho Hot Hco H2. apply (maths_app_ok _ _ _ _ _ Ho).
  replace (t ++ [c_dollar; c_dollar] ++ m ++ [c_dollar; c_dollar] ++ r) with ((t ++ [c_dollar; c_dollar] ++ m ++ [c_dollar; c_dollar]) ++ r) by (rewrite <- !app_assoc; reflexivity).
  erewrite after_prefix; [|exact (display_prefix p _ minit l t m co eq_refl eq_refl Ht Hm Hl HL Hco)|exact H2].
  cbn [ms_out minit app]. rewrite par_app, Hot. unfold paragraph_from_chunks. cbn [bind foldM par_chunk app]. rewrite <- app_assoc. reflexivity.
Qed.
(** a text without dollars is only split into paragraphs *)
Theorem dollars_none p l t : ~ In c_dollar t -> l + count_newlines t < two32 ->
  maths_from_chunks p [mkChunk2 l (Text2 t)] = paragraph_from_chunks p (text_chunk3 l t).
Proof.
  intros Ht HL. rewrite maths_unfold. cbn [foldM]. rewrite m_text_none by reflexivity. unfold m_text. rewrite chars_fold by (exact Ht || lia). cbn [bind]. rewrite push_str_eq. reflexivity.
Qed.
(** every other chunk outside maths is converted on its own *)
Theorem maths_plain p l v v3 : not_text v -> plain v -> conv_variant p (maths_from_chunks p) v = Ok v3 ->
  maths_from_chunks p [mkChunk2 l v] = Ok [mkChunk3 l v3].
Proof.
  intros Hv Hp Hc. rewrite maths_unfold. cbn [foldM]. rewrite m_step_other by exact Hv. unfold m_other. cbn [ms_mode minit].
  destruct (kind v) as [[b t]|] eqn:Ek.
  - apply kind_some in Ek. destruct (Hp t) as [H1 H2]. destruct b; [now elim H1|now elim H2].
  - rewrite Hc. destruct v; [destruct Hv|..]; cbn [conv_variant] in Hc.
    + destruct (command3_try_from _ _ _); cbn [bind] in Hc; try discriminate. injection Hc as <-. reflexivity.
    + destruct (scope3_try_from _ _ _); cbn [bind] in Hc; try discriminate. injection Hc as <-. reflexivity.
    + destruct (env3_try_from _ _ _); cbn [bind] in Hc; try discriminate. injection Hc as <-. reflexivity.
Qed.
(** a dollar without a partner *)
Theorem dollars_unclosed p pre l t m o : ~ In c_dollar t -> ~ In c_dollar m -> l + count_newlines t + count_newlines m < two32 ->
  maths_from_chunks p pre = Ok o ->
  exists line, maths_from_chunks p (pre ++ [mkChunk2 l (Text2 (t ++ [c_dollar] ++ m))]) = Err (mkError line UnclosedMaths).
Proof.
  intros Ht Hm HL Ho. assert (K : maths_from_chunks p [mkChunk2 l (Text2 (t ++ [c_dollar] ++ m))] = Err (mkError 0 UnclosedMaths)).
  { rewrite maths_unfold. cbn [foldM]. rewrite m_text_none by reflexivity. unfold m_text. rewrite foldM_app', chars_fold by (exact Ht || lia). cbn [bind app foldM].
    rewrite mt_step_dollar. cbn [mt_st ms_mode minit]. rewrite push_str_eq. unfold mt_set_mode. cbn [bind mt_st mt_cursor mt_text mt_line ms_out ms_depth ms_buffer ms_bline].
    rewrite chars_fold by (exact Hm || lia). cbn [bind]. rewrite push_str_eq. reflexivity. }
  pose proof (maths_app p pre [mkChunk2 l (Text2 (t ++ [c_dollar] ++ m))] o Ho) as M. rewrite K in M. destruct M as ([li ty] & M & Ht'). cbn in Ht'. subst ty. now exists li.
Qed.
