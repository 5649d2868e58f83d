(** * BracketLine: the line reported for a dollar without a partner *)
From Verif Require Import Base Ast1 Parse1 Ast2 Ast3 SpecMaths3 SpecPar3 SpecBracketLine Tok Ind Lines Eqb Refine1 Facts1 Valid1 Par3 Maths3 MathsRun Mono MathsRec Dollars Depth3b.
From Coq Require Import Lia.
Local Open Scope N_scope.

Lemma lbl_app a c : last_bracket_line (a ++ [c]) =
  match c with mkChunk3 l (Maths3 (mkMaths3 Brackets _ _)) => l | _ => last_bracket_line a end.
Proof. unfold last_bracket_line. now rewrite fold_left_app. Qed.
Lemma lbl_text a l s : last_bracket_line (a ++ text_chunk3 l s) = last_bracket_line a.
Proof. destruct s; cbn [text_chunk3]; [now rewrite app_nil_r|]. now rewrite lbl_app. Qed.

(** paragraph splitting does not touch maths blocks *)
Lemma par_lbl {E} p cs cs' : @paragraph_from_chunks E p cs = Ok cs' -> last_bracket_line cs' = last_bracket_line cs.
Proof.
  assert (G : forall cs new new' x, last_bracket_line new = last_bracket_line x -> foldM (@par_chunk E p) new cs = Ok new' ->
    last_bracket_line new' = last_bracket_line (x ++ cs)).
  { clear. induction cs as [|c cs IH]; intros new new' x H E0; cbn [foldM] in E0.
    - injection E0 as <-. now rewrite app_nil_r.
    - destruct (par_chunk p new c) as [n| | |] eqn:Ec; cbn [bind] in E0; try discriminate.
      replace (x ++ c :: cs) with ((x ++ [c]) ++ cs) by now rewrite <- app_assoc.
      apply (IH n new' (x ++ [c])); [|exact E0]. destruct c as [l v]. cbn [par_chunk] in Ec.
      destruct v as [s| | | | |]; try (injection Ec as <-; rewrite !lbl_app; destruct m as [[|] ? ?]; congruence || reflexivity);
        try (injection Ec as <-; rewrite !lbl_app; exact H).
      destruct (foldM (par_step p) _ s) as [st| | |] eqn:Ef; cbn [bind] in Ec; try discriminate. injection Ec as <-.
      rewrite lbl_app.
      assert (P : last_bracket_line (pa_new st) = last_bracket_line new).
      { apply (post_foldM (fun st => last_bracket_line (pa_new st) = last_bracket_line new) (par_step (E:=E) p) s) with (st := mkPar new l [] l [] l 0%Z);
          [|reflexivity|exact Ef].
        intros [n line t tl b bl k] c _ Hn. cbn [pa_new] in Hn. unfold par_step.
        destruct ((c =? c_newline) && (k =? 1)%Z).
        { eapply post_bind; [apply post_any|]. intros k' _. eapply post_bind; [apply post_any|]. intros l' _. apply post_ok. cbn [pa_new].
          destruct (negb (is_empty t)); [rewrite lbl_app|]; exact Hn. }
        destruct (c =? c_newline).
        { eapply post_bind; [apply post_any|]. intros k' _. eapply post_bind; [apply post_any|]. intros l' _. apply post_ok. exact Hn. }
        destruct (is_whitespace c && (k =? 0)%Z); [now apply post_ok|]. destruct (is_whitespace c); [now apply post_ok|].
        destruct ((k =? 0)%Z); [now apply post_ok|]. destruct ((k =? 1)%Z); [now apply post_ok|]. apply post_ok. cbn [pa_new]. now rewrite lbl_app. }
      destruct st as [n line t tl b bl k]. cbn [pa_new] in P. unfold par_finish.
      destruct (negb (is_empty b)); [destruct (k >? 1)%Z; [now rewrite lbl_app, P|destruct (negb (is_empty (t ++ b))); [rewrite lbl_app|]; congruence]|].
      destruct (negb (is_empty t)); [destruct (negb (is_empty (t ++ b))); [rewrite lbl_app|]|]; congruence. }
  intros H. exact (G cs [] cs' [] eq_refl H).
Qed.

Definition in_brackets (m : maths_mode) : bool := is_single_br m || is_double_br m.
Definition tracked (st : mstate) : Prop :=
  (ms_mode st = MNone -> ms_buffer st = []) /\ (in_brackets (ms_mode st) = false -> ms_bline st = last_bracket_line (ms_out st)).
Section T.
  Context (p : profile) (rec : list chunk2 -> outcome error (list chunk3)).
  Lemma push_str_tracked m : in_brackets (ms_mode (mt_st m)) = false -> tracked (mt_st m) ->
    tracked (mt_st (mt_push_str m)) /\ ms_mode (mt_st (mt_push_str m)) = ms_mode (mt_st m).
  Proof.
    intros B [T1 T2]. destruct m as [st cur t l]. rewrite push_str_eq. cbn [mt_st ms_mode] in *. split; [|reflexivity].
    split; cbn [ms_mode ms_buffer ms_bline ms_out]; [exact T1|]. intros _. rewrite lbl_text. now apply T2.
  Qed.
  Lemma close_tracked m t : in_brackets (ms_mode (mt_st m)) = false -> tracked (mt_st m) ->
    post (fun m' => tracked (mt_st m') /\ in_brackets (ms_mode (mt_st m')) = false) (mt_close p rec m t).
  Proof.
    intros B [T1 T2]. unfold mt_close. eapply post_bind; [apply post_any|]. intros sh _. eapply post_bind; [apply post_any|]. intros co _.
    apply post_ok. cbn [mt_st ms_mode]. split; [|reflexivity]. split; cbn [ms_mode ms_buffer ms_bline ms_out]; [reflexivity|].
    intros _. rewrite lbl_app. now apply T2.
  Qed.
  Lemma char_tracked m c : in_brackets (ms_mode (mt_st m)) = false -> tracked (mt_st m) ->
    post (fun m' => tracked (mt_st m') /\ in_brackets (ms_mode (mt_st m')) = false) (mt_step p rec m c).
  Proof.
    intros B T. unfold mt_step.
    eapply post_bind with (P := fun m' => tracked (mt_st m') /\ in_brackets (ms_mode (mt_st m')) = false).
    { destruct (c =? c_newline); [|apply post_ok; now split]. eapply post_bind; [apply post_any|]. intros l _. apply post_ok. cbn [mt_st]. now split. }
    clear m B T. intros m [T B]. destruct (c =? c_dollar); [|apply post_ok; cbn [mt_st]; now split].
    destruct (ms_mode (mt_st m)) as [[|]|[|]| |] eqn:Em; try discriminate B.
    - destruct (_ && _); [|apply close_tracked; [now rewrite Em|exact T]]. apply post_ok. unfold mt_set_mode. cbn [mt_st ms_mode].
      destruct T as [_ T2]. rewrite Em in T2. split; [|reflexivity]. split; cbn [ms_mode ms_buffer ms_bline ms_out]; [discriminate|exact T2].
    - apply post_ok. unfold mt_set_mode. cbn [mt_st ms_mode].
      destruct T as [_ T2]. rewrite Em in T2. split; [|reflexivity]. split; cbn [ms_mode ms_buffer ms_bline ms_out]; [discriminate|exact T2].
    - apply close_tracked; [now rewrite Em|exact T].
    - destruct (push_str_tracked m) as [[_ T2] E2]; [now rewrite Em|exact T|]. apply post_ok. unfold mt_set_mode. cbn [mt_st ms_mode].
      rewrite E2, Em in T2. split; [|reflexivity]. split; cbn [ms_mode ms_buffer ms_bline ms_out]; [discriminate|exact T2].
  Qed.
  Lemma step_tracked st c : tracked st -> post tracked (m_step p rec st c).
  Proof.
    intros T. destruct c as [l v]. destruct (match v with Text2 _ => true | _ => false end) eqn:Ev.
    - destruct v as [s| | |]; try discriminate. cbn [m_step]. fold (in_brackets (ms_mode st)).
      destruct (in_brackets (ms_mode st)) eqn:B; cbn [negb].
      + apply post_ok. destruct T as [T1 T2]. split; cbn; [intros H; rewrite H in B; discriminate|intros H; congruence].
      + unfold m_text. eapply post_bind with (P := fun m' => tracked (mt_st m') /\ in_brackets (ms_mode (mt_st m')) = false).
        * apply post_foldM; [intros m x _ [H1 H2]; now apply char_tracked|]. cbn [mt_st]. now split.
        * intros m [H1 H2]. apply post_ok. now apply push_str_tracked.
    - rewrite m_step_other by (destruct v; try discriminate; exact I). unfold m_other. destruct T as [T1 T2].
      assert (Q : ms_mode st <> MNone -> tracked (m_push_buffer st (mkChunk2 l v))).
      { intros N. split; cbn; [intros H; now elim N|exact T2]. }
      assert (D : forall d, tracked (m_set_depth st d)) by (intros d; split; cbn; assumption).
      assert (C : forall t0, post tracked (m_close_brackets rec st t0)).
      { intros t0. unfold m_close_brackets. eapply post_bind; [apply post_any|]. intros co _. apply post_ok. split; cbn [ms_mode ms_buffer ms_bline ms_out]; [reflexivity|]. intros _. now rewrite lbl_app. }
      assert (BR : forall t0, ms_mode st <> MNone -> post tracked (match kind v with
        | Some (o, t) => if teqb t t0 then if o then let* d := add32 p (ms_depth st) 1 in Ok (m_set_depth st d)
            else if ms_depth st =? 1 then m_close_brackets rec st t0
            else let* d := sub32 p (ms_depth st) 1 in Ok (m_set_depth st d)
          else Ok (m_push_buffer st (mkChunk2 l v))
        | None => Ok (m_push_buffer st (mkChunk2 l v)) end)).
      { intros t0 N. destruct (kind v) as [[o t]|]; [|now apply post_ok, Q]. destruct (teqb t t0); [|now apply post_ok, Q].
        destruct o; [eapply post_bind; [apply post_any|]; intros d _; apply post_ok, D|].
        destruct (ms_depth st =? 1); [apply C|]. eapply post_bind; [apply post_any|]; intros d _; apply post_ok, D. }
      destruct (ms_mode st) as [[|]|[|]| |] eqn:Em; try (apply BR; discriminate); try (apply post_ok, Q; discriminate).
      destruct (kind v) as [[[|] t]|].
      + apply post_ok. split; cbn; [now destruct t|]. destruct t; discriminate.
      + apply post_err.
      + eapply post_bind with (P := fun v3 => match v3 with Maths3 _ => False | _ => True end).
        * unfold conv_variant. destruct v as [s|cm|sc|e]; try discriminate;
            (eapply post_bind; [apply post_any|]; intros x _; now apply post_ok).
        * intros v3 H3. apply post_ok. split; cbn [m_push_out ms_mode ms_buffer ms_bline ms_out]; [now rewrite Em|]. intros _. rewrite lbl_app.
          destruct v3; solve [now elim H3|now apply T2].
  Qed.
End T.

Lemma maths_tracked p pre o : maths_from_chunks p pre = Ok o ->
  exists st, foldM (m_step p (maths_from_chunks p)) minit pre = Ok st /\ ms_mode st = MNone /\ ms_buffer st = [] /\ ms_bline st = last_bracket_line o.
Proof.
  rewrite maths_unfold. destruct (foldM _ minit pre) as [st| | |] eqn:E; cbn [bind]; try discriminate.
  unfold m_finish. destruct (ms_mode st) as [[|]|[|]| |] eqn:Em; cbn [is_none negb]; try discriminate. intros Hp.
  assert (T : tracked st).
  { refine (post_foldM tracked _ pre _ minit _ st E); [intros s x _; apply step_tracked|]. split; cbn; reflexivity. }
  exists st. destruct T as [T1 T2]. repeat split; auto. rewrite Em in T2. rewrite (T2 eq_refl). symmetry. exact (par_lbl _ _ _ Hp).
Qed.
Theorem dollars_unclosed_line p pre l t m o : ~ In c_dollar t -> ~ In c_dollar m -> l + count_newlines t + count_newlines m < two32 ->
  maths_from_chunks p pre = Ok o ->
  maths_from_chunks p (pre ++ [mkChunk2 l (Text2 (t ++ [c_dollar] ++ m))]) = Err (mkError (last_bracket_line o) UnclosedMaths) /\
  maths_from_chunks p (pre ++ [mkChunk2 l (Text2 (t ++ [c_dollar; c_dollar] ++ m))]) = Err (mkError (last_bracket_line o) UnclosedMaths).
Proof.
  intros Ht Hm HL Ho. apply maths_tracked in Ho as (st & E & M & B & L). rewrite !maths_unfold, !foldM_app', E. cbn [bind foldM].
  rewrite !m_text_none by exact M. unfold m_text.
  rewrite !foldM_app', chars_fold by (exact Ht || lia). cbn [bind app foldM].
  rewrite mt_step_dollar. cbn [mt_st]. rewrite M, push_str_eq. unfold mt_set_mode. cbn [bind mt_st mt_cursor mt_text mt_line ms_out ms_depth ms_buffer ms_bline].
  rewrite mt_step_dollar. cbn [mt_st ms_mode mt_text ms_buffer]. rewrite B. cbn [is_empty andb bind].
  unfold mt_set_mode. cbn [bind mt_st mt_cursor mt_text mt_line ms_out ms_depth ms_buffer ms_bline].
  rewrite !chars_fold by (exact Hm || lia). cbn [bind]. rewrite !push_str_eq. unfold m_finish. cbn [bind mt_st ms_mode is_none negb ms_bline]. rewrite L. now split.
Qed.
