(** * Valid3: validation and pushing, stage 3 *)
From Verif Require Import Base Ast1 Parse1 Ast2 Ast3 Spec1 SpecDoc1 SpecDoc2 SpecDoc3 Tok Refine1 Ind Lines Facts1 Valid1 Valid2.

(** ** Text and paragraph breaks *)

(** a paragraph break in [s], or one completed by [s] if a newline came before *)
Definition breaks (consec : bool) (s : list N) : Prop :=
  has_break s \/ (consec = true /\ exists w b, s = w ++ [c_newline] ++ b /\ forallb is_whitespace w = true).

Lemma breaks_cons consec c s : breaks consec (c :: s) <->
  (if c =? c_newline then consec = true \/ breaks true s
   else breaks (consec && is_whitespace c) s).
Proof.
  unfold breaks, has_break. destruct (N.eqb_spec c c_newline) as [->|Hc].
  - split.
    + intros [(a & w & b & E & Hw)|(Hc & _)]; [|now left]. right.
      destruct a as [|x a]; cbn [app] in E.
      * injection E as E. right. split; [reflexivity|]. exists w, b. now split.
      * injection E as _ E. left. exists a, w, b. now split.
    + intros [->|[(a & w & b & -> & Hw)|(_ & w & b & -> & Hw)]].
      * right. split; [reflexivity|]. exists [], s. now split.
      * left. exists (c_newline :: a), w, b. now split.
      * left. exists [], w, b. now split.
  - split.
    + intros [(a & w & b & E & Hw)|(Hb & w & b & E & Hw)].
      * destruct a as [|x a]; cbn [app] in E; injection E as -> E; [congruence|].
        left. exists a, w, b. now split.
      * destruct w as [|x w]; cbn [app] in E; injection E as -> E; [congruence|].
        cbn [forallb] in Hw. apply andb_true_iff in Hw as [H1 H2]. right. subst consec. rewrite H1.
        split; [reflexivity|]. exists w, b. now split.
    + intros [(a & w & b & -> & Hw)|(Hb & w & b & -> & Hw)].
      * left. exists (c :: a), w, b. now split.
      * right. apply andb_true_iff in Hb as [H1 H2]. split; [assumption|]. exists (c :: w), b.
        cbn [forallb]. rewrite H2. now split.
Qed.

Lemma newline_not_special : special c_newline = false.
Proof. reflexivity. Qed.

Lemma check_text3_ok s : forall consec,
  check_text3 consec s = Ok tt <-> existsb special s = false /\ ~ breaks consec s.
Proof.
  induction s as [|c s IH]; intros consec; cbn [check_text3 existsb].
  - split; [|reflexivity]. intros _. split; [reflexivity|].
    intros [(a & w & b & E & _)|(_ & w & b & E & _)].
    + now destruct a. + now destruct w.
  - rewrite unsanitised_special, breaks_cons. destruct (special c); cbn [orb].
    { split; [discriminate|]. intros [? _]. discriminate. }
    destruct (N.eqb_spec c c_newline) as [->|Hc].
    + destruct consec.
      * split; [discriminate|]. intros [_ H]. exfalso. apply H. now left.
      * rewrite IH. intuition congruence.
    + destruct (is_whitespace c); cbn [negb]; rewrite IH.
      * rewrite andb_true_r. tauto.
      * now rewrite andb_false_r.
Qed.

Lemma check_text3_total s : forall consec, check_text3 consec s = Ok tt \/ exists e, check_text3 consec s = Err e.
Proof.
  induction s as [|c s IH]; intros consec; cbn [check_text3]; [now left|].
  destruct (unsanitised c); [eauto|]. destruct (c =? c_newline); [destruct consec; eauto|].
  destruct (negb (is_whitespace c)); apply IH.
Qed.

Lemma breaks_false s : breaks false s <-> has_break s.
Proof. unfold breaks. intuition congruence. Qed.

Lemma check_break3_ok p s : forall n, n + count_newlines s < two32 ->
  (check_break3 p n s = Ok tt <-> forallb is_whitespace s = true /\ 2 <= n + count_newlines s) /\
  (check_break3 p n s = Ok tt \/ exists e, check_break3 p n s = Err e).
Proof.
  induction s as [|c s IH]; intros n B; cbn [check_break3 forallb].
  - rewrite count_newlines_nil. destruct (N.ltb_spec n 2); split; eauto; split; try discriminate; try tauto.
    + intros [_ ?]. lia. + intros _. split; [reflexivity|lia].
  - destruct (is_whitespace c) eqn:Ew; cbn [negb andb].
    2:{ split; [|eauto]. split; [discriminate|]. intros [? _]. discriminate. }
    rewrite count_newlines_cons in *. destruct (c =? c_newline).
    + rewrite add32_ok by lia. cbn [bind]. destruct (IH (n + 1)) as [A B0]; [lia|]. split; [|exact B0].
      rewrite A. split; intros [? ?]; split; auto; lia.
    + destruct (IH n) as [A B0]; [lia|]. split; [|exact B0]. rewrite A. split; intros [? ?]; split; auto; lia.
Qed.

(** ** Validation *)

Definition ok3 (p : profile) (c : chunk3) : Prop := validate_chunk3 p c = Ok tt.

Lemma show_chunks3_cons c cs : show_chunks3 (c :: cs) = show_chunk3 c ++ show_chunks3 cs.
Proof. reflexivity. Qed.

Lemma args_ok3 p (args : list (list N * scope3)) :
  iterM (fun a : list N * scope3 => let (_, sc) := a in validate_scope3 p sc) args = Ok tt <->
  Forall (fun a => Forall (ok3 p) (chunks3 (snd a))) args.
Proof.
  rewrite iterM_ok, !Forall_forall. split; intros H [pre [cs v]] Hin; specialize (H _ Hin); cbn in *.
  - now apply iterM_ok.
  - now apply iterM_ok in H.
Qed.

Section Eqs.
  Context (p : profile).
  Lemma vtext3_eq l s : validate_chunk3 p (mkChunk3 l (Text3 s)) = check_text3 false s.
  Proof. reflexivity. Qed.
  Lemma vbreak3_eq l s : validate_chunk3 p (mkChunk3 l (ParagraphBreak3 s)) = check_break3 p 0 s.
  Proof. reflexivity. Qed.
  Lemma vmaths3_eq l mv mt cs : validate_chunk3 p (mkChunk3 l (Maths3 (mkMaths3 mv mt cs))) = iterM (validate_chunk3 p) cs.
  Proof. reflexivity. Qed.
  Lemma vscope3_eq l cs v : validate_chunk3 p (mkChunk3 l (Scope3 (mkScope3 cs v))) = iterM (validate_chunk3 p) cs.
  Proof. reflexivity. Qed.
  Lemma vcmd3_eq l lab args : validate_chunk3 p (mkChunk3 l (Command3 (mkCommand3 lab args))) =
    if str_eqb lab s_begin then Err BeginCommand
    else if str_eqb lab s_end then Err EndCommand
    else let* _ := (if str_len lab =? 1 then Ok tt else check_chars lab) in
         iterM (fun a : list N * scope3 => let (_, sc) := a in validate_scope3 p sc) args.
  Proof. reflexivity. Qed.
  Lemma venv3_eq l lab args cs pb pe : validate_chunk3 p (mkChunk3 l (Environment3 (mkEnv3 lab args cs pb pe))) =
    let* _ := check_chars lab in
    let* _ := iterM (fun a : list N * scope3 => let (_, sc) := a in validate_scope3 p sc) args in
    iterM (validate_chunk3 p) cs.
  Proof. reflexivity. Qed.
  Lemma vchunk3_eq l v : validate_chunk3 p (mkChunk3 l v) = validate_variant3 p v.
  Proof. reflexivity. Qed.
End Eqs.

(** one level of validation *)
Lemma ok3_unfold p c : count_newlines (show_chunk3 c) < two32 -> ok3 p c <-> clean3 c /\
  match variant_of3 c with
  | Text3 _ | ParagraphBreak3 _ => True
  | Command3 (mkCommand3 _ args) => Forall (fun a => Forall (ok3 p) (chunks3 (snd a))) args
  | Scope3 (mkScope3 cs _) => Forall (ok3 p) cs
  | Environment3 (mkEnv3 _ args cs _ _) =>
      Forall (fun a => Forall (ok3 p) (chunks3 (snd a))) args /\ Forall (ok3 p) cs
  | Maths3 (mkMaths3 _ _ cs) => Forall (ok3 p) cs
  end.
Proof.
  intros B.
  destruct c as [l [s|s|[mv mt cs]|[lab args]|[cs v]|[lab args cs pb pe]]]; unfold clean3; cbn [variant_of3].
  - unfold ok3. rewrite vtext3_eq, check_text3_ok, breaks_false. tauto.
  - cbn [show_chunk3 show_variant3] in B. destruct (check_break3_ok p s 0) as [A _]; [lia|]. unfold ok3. rewrite vbreak3_eq, A. rewrite N.add_0_l. tauto.
  - unfold ok3 at 1. rewrite vmaths3_eq, iterM_ok. tauto.
  - unfold ok3 at 1. rewrite vcmd3_eq.
    change (S! "begin") with s_begin. change (S! "end") with s_end.
    destruct (str_eqb lab s_begin) eqn:E1.
    { apply str_eqb_eq in E1. split; [discriminate|tauto]. }
    destruct (str_eqb lab s_end) eqn:E2.
    { apply str_eqb_eq in E2. split; [discriminate|tauto]. }
    apply str_eqb_neq in E1, E2. rewrite label_bind, args_ok3. tauto.
  - unfold ok3 at 1. rewrite vscope3_eq, iterM_ok. tauto.
  - unfold ok3 at 1. rewrite venv3_eq, env_bind, seq_bind, args_ok3, iterM_ok. tauto.
Qed.

(** nested lists have no more newlines than the whole *)
Lemma nl_in3 c cs : In c cs -> count_newlines (show_chunk3 c) <= count_newlines (show_chunks3 cs).
Proof.
  induction cs as [|x cs IH]; [intros []|]. intros [->|H]; rewrite show_chunks3_cons, count_newlines_app; [lia|].
  specialize (IH H). lia.
Qed.
Lemma nl_arg3 pre sc args : In (pre, sc) args -> count_newlines (show_scope3 sc) <= count_newlines (show_args3 args).
Proof.
  induction args as [|[x y] args IH]; [intros []|]. intros [E|H]; unfold show_args3 in *; cbn [map concat]; rewrite !count_newlines_app.
  - injection E as -> ->. lia.
  - specialize (IH H). lia.
Qed.
Lemma nl_scope3 cs v : count_newlines (show_scope3 (mkScope3 cs v)) = count_newlines (show_chunks3 cs).
Proof.
  cbn [show_scope3]. fold (show_chunks3 cs). rewrite nlc_open3, count_newlines_app, nlc_close3. lia.
Qed.
Lemma nl_cmd3 l lab args : count_newlines (show_args3 args) <= count_newlines (show_chunk3 (mkChunk3 l (Command3 (mkCommand3 lab args)))).
Proof.
  cbn [show_chunk3 show_variant3 show_command3]. fold (show_args3 args). rewrite count_newlines_cons, count_newlines_app. lia.
Qed.
Lemma nl_env3 l lab args cs pb pe :
  count_newlines (show_args3 args) <= count_newlines (show_chunk3 (mkChunk3 l (Environment3 (mkEnv3 lab args cs pb pe)))) /\
  count_newlines (show_chunks3 cs) <= count_newlines (show_chunk3 (mkChunk3 l (Environment3 (mkEnv3 lab args cs pb pe)))).
Proof.
  cbn [show_chunk3 show_variant3 show_env3]. fold (show_args3 args). fold (show_chunks3 cs). rewrite !count_newlines_app. lia.
Qed.
Lemma nl_maths3 l mv mt cs :
  count_newlines (show_chunks3 cs) <= count_newlines (show_chunk3 (mkChunk3 l (Maths3 (mkMaths3 mv mt cs)))).
Proof. cbn [show_chunk3 show_variant3 show_maths3]. fold (show_chunks3 cs). rewrite !count_newlines_app. lia. Qed.

Lemma nl_within3 d cs : within3 d cs -> count_newlines (show_chunks3 cs) <= count_newlines (show_chunks3 d).
Proof.
  induction 1 as [|cs l inner v Hw IH Hin|cs l lab args pre inner v Hw IH Hin Ha
                      |cs l lab args ct pb pe pre inner v Hw IH Hin Ha|cs l lab args ct pb pe Hw IH Hin
                      |cs l mv mt ct Hw IH Hin]; [lia|..]; apply nl_in3 in Hin.
  - cbn [show_chunk3 show_variant3] in Hin. rewrite nl_scope3 in Hin. lia.
  - apply nl_arg3 in Ha. rewrite nl_scope3 in Ha. pose proof (nl_cmd3 l lab args). lia.
  - apply nl_arg3 in Ha. rewrite nl_scope3 in Ha. pose proof (nl_env3 l lab args ct pb pe). lia.
  - pose proof (nl_env3 l lab args ct pb pe). lia.
  - pose proof (nl_maths3 l mv mt ct). lia.
Qed.

Lemma ok3_within p d : count_newlines (show_chunks3 d) < two32 ->
  Forall (ok3 p) d <-> forall cs, within3 d cs -> Forall clean3 cs.
Proof.
  intros B.
  assert (BI : forall cs c, within3 d cs -> In c cs -> count_newlines (show_chunk3 c) < two32).
  { intros cs c Hw Hin. apply nl_within3 in Hw. apply nl_in3 in Hin. lia. }
  split.
  - intros H cs Hw.
    assert (K : Forall (ok3 p) cs).
    { induction Hw as [|cs l inner v Hw IH Hin|cs l lab args pre inner v Hw IH Hin Ha
                      |cs l lab args ct pb pe pre inner v Hw IH Hin Ha|cs l lab args ct pb pe Hw IH Hin
                      |cs l mv mt ct Hw IH Hin]; auto;
       rewrite Forall_forall in IH; specialize (IH _ Hin); apply ok3_unfold in IH as [_ IH]; eauto; cbn in IH.
      - rewrite Forall_forall in IH. exact (IH _ Ha).
      - destruct IH as [IH _]. rewrite Forall_forall in IH. exact (IH _ Ha).
      - exact (proj2 IH). }
    rewrite Forall_forall in K |- *. intros c Hc. specialize (K c Hc).
    apply ok3_unfold in K as [K _]; eauto.
  - intros H.
    assert (K : forall c, (exists cs, within3 d cs /\ In c cs) -> ok3 p c).
    { intros c. induction c as [l s|l s|l lab args IH|l cs v IH|l lab args cs pb pe IHa IH|l mv mt cs IH] using chunk3_ind';
       intros (cs0 & Hw & Hin); (apply ok3_unfold; [eauto|]);
       (split; [pose proof (H _ Hw) as Hc; rewrite Forall_forall in Hc; now apply Hc|]); cbn.
      - exact I.
      - exact I.
      - rewrite Forall_forall in IH |- *. intros [pre [cs v]] Ha. specialize (IH _ Ha). cbn in *.
        rewrite Forall_forall in IH |- *. intros x Hx. apply (IH _ Hx). exists cs. split; [|assumption].
        eapply w3_arg; eauto.
      - rewrite Forall_forall in IH |- *. intros x Hx. apply (IH _ Hx). exists cs. split; [|assumption].
        eapply w3_scope; eauto.
      - split.
        + rewrite Forall_forall in IHa |- *. intros [pre [ics v]] Ha. specialize (IHa _ Ha). cbn in *.
          rewrite Forall_forall in IHa |- *. intros x Hx. apply (IHa _ Hx). exists ics. split; [|assumption].
          eapply w3_env_arg; eauto.
        + rewrite Forall_forall in IH |- *. intros x Hx. apply (IH _ Hx). exists cs. split; [|assumption].
          eapply w3_env; eauto.
      - rewrite Forall_forall in IH |- *. intros x Hx. apply (IH _ Hx). exists cs. split; [|assumption].
        eapply w3_maths; eauto. }
    apply Forall_forall. intros c Hc. apply K. exists d. split; [constructor|assumption].
Qed.

(** accumulation of lines *)
Definition lines_from3 (L : N) (d : list chunk3) : Prop :=
  forall pre c post, d = pre ++ c :: post -> line_no3 c = L + count_newlines (show_chunks3 pre).

Lemma lines_from3_cons L c d : lines_from3 L (c :: d) <->
  line_no3 c = L /\ lines_from3 (L + count_newlines (show_chunk3 c)) d.
Proof.
  unfold lines_from3. split.
  - intros H. split.
    + rewrite (H [] c d eq_refl). change (count_newlines (show_chunks3 [])) with 0. lia.
    + intros pre x post ->. rewrite (H (c :: pre) x post eq_refl), show_chunks3_cons, count_newlines_app. lia.
  - intros [H1 H2] pre x post E. destruct pre as [|y pre]; cbn [app] in E; injection E as <- E.
    + change (count_newlines (show_chunks3 [])) with 0. lia.
    + rewrite (H2 _ _ _ E), show_chunks3_cons, count_newlines_app. lia.
Qed.

Lemma lines_ok3 {E} p c : 1 + count_newlines (show_chunk3 c) < two32 ->
  @lines_chunk3 E p c = Ok (1 + count_newlines (show_chunk3 c)).
Proof. apply lines_chunk3_ok. Qed.

Lemma validate_from3_ok p d : forall L, L + count_newlines (show_chunks3 d) < two32 -> 1 <= L ->
  (validate_from3 p L d = Ok tt <-> lines_from3 L d /\ Forall (ok3 p) d).
Proof.
  induction d as [|c d IH]; intros L B H1; cbn [validate_from3].
  { split; [|reflexivity]. intros _. split; [|constructor]. intros pre c post E. now destruct pre. }
  rewrite lines_from3_cons. rewrite show_chunks3_cons, count_newlines_app in B.
  destruct (N.eqb_spec (line_no3 c) L) as [EL|EL]; cbn [negb].
  2:{ split; [discriminate|]. intros [[? _] _]. contradiction. }
  destruct (validate_chunk3 p c) as [[]|e| |] eqn:Ev; cbn [bind].
  2-4: split; [discriminate|]; intros [_ Hf]; inversion Hf; subst; unfold ok3 in *; congruence.
  rewrite lines_ok3 by lia. cbn [bind]. rewrite sub32_ok by lia. cbn [bind]. rewrite add32_ok by lia. cbn [bind].
  rewrite IH by lia. replace (L + (1 + count_newlines (show_chunk3 c) - 1)) with (L + count_newlines (show_chunk3 c)) by lia.
  split.
  - intros [A B0]. repeat split; auto.
  - intros [[_ A] B0]. inversion B0; subst. now split.
Qed.

Lemma validate_vec3_iff p d : 1 + count_newlines (show_chunks3 d) < two32 ->
  (validate_from3 p 1 d = Ok tt <-> well_formed_vec3 d).
Proof.
  intros B. unfold well_formed_vec3, lines_add_up3. rewrite validate_from3_ok by lia.
  rewrite ok3_within by lia. reflexivity.
Qed.

Theorem validate3_iff p d :
  1 + count_newlines (show_chunks3 (d_preamable d)) < two32 ->
  1 + count_newlines (show_chunks3 (d_body d)) < two32 ->
  1 + count_newlines (show_chunks3 (d_trailing d)) < two32 ->
  (validate3 p d = Ok tt <-> well_formed3 d).
Proof.
  intros B1 B2 B3. unfold validate3, well_formed3. rewrite !seq_bind, !validate_vec3_iff by assumption. tauto.
Qed.

(** ** Pushing *)

Lemma push_chunk_vec_unchecked_show d c : show_chunks3 (push_chunk_vec_unchecked d c) = show_chunks3 d ++ show_chunk3 c.
Proof.
  induction d as [|x d IH]; cbn [push_chunk_vec_unchecked].
  - unfold show_chunks3. cbn. now rewrite app_nil_r.
  - destruct d as [|y d].
    + destruct c as [lc [s|s|m|cm|sc|e]]; cbn [variant_of3]; [|unfold show_chunks3; cbn; now rewrite !app_nil_r..].
      destruct x as [lx [s'|s'|m|cm|sc|e]]; unfold show_chunks3; cbn; now rewrite !app_nil_r.
    + rewrite show_chunks3_cons, IH, (show_chunks3_cons x (y :: d)). now rewrite app_assoc.
Qed.

(** the merged or appended list *)
Lemma push_chunk_vec_unchecked_snoc d x c :
  push_chunk_vec_unchecked (d ++ [x]) c =
  match variant_of3 c, x with
  | Text3 s, mkChunk3 l (Text3 s') => d ++ [mkChunk3 l (Text3 (s' ++ s))]
  | _, _ => d ++ [x; c]
  end.
Proof.
  induction d as [|y d IH]; cbn [app].
  - reflexivity.
  - cbn [push_chunk_vec_unchecked]. destruct (d ++ [x]) eqn:E; [now destruct d|]. rewrite <- E in *. rewrite IH.
    destruct (variant_of3 c); auto. destruct x as [lx [s'|s'|m|cm|sc|e]]; auto.
Qed.

Lemma show_chunks3_app a b : show_chunks3 (a ++ b) = show_chunks3 a ++ show_chunks3 b.
Proof. unfold show_chunks3. now rewrite map_app, concat_app. Qed.
Lemma show_chunks3_one c : show_chunks3 [c] = show_chunk3 c.
Proof. unfold show_chunks3. cbn. now rewrite app_nil_r. Qed.

Lemma end_line3_ok {E} p d : lines_add_up3 d -> 2 + count_newlines (show_chunks3 d) < two32 ->
  @end_line3 E p d = Ok (1 + count_newlines (show_chunks3 d)).
Proof.
  intros H B. unfold end_line3. destruct d as [|x d] using rev_ind; [reflexivity|].
  rewrite rev_app_distr. cbn [rev app]. clear IHd.
  rewrite show_chunks3_app, show_chunks3_one, count_newlines_app in *.
  rewrite lines_ok3 by lia. cbn [bind].
  rewrite (H d x [] eq_refl). rewrite add32_ok by lia. cbn [bind]. rewrite sub32_ok by lia. f_equal. lia.
Qed.

Lemma lines_add_up3_snoc d c : lines_add_up3 (d ++ [c]) <->
  lines_add_up3 d /\ line_no3 c = 1 + count_newlines (show_chunks3 d).
Proof.
  unfold lines_add_up3. split.
  - intros H. split; [|exact (H d c [] eq_refl)]. intros pre x post ->. apply (H pre x (post ++ [c])).
    rewrite <- app_assoc. reflexivity.
  - intros [H1 H2] pre x post E. destruct post as [|y post] using rev_ind.
    + apply app_inj_tail in E as [<- <-]. exact H2.
    + clear IHpost. rewrite app_comm_cons, app_assoc in E. apply app_inj_tail in E as [E _]. exact (H1 _ _ _ E).
Qed.

Lemma nl_newline s : count_newlines (c_newline :: s) = 1 + count_newlines s.
Proof. rewrite count_newlines_cons. reflexivity. Qed.

Lemma has_break_app s' s : ~ has_break s' -> count_newlines s = 0 -> ~ has_break (s' ++ s).
Proof.
  intros H Hn (a & w & b & E & Hw). apply H. clear H.
  revert s' E. induction a as [|x a IH]; intros s' E.
  - destruct s' as [|y s'].
    { cbn [app] in E. subst s. change (count_newlines ((c_newline :: w) ++ [c_newline] ++ b) = 0) in Hn.
      rewrite count_newlines_app in Hn. rewrite count_newlines_app in Hn. change (count_newlines [c_newline]) with 1 in Hn. lia. }
    cbn [app] in E. injection E as -> E. exists [], w. cbn [app].
    enough (exists b', s' = w ++ c_newline :: b') as [b' ->] by (now exists b').
    clear Hw. revert s' E. induction w as [|z w IH]; intros s' E; destruct s' as [|y s']; cbn [app] in E.
    + subst s. rewrite nl_newline in Hn. lia.
    + injection E as -> E. now exists s'.
    + subst s. change (count_newlines ((z :: w) ++ c_newline :: b) = 0) in Hn.
      rewrite count_newlines_app, nl_newline in Hn. lia.
    + injection E as -> E. destruct (IH _ E) as [b' ->]. now exists b'.
  - destruct s' as [|y s']; cbn [app] in E.
    { subst s. change (count_newlines ((x :: a) ++ [c_newline] ++ w ++ [c_newline] ++ b) = 0) in Hn.
      rewrite !count_newlines_app in Hn. change (count_newlines [c_newline]) with 1 in Hn. lia. }
    injection E as -> E. destruct (IH _ E) as (a' & w' & b' & -> & Hw'). exists (x :: a'), w', b'. now split.
Qed.

Lemma push_valid3 p d c : lines_add_up3 d -> Forall (ok3 p) d -> ok3 p c -> line_no3 c = 1 + count_newlines (show_chunks3 d) ->
  count_newlines (show_chunks3 d) + count_newlines (show_chunk3 c) < two32 ->
  joins_cleanly d (variant_of3 c) ->
  lines_add_up3 (push_chunk_vec_unchecked d c) /\ Forall (ok3 p) (push_chunk_vec_unchecked d c).
Proof.
  intros HL HF HC EL B J. destruct d as [|x d] using rev_ind.
  { cbn [push_chunk_vec_unchecked]. split; [|now constructor].
    apply (lines_add_up3_snoc [] c). now split. }
  clear IHd. rewrite push_chunk_vec_unchecked_snoc.
  assert (G : lines_add_up3 (d ++ [x; c]) /\ Forall (ok3 p) (d ++ [x; c])).
  { change (d ++ [x; c]) with (d ++ ([x] ++ [c])). rewrite app_assoc. split.
    - apply lines_add_up3_snoc. now split.
    - apply Forall_app. split; [assumption|now constructor]. }
  destruct (variant_of3 c) as [s|s|m|cm|sc|e] eqn:Ev; auto.
  destruct x as [lx [s'|s'|m|cm|sc|e]]; auto.
  apply lines_add_up3_snoc in HL as [HL1 HL2]. apply Forall_app in HF as [HF1 HF2].
  split.
  - apply lines_add_up3_snoc. split; assumption.
  - apply Forall_app. split; [assumption|]. constructor; [|constructor].
    inversion HF2 as [|? ? Hx _]; subst. destruct c as [lc v]. cbn in Ev. subst v.
    rewrite show_chunks3_app, show_chunks3_one, count_newlines_app in B. cbn [show_chunk3 show_variant3] in B.
    apply ok3_unfold in Hx as [[Hx _] _]; [|cbn; lia]. apply ok3_unfold in HC as [[HC _] _]; [|cbn; lia].
    apply ok3_unfold; [cbn; rewrite count_newlines_app; lia|]. split; [|exact I].
    unfold clean3 in *. cbn [variant_of3] in *. rewrite existsb_app, Hx, HC. split; [reflexivity|].
    exact (J _ _ _ _ eq_refl eq_refl).
Qed.

(** C14: the decision rule of [push_chunk], and of [push] *)
Theorem push_chunk_vec_decision p d c : well_formed_vec3 d -> 2 + count_newlines (show_chunks3 d) < two32 ->
  (forall e, validate_chunk3 p c = Err e -> push_chunk_vec p d c = Err e) /\
  (validate_chunk3 p c = Ok tt -> line_no3 c <> 1 + count_newlines (show_chunks3 d) ->
     push_chunk_vec p d c = Err (IncorrectChunkLineNumber (1 + count_newlines (show_chunks3 d)) (line_no3 c))) /\
  (validate_chunk3 p c = Ok tt -> line_no3 c = 1 + count_newlines (show_chunks3 d) ->
     push_chunk_vec p d c = Ok (push_chunk_vec_unchecked d c)).
Proof.
  intros [HL _] B. unfold push_chunk_vec. repeat split.
  - intros e ->. reflexivity.
  - intros -> Hne. cbn [bind]. rewrite end_line3_ok by assumption. cbn [bind].
    destruct (N.eqb_spec (1 + count_newlines (show_chunks3 d)) (line_no3 c)); [congruence|reflexivity].
  - intros -> He. cbn [bind]. rewrite end_line3_ok by assumption. cbn [bind]. rewrite He, N.eqb_refl. reflexivity.
Qed.

Lemma push_vec_ok p d v : well_formed_vec3 d -> 2 + count_newlines (show_chunks3 d) < two32 ->
  validate_variant3 p v = Ok tt ->
  push_vec p d v = Ok (push_chunk_vec_unchecked d (mkChunk3 (1 + count_newlines (show_chunks3 d)) v)).
Proof.
  intros [HL _] B H. unfold push_vec, push_vec_unchecked. rewrite H. cbn [bind]. now rewrite end_line3_ok.
Qed.

(** C12: Display after a push, for any document (valid or not) *)
Theorem push_vec_show p d v d' : push_vec p d v = Ok d' -> show_chunks3 d' = show_chunks3 d ++ show_variant3 v.
Proof.
  unfold push_vec, push_vec_unchecked. destruct (validate_variant3 p v); cbn [bind]; try discriminate.
  destruct (end_line3 p d); cbn [bind]; try discriminate. intros H. injection H as <-.
  apply (push_chunk_vec_unchecked_show d (mkChunk3 _ v)).
Qed.
Theorem push_chunk_vec_show p d c d' : push_chunk_vec p d c = Ok d' -> show_chunks3 d' = show_chunks3 d ++ show_chunk3 c.
Proof.
  unfold push_chunk_vec. destruct (validate_chunk3 p c); cbn [bind]; try discriminate.
  destruct (end_line3 p d); cbn [bind]; try discriminate.
  destruct (negb _); intros H; [discriminate|]. injection H as <-. apply push_chunk_vec_unchecked_show.
Qed.

(** C13/C37, one step *)
Lemma push_chunk_vec_wf p d c d' : well_formed_vec3 d ->
  2 + count_newlines (show_chunks3 d) + count_newlines (show_chunk3 c) < two32 ->
  push_chunk_vec p d c = Ok d' -> joins_cleanly d (variant_of3 c) -> well_formed_vec3 d'.
Proof.
  intros W B H J. pose proof W as [HL HC]. apply (ok3_within p) in HC; [|lia].
  assert (S0 := push_chunk_vec_show _ _ _ _ H).
  unfold push_chunk_vec in H. destruct (validate_chunk3 p c) as [[]|e| |] eqn:Ev; cbn [bind] in H; try discriminate.
  rewrite end_line3_ok in H by (assumption || lia). cbn [bind] in H.
  destruct (N.eqb_spec (1 + count_newlines (show_chunks3 d)) (line_no3 c)) as [E|]; cbn [negb] in H; [|discriminate].
  injection H as <-. destruct (push_valid3 p d c HL HC Ev (eq_sym E)) as [A B0]; [lia|assumption|].
  split; [exact A|]. apply (ok3_within p); [|assumption]. rewrite S0, count_newlines_app. lia.
Qed.
Lemma push_vec_wf p d v d' : well_formed_vec3 d ->
  2 + count_newlines (show_chunks3 d) + count_newlines (show_variant3 v) < two32 ->
  push_vec p d v = Ok d' -> joins_cleanly d v -> well_formed_vec3 d'.
Proof.
  intros W B H J. pose proof W as [HL HC]. apply (ok3_within p) in HC; [|lia].
  assert (S0 := push_vec_show _ _ _ _ H).
  destruct (validate_variant3 p v) as [[]|e| |] eqn:Ev.
  2-4: unfold push_vec in H; rewrite Ev in H; discriminate.
  rewrite (push_vec_ok p d v W ltac:(lia) Ev) in H. injection H as <-.
  destruct (push_valid3 p d (mkChunk3 (1 + count_newlines (show_chunks3 d)) v) HL HC Ev eq_refl) as [A B0];
    [cbn [show_chunk3]; lia|assumption|].
  split; [exact A|]. apply (ok3_within p); [|assumption]. rewrite S0, count_newlines_app. lia.
Qed.

(** the converse: a push that joins two texts over a paragraph break makes the section invalid *)
Lemma push_vec_break p d v d' : well_formed_vec3 d -> 2 + count_newlines (show_chunks3 d) < two32 ->
  push_vec p d v = Ok d' -> well_formed_vec3 d' -> joins_cleanly d v.
Proof.
  intros W B H [_ HC] d0 l s' s -> ->.
  destruct (validate_variant3 p (Text3 s)) as [[]|e| |] eqn:Ev.
  2-4: unfold push_vec in H; rewrite Ev in H; discriminate.
  rewrite (push_vec_ok p _ _ W B Ev), push_chunk_vec_unchecked_snoc in H. cbn [variant_of3] in H.
  injection H as <-. specialize (HC _ (w3_self _)). apply Forall_app in HC as [_ HC].
  inversion HC as [|? ? Hx _]; subst. exact (proj2 Hx).
Qed.

Lemma validate_chunk3_total p c : count_newlines (show_chunk3 c) < two32 ->
  validate_chunk3 p c = Ok tt \/ exists e, validate_chunk3 p c = Err e.
Proof.
  assert (L : forall cs, Forall (fun c => count_newlines (show_chunk3 c) < two32 ->
                 validate_chunk3 p c = Ok tt \/ exists e, validate_chunk3 p c = Err e) cs ->
              count_newlines (show_chunks3 cs) < two32 ->
              iterM (validate_chunk3 p) cs = Ok tt \/ exists e, iterM (validate_chunk3 p) cs = Err e).
  { intros cs IH B. apply iterM_total. rewrite Forall_forall in *. intros x Hx. apply IH; [assumption|].
    apply nl_in3 in Hx. lia. }
  assert (J : forall args, Forall (fun a => Forall (fun c => count_newlines (show_chunk3 c) < two32 ->
       validate_chunk3 p c = Ok tt \/ exists e, validate_chunk3 p c = Err e) (chunks3 (snd a))) args ->
    count_newlines (show_args3 args) < two32 ->
    iterM (fun a : list N * scope3 => let (_, sc) := a in validate_scope3 p sc) args = Ok tt \/
    exists e, iterM (fun a : list N * scope3 => let (_, sc) := a in validate_scope3 p sc) args = Err e).
  { intros args IH B. apply iterM_total. rewrite Forall_forall in *. intros [pre [cs v']] H. specialize (IH _ H).
    apply L; [exact IH|]. apply nl_arg3 in H. rewrite nl_scope3 in H. lia. }
  induction c as [l s|l s|l lab args IH|l cs v' IH|l lab args cs pb pe IHa IH|l mv mt cs IH] using chunk3_ind';
    intros B.
  - rewrite vtext3_eq. apply check_text3_total.
  - rewrite vbreak3_eq. apply check_break3_ok. cbn in B. lia.
  - rewrite vcmd3_eq. destruct (str_eqb lab s_begin); [eauto|]. destruct (str_eqb lab s_end); [eauto|].
    pose proof (nl_cmd3 l lab args). apply J in IH; [|lia]. destruct (str_len lab =? 1); cbn [bind]; [exact IH|].
    destruct (check_chars_total lab) as [->|[e ->]]; cbn [bind]; eauto.
  - rewrite vscope3_eq. apply L; [assumption|]. cbn [show_chunk3 show_variant3] in B. now rewrite nl_scope3 in B.
  - rewrite venv3_eq. destruct (check_chars_total lab) as [->|[e ->]]; cbn [bind]; [|eauto].
    pose proof (nl_env3 l lab args cs pb pe).
    destruct (J _ IHa) as [->|[e ->]]; cbn [bind]; [lia| |eauto]. apply L; [assumption|lia].
  - rewrite vmaths3_eq. apply L; [assumption|]. pose proof (nl_maths3 l mv mt cs). lia.
Qed.

(** ** Whole documents *)

Lemma get_set_same s d cs : get_section s (set_section s d cs) = cs.
Proof. now destruct s. Qed.
Lemma get_set_other s s' d cs : s <> s' -> get_section s' (set_section s d cs) = get_section s' d.
Proof. destruct s, s'; cbn; congruence. Qed.
Lemma section_dec (a b : section) : {a = b} + {a <> b}.
Proof. decide equality. Qed.

Definition wf_sections (d : document3) : Prop := forall s, well_formed_vec3 (get_section s d).
Lemma wf_sections_iff d : wf_sections d <-> well_formed3 d.
Proof.
  unfold wf_sections, well_formed3. split.
  - intros H. exact (conj (H Preamable) (conj (H Body) (H Trailing))).
  - intros (A & B & C) [| |]; assumption.
Qed.

Definition total_nl (d : document3) : N :=
  count_newlines (show_chunks3 (d_preamable d)) + count_newlines (show_chunks3 (d_body d))
  + count_newlines (show_chunks3 (d_trailing d)).
Lemma section_nl s d : count_newlines (show_chunks3 (get_section s d)) <= total_nl d.
Proof. unfold total_nl. destruct s; cbn [get_section set_section d_preamable d_body d_trailing]; lia. Qed.
Lemma total_set s d cs n : count_newlines (show_chunks3 cs) = count_newlines (show_chunks3 (get_section s d)) + n ->
  total_nl (set_section s d cs) = total_nl d + n.
Proof. unfold total_nl. destruct s; cbn [get_section set_section d_preamable d_body d_trailing]; lia. Qed.

Theorem push3_wf p s d v d' : well_formed3 d -> 2 + total_nl d + count_newlines (show_variant3 v) < two32 ->
  push3 p s d v = Ok d' -> joins_cleanly (get_section s d) v -> well_formed3 d'.
Proof.
  rewrite <- !wf_sections_iff. intros W B H J. unfold push3 in H.
  destruct (push_vec p (get_section s d) v) as [cs|e| |] eqn:E; cbn [bind] in H; try discriminate.
  injection H as <-. intros s'. destruct (section_dec s s') as [<-|Hs].
  - rewrite get_set_same. eapply push_vec_wf; eauto. pose proof (section_nl s d). lia.
  - rewrite get_set_other by assumption. apply W.
Qed.
Theorem push_chunk3_wf p s d c d' : well_formed3 d -> 2 + total_nl d + count_newlines (show_chunk3 c) < two32 ->
  push_chunk3 p s d c = Ok d' -> joins_cleanly (get_section s d) (variant_of3 c) -> well_formed3 d'.
Proof.
  rewrite <- !wf_sections_iff. intros W B H J. unfold push_chunk3 in H.
  destruct (push_chunk_vec p (get_section s d) c) as [cs|e| |] eqn:E; cbn [bind] in H; try discriminate.
  injection H as <-. intros s'. destruct (section_dec s s') as [<-|Hs].
  - rewrite get_set_same. eapply push_chunk_vec_wf; eauto. pose proof (section_nl s d). lia.
  - rewrite get_set_other by assumption. apply W.
Qed.

Lemma joins_no_newline d v : well_formed_vec3 d -> (forall s, v = Text3 s -> count_newlines s = 0) -> joins_cleanly d v.
Proof.
  intros [_ W] H d0 l s' s -> ->. apply has_break_app; [|now apply H].
  specialize (W _ (w3_self _)). apply Forall_app in W as [_ W]. inversion W as [|? ? Hx _]; subst. exact (proj2 Hx).
Qed.

Theorem run_ops3_wf p ops : forall d, well_formed3 d ->
  (forall o s, In o ops -> op_variant3 o = Text3 s -> count_newlines s = 0) ->
  2 + total_nl d + count_newlines (concat (map (fun o => show_variant3 (op_variant3 o)) ops)) < two32 ->
  exists d', run_ops3 p d ops = Ok d' /\ well_formed3 d' /\
    total_nl d' <= total_nl d + count_newlines (concat (map (fun o => show_variant3 (op_variant3 o)) ops)).
Proof.
  induction ops as [|o ops IH]; intros d W HT B.
  - exists d. split; [reflexivity|]. split; [assumption|]. lia.
  - cbn [map concat] in B. rewrite count_newlines_app in B. unfold run_ops3. cbn [foldM].
    assert (S1 : exists d1, apply_op3 p d o = Ok d1 /\ well_formed3 d1 /\
       total_nl d1 <= total_nl d + count_newlines (show_variant3 (op_variant3 o))).
    { assert (HT1 : forall s, op_variant3 o = Text3 s -> count_newlines s = 0) by (intros s0; apply HT; now left).
      destruct o as [s v|s c]; unfold apply_op3; cbn [op_variant3] in *.
      - assert (Ws := proj2 (wf_sections_iff d) W s). pose proof (section_nl s d) as Hs.
        destruct (validate_chunk3_total p (mkChunk3 1 v)) as [Ev|[e Ev]]; [cbn [show_chunk3]; lia| |]; rewrite vchunk3_eq in Ev.
        + pose proof (push_vec_ok p _ v Ws ltac:(lia) Ev) as E.
          assert (E3 : push3 p s d v = Ok (set_section s d (push_chunk_vec_unchecked (get_section s d)
                  (mkChunk3 (1 + count_newlines (show_chunks3 (get_section s d))) v)))).
          { unfold push3. rewrite E. reflexivity. }
          rewrite E3. eexists; split; [reflexivity|]. split.
          * eapply push3_wf; [exact W| |exact E3|]; [lia|]. now apply joins_no_newline.
          * rewrite (total_set s d _ (count_newlines (show_variant3 v))); [lia|].
            rewrite push_chunk_vec_unchecked_show, count_newlines_app. reflexivity.
        + unfold push3, push_vec. rewrite Ev. cbn [bind]. exists d. split; [reflexivity|]. split; [assumption|lia].
      - assert (Ws := proj2 (wf_sections_iff d) W s). pose proof (section_nl s d) as Hs.
        destruct c as [lc v]. cbn [variant_of3] in *.
        destruct (push_chunk_vec_decision p _ (mkChunk3 lc v) Ws ltac:(lia)) as (D1 & D2 & D3).
        destruct (validate_chunk3_total p (mkChunk3 lc v)) as [Ev|[e Ev]]; [cbn [show_chunk3]; lia| |].
        + destruct (N.eq_dec lc (1 + count_newlines (show_chunks3 (get_section s d)))) as [El|El].
          * pose proof (D3 Ev El) as E.
            assert (E3 : push_chunk3 p s d (mkChunk3 lc v) = Ok (set_section s d (push_chunk_vec_unchecked (get_section s d) (mkChunk3 lc v)))).
            { unfold push_chunk3. rewrite E. reflexivity. }
            rewrite E3. eexists; split; [reflexivity|]. split.
            -- eapply push_chunk3_wf; [exact W| |exact E3|]; [cbn [show_chunk3]; lia|]. now apply joins_no_newline.
            -- rewrite (total_set s d _ (count_newlines (show_variant3 v))); [lia|].
               rewrite push_chunk_vec_unchecked_show, count_newlines_app. reflexivity.
          * unfold push_chunk3. rewrite (D2 Ev El). exists d. split; [reflexivity|]. split; [assumption|lia].
        + unfold push_chunk3. rewrite (D1 _ Ev). exists d. split; [reflexivity|]. split; [assumption|lia]. }
    destruct S1 as (d1 & E1 & W1 & N1). rewrite E1. cbn [bind].
    destruct (IH d1 W1) as (d' & E' & W' & N').
    { intros o' s0 Hin. apply HT. now right. }
    { lia. }
    exists d'. split; [exact E'|]. split; [exact W'|]. cbn [map concat]. rewrite count_newlines_app. lia.
Qed.
