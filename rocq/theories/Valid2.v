(** * Valid2: validation and pushing, stage 2 *)
From Verif Require Import Base Ast1 Parse1 Ast2 Ast3 Spec1 SpecDoc1 SpecDoc2 Tok Refine1 Ind Lines Facts1 Valid1.

Definition ok2 (c : chunk2) : Prop := validate_chunk2 c = Ok tt.

Lemma str_eqb_eq a : forall b, str_eqb a b = true <-> a = b.
Proof.
  induction a as [|x a IH]; intros [|y b]; cbn [str_eqb]; split; intros H; try discriminate; auto.
  - apply andb_true_iff in H as [H1 H2]. apply N.eqb_eq in H1. apply IH in H2. congruence.
  - injection H as -> ->. rewrite N.eqb_refl. now apply IH.
Qed.
Lemma str_eqb_neq a b : str_eqb a b = false <-> a <> b.
Proof. rewrite <- not_true_iff_false, str_eqb_eq. reflexivity. Qed.
Lemma str_eqb_refl a : str_eqb a a = true.
Proof. now apply str_eqb_eq. Qed.

Lemma env_bind lab (k : outcome internal_error unit) :
  (let* _ := check_chars lab in k) = Ok tt <-> existsb special lab = false /\ k = Ok tt.
Proof.
  rewrite <- check_chars_ok. destruct (check_chars lab) as [[]|e| |]; cbn [bind]; intuition congruence.
Qed.
Lemma seq_bind (a k : outcome internal_error unit) : (let* _ := a in k) = Ok tt <-> a = Ok tt /\ k = Ok tt.
Proof. destruct a as [[]|e| |]; cbn [bind]; intuition congruence. Qed.

Lemma args_ok2 (args : list (list N * scope2)) :
  iterM (fun a : list N * scope2 => let (_, sc) := a in validate_scope2 sc) args = Ok tt <->
  Forall (fun a => Forall ok2 (chunks2 (snd a))) args.
Proof.
  rewrite iterM_ok, !Forall_forall. split; intros H [pre [cs v]] Hin; specialize (H _ Hin); cbn in *.
  - now apply iterM_ok.
  - now apply iterM_ok in H.
Qed.

(** one level of validation *)
Lemma ok2_unfold c : ok2 c <-> clean2 c /\
  match variant_of2 c with
  | Text2 _ => True
  | Command2 (mkCommand2 _ args) => Forall (fun a => Forall ok2 (chunks2 (snd a))) args
  | Scope2 (mkScope2 cs _) => Forall ok2 cs
  | Environment2 (mkEnv2 _ args cs _ _) =>
      Forall (fun a => Forall ok2 (chunks2 (snd a))) args /\ Forall ok2 cs
  end.
Proof.
  destruct c as [l [s|[lab args]|[cs v]|[lab args cs pb pe]]]; unfold ok2, clean2; cbn [validate_chunk2 validate_variant2 variant_of2].
  - rewrite check_chars_ok. tauto.
  - cbn [validate_command2].
    change (S! "begin") with s_begin. change (S! "end") with s_end.
    destruct (str_eqb lab s_begin) eqn:E1.
    { apply str_eqb_eq in E1. split; [discriminate|tauto]. }
    destruct (str_eqb lab s_end) eqn:E2.
    { apply str_eqb_eq in E2. split; [discriminate|tauto]. }
    apply str_eqb_neq in E1, E2. rewrite label_bind, args_ok2. tauto.
  - cbn [validate_scope2]. rewrite iterM_ok. tauto.
  - cbn [validate_env2]. rewrite env_bind, seq_bind, args_ok2, iterM_ok. tauto.
Qed.

Lemma ok2_within d : Forall ok2 d <-> forall cs, within2 d cs -> Forall clean2 cs.
Proof.
  split.
  - intros H cs Hw.
    assert (K : Forall ok2 cs).
    { induction Hw as [|cs l inner v Hw IH Hin|cs l lab args pre inner v Hw IH Hin Ha
                      |cs l lab args ct pb pe pre inner v Hw IH Hin Ha|cs l lab args ct pb pe Hw IH Hin]; auto;
       rewrite Forall_forall in IH; specialize (IH _ Hin); apply ok2_unfold in IH as [_ IH]; cbn in IH.
      - exact IH.
      - rewrite Forall_forall in IH. exact (IH _ Ha).
      - destruct IH as [IH _]. rewrite Forall_forall in IH. exact (IH _ Ha).
      - exact (proj2 IH). }
    eapply Forall_impl; [|exact K]. intros c Hc. now apply ok2_unfold in Hc as [Hc _].
  - intros H.
    assert (K : forall c, (exists cs, within2 d cs /\ In c cs) -> ok2 c).
    { intros c. induction c as [l s|l lab args IH|l cs v IH|l lab args cs pb pe IHa IH] using chunk2_ind';
       intros (cs0 & Hw & Hin); apply ok2_unfold;
       (split; [pose proof (H _ Hw) as Hc; rewrite Forall_forall in Hc; now apply Hc|]); cbn.
      - exact I.
      - rewrite Forall_forall in IH |- *. intros [pre [cs v]] Ha. specialize (IH _ Ha). cbn in *.
        rewrite Forall_forall in IH |- *. intros x Hx. apply (IH _ Hx). exists cs. split; [|assumption].
        eapply w2_arg; eauto.
      - rewrite Forall_forall in IH |- *. intros x Hx. apply (IH _ Hx). exists cs. split; [|assumption].
        eapply w2_scope; eauto.
      - split.
        + rewrite Forall_forall in IHa |- *. intros [pre [ics v]] Ha. specialize (IHa _ Ha). cbn in *.
          rewrite Forall_forall in IHa |- *. intros x Hx. apply (IHa _ Hx). exists ics. split; [|assumption].
          eapply w2_env_arg; eauto.
        + rewrite Forall_forall in IH |- *. intros x Hx. apply (IH _ Hx). exists cs. split; [|assumption].
          eapply w2_env; eauto. }
    apply Forall_forall. intros c Hc. apply K. exists d. split; [constructor|assumption].
Qed.

Lemma show2_cons c cs : show2 (c :: cs) = show_chunk2 c ++ show2 cs.
Proof. reflexivity. Qed.

(** accumulation of lines *)
Definition lines_from2 (L : N) (d : list chunk2) : Prop :=
  forall pre c post, d = pre ++ c :: post -> line_no2 c = L + count_newlines (show2 pre).

Lemma lines_from2_cons L c d : lines_from2 L (c :: d) <->
  line_no2 c = L /\ lines_from2 (L + count_newlines (show_chunk2 c)) d.
Proof.
  unfold lines_from2. split.
  - intros H. split.
    + rewrite (H [] c d eq_refl). change (count_newlines (show2 [])) with 0. lia.
    + intros pre x post ->. rewrite (H (c :: pre) x post eq_refl), show2_cons, count_newlines_app. lia.
  - intros [H1 H2] pre x post E. destruct pre as [|y pre]; cbn [app] in E; injection E as <- E.
    + change (count_newlines (show2 [])) with 0. lia.
    + rewrite (H2 _ _ _ E), show2_cons, count_newlines_app. lia.
Qed.

Lemma lines_ok2 {E} p c : 1 + count_newlines (show_chunk2 c) < two32 ->
  @lines_chunk2 E p c = Ok (1 + count_newlines (show_chunk2 c)).
Proof. apply lines_chunk2_ok. Qed.

Lemma validate_from2_ok p d : forall L, L + count_newlines (show2 d) < two32 -> 1 <= L ->
  (validate_from2 p L d = Ok tt <-> lines_from2 L d /\ Forall ok2 d).
Proof.
  induction d as [|c d IH]; intros L B H1; cbn [validate_from2].
  { split; [|reflexivity]. intros _. split; [|constructor]. intros pre c post E. now destruct pre. }
  rewrite lines_from2_cons. rewrite show2_cons, count_newlines_app in B.
  destruct (N.eqb_spec (line_no2 c) L) as [EL|EL]; cbn [negb].
  2:{ split; [discriminate|]. intros [[? _] _]. contradiction. }
  destruct (validate_chunk2 c) as [[]|e| |] eqn:Ev; cbn [bind].
  2-4: split; [discriminate|]; intros [_ Hf]; inversion Hf; subst; unfold ok2 in *; congruence.
  rewrite lines_ok2 by lia. cbn [bind]. rewrite sub32_ok by lia. cbn [bind]. rewrite add32_ok by lia. cbn [bind].
  rewrite IH by lia. replace (L + (1 + count_newlines (show_chunk2 c) - 1)) with (L + count_newlines (show_chunk2 c)) by lia.
  split.
  - intros [A B0]. repeat split; auto.
  - intros [[_ A] B0]. inversion B0; subst. now split.
Qed.

Theorem validate2_iff p d : 1 + count_newlines (show2 d) < two32 ->
  (validate2 p d = Ok tt <-> well_formed2 d).
Proof.
  intros B. unfold validate2, well_formed2, lines_add_up2. rewrite validate_from2_ok by lia.
  rewrite ok2_within. reflexivity.
Qed.

(** ** Pushing *)

Lemma push_chunk_unchecked2_show d c : show2 (push_chunk_unchecked2 d c) = show2 d ++ show_chunk2 c.
Proof.
  induction d as [|x d IH]; cbn [push_chunk_unchecked2].
  - unfold show2. cbn. now rewrite app_nil_r.
  - destruct d as [|y d].
    + destruct c as [lc [s|cm|sc|e]]; cbn [variant_of2]; [|unfold show2; cbn; now rewrite !app_nil_r..].
      destruct x as [lx [s'|cm|sc|e]]; unfold show2; cbn; now rewrite !app_nil_r.
    + rewrite show2_cons, IH, (show2_cons x (y :: d)). now rewrite app_assoc.
Qed.

(** the merged or appended list *)
Lemma push_chunk_unchecked2_snoc d x c :
  push_chunk_unchecked2 (d ++ [x]) c =
  match variant_of2 c, x with
  | Text2 s, mkChunk2 l (Text2 s') => d ++ [mkChunk2 l (Text2 (s' ++ s))]
  | _, _ => d ++ [x; c]
  end.
Proof.
  induction d as [|y d IH]; cbn [app].
  - reflexivity.
  - cbn [push_chunk_unchecked2]. destruct (d ++ [x]) eqn:E; [now destruct d|]. rewrite <- E in *. rewrite IH.
    destruct (variant_of2 c); auto. destruct x as [lx [s'|cm|sc|e]]; auto.
Qed.

Lemma show2_app a b : show2 (a ++ b) = show2 a ++ show2 b.
Proof. unfold show2. now rewrite map_app, concat_app. Qed.
Lemma show2_one c : show2 [c] = show_chunk2 c.
Proof. unfold show2. cbn. now rewrite app_nil_r. Qed.

Lemma end_line2_ok {E} p d : lines_add_up2 d -> 2 + count_newlines (show2 d) < two32 ->
  @end_line2 E p d = Ok (1 + count_newlines (show2 d)).
Proof.
  intros H B. unfold end_line2. destruct d as [|x d] using rev_ind; [reflexivity|].
  rewrite rev_app_distr. cbn [rev app]. clear IHd.
  rewrite show2_app, show2_one, count_newlines_app in *.
  rewrite lines_ok2 by lia. cbn [bind].
  rewrite (H d x [] eq_refl). rewrite add32_ok by lia. cbn [bind]. rewrite sub32_ok by lia. f_equal. lia.
Qed.

Lemma lines_add_up2_snoc d c : lines_add_up2 (d ++ [c]) <->
  lines_add_up2 d /\ line_no2 c = 1 + count_newlines (show2 d).
Proof.
  unfold lines_add_up2. split.
  - intros H. split; [|exact (H d c [] eq_refl)]. intros pre x post ->. apply (H pre x (post ++ [c])).
    rewrite <- app_assoc. reflexivity.
  - intros [H1 H2] pre x post E. destruct post as [|y post] using rev_ind.
    + apply app_inj_tail in E as [<- <-]. exact H2.
    + clear IHpost. rewrite app_comm_cons, app_assoc in E. apply app_inj_tail in E as [E _]. exact (H1 _ _ _ E).
Qed.

Lemma push_valid2 d c : lines_add_up2 d -> Forall ok2 d -> ok2 c -> line_no2 c = 1 + count_newlines (show2 d) ->
  lines_add_up2 (push_chunk_unchecked2 d c) /\ Forall ok2 (push_chunk_unchecked2 d c).
Proof.
  intros HL HF HC EL. destruct d as [|x d] using rev_ind.
  { cbn [push_chunk_unchecked2]. split; [|now constructor].
    apply (lines_add_up2_snoc [] c). now split. }
  clear IHd. rewrite push_chunk_unchecked2_snoc.
  assert (G : lines_add_up2 (d ++ [x; c]) /\ Forall ok2 (d ++ [x; c])).
  { change (d ++ [x; c]) with (d ++ ([x] ++ [c])). rewrite app_assoc. split.
    - apply lines_add_up2_snoc. now split.
    - apply Forall_app. split; [assumption|now constructor]. }
  destruct (variant_of2 c) as [s|cm|sc|e] eqn:Ev; auto.
  destruct x as [lx [s'|cm|sc|e]]; auto.
  apply lines_add_up2_snoc in HL as [HL1 HL2]. apply Forall_app in HF as [HF1 HF2].
  split.
  - apply lines_add_up2_snoc. split; assumption.
  - apply Forall_app. split; [assumption|]. constructor; [|constructor].
    inversion HF2 as [|? ? Hx _]; subst. destruct c as [lc v]. cbn in Ev. subst v.
    apply ok2_unfold in Hx as [Hx _]. apply ok2_unfold in HC as [HC _]. apply ok2_unfold. split; [|exact I].
    unfold clean2 in *. cbn [variant_of2] in *. now rewrite existsb_app, Hx, HC.
Qed.

(** C14: the decision rule of [push_chunk], and of [push] *)
Theorem push_chunk2_decision p d c : well_formed2 d -> 2 + count_newlines (show2 d) < two32 ->
  (forall e, validate_chunk2 c = Err e -> push_chunk2 p d c = Err e) /\
  (validate_chunk2 c = Ok tt -> line_no2 c <> 1 + count_newlines (show2 d) ->
     push_chunk2 p d c = Err (IncorrectChunkLineNumber (1 + count_newlines (show2 d)) (line_no2 c))) /\
  (validate_chunk2 c = Ok tt -> line_no2 c = 1 + count_newlines (show2 d) ->
     push_chunk2 p d c = Ok (push_chunk_unchecked2 d c)).
Proof.
  intros [HL _] B. unfold push_chunk2. repeat split.
  - intros e ->. reflexivity.
  - intros -> Hne. cbn [bind]. rewrite end_line2_ok by assumption. cbn [bind].
    destruct (N.eqb_spec (1 + count_newlines (show2 d)) (line_no2 c)); [congruence|reflexivity].
  - intros -> He. cbn [bind]. rewrite end_line2_ok by assumption. cbn [bind]. rewrite He, N.eqb_refl. reflexivity.
Qed.

Lemma push2_ok p d v : well_formed2 d -> 2 + count_newlines (show2 d) < two32 ->
  validate_variant2 v = Ok tt ->
  push2 p d v = Ok (push_chunk_unchecked2 d (mkChunk2 (1 + count_newlines (show2 d)) v)).
Proof.
  intros [HL _] B H. unfold push2, push_unchecked2. rewrite H. cbn [bind]. now rewrite end_line2_ok.
Qed.

(** C12: Display after a push, for any document (valid or not) *)
Theorem push2_show p d v d' : push2 p d v = Ok d' -> show2 d' = show2 d ++ show_variant2 v.
Proof.
  unfold push2, push_unchecked2. destruct (validate_variant2 v); cbn [bind]; try discriminate.
  destruct (end_line2 p d); cbn [bind]; try discriminate. intros H. injection H as <-.
  apply (push_chunk_unchecked2_show d (mkChunk2 _ v)).
Qed.
Theorem push_chunk2_show p d c d' : push_chunk2 p d c = Ok d' -> show2 d' = show2 d ++ show_chunk2 c.
Proof.
  unfold push_chunk2. destruct (validate_chunk2 c); cbn [bind]; try discriminate.
  destruct (end_line2 p d); cbn [bind]; try discriminate.
  destruct (negb _); intros H; [discriminate|]. injection H as <-. apply push_chunk_unchecked2_show.
Qed.

(** C13, one step *)
Lemma push_chunk2_wf p d c d' : well_formed2 d -> 2 + count_newlines (show2 d) < two32 ->
  push_chunk2 p d c = Ok d' -> well_formed2 d'.
Proof.
  intros W B H. pose proof W as [HL HC]. apply ok2_within in HC.
  unfold push_chunk2 in H. destruct (validate_chunk2 c) as [[]|e| |] eqn:Ev; cbn [bind] in H; try discriminate.
  rewrite end_line2_ok in H by assumption. cbn [bind] in H.
  destruct (N.eqb_spec (1 + count_newlines (show2 d)) (line_no2 c)) as [E|]; cbn [negb] in H; [|discriminate].
  injection H as <-. destruct (push_valid2 d c HL HC Ev (eq_sym E)) as [A B0].
  split; [exact A|now apply ok2_within].
Qed.
Lemma push2_wf p d v d' : well_formed2 d -> 2 + count_newlines (show2 d) < two32 ->
  push2 p d v = Ok d' -> well_formed2 d'.
Proof.
  intros W B H. pose proof W as [HL HC]. apply ok2_within in HC.
  destruct (validate_variant2 v) as [[]|e| |] eqn:Ev.
  2-4: unfold push2 in H; rewrite Ev in H; discriminate.
  rewrite (push2_ok p d v W B Ev) in H. injection H as <-.
  destruct (push_valid2 d (mkChunk2 (1 + count_newlines (show2 d)) v) HL HC Ev eq_refl) as [A B0].
  split; [exact A|now apply ok2_within].
Qed.

Lemma iterM_total {A} (f : A -> outcome internal_error unit) l :
  Forall (fun x => f x = Ok tt \/ exists e, f x = Err e) l ->
  iterM f l = Ok tt \/ exists e, iterM f l = Err e.
Proof. intros H. induction H as [|x l [Hx|[e Hx]] H IH]; cbn [iterM]; [now left| |]; rewrite Hx; cbn [bind]; eauto. Qed.

Lemma validate_chunk2_total c : validate_chunk2 c = Ok tt \/ exists e, validate_chunk2 c = Err e.
Proof.
  assert (J : forall args, Forall (fun a => Forall (fun c => validate_chunk2 c = Ok tt \/ exists e, validate_chunk2 c = Err e)
                                             (chunks2 (snd a))) args ->
    iterM (fun a : list N * scope2 => let (_, sc) := a in validate_scope2 sc) args = Ok tt \/
    exists e, iterM (fun a : list N * scope2 => let (_, sc) := a in validate_scope2 sc) args = Err e).
  { intros args IH. apply iterM_total. eapply Forall_impl; [|exact IH]. intros [pre [cs v']] H. now apply iterM_total. }
  induction c as [l s|l lab args IH|l cs v' IH|l lab args cs pb pe IHa IH] using chunk2_ind'; cbn [validate_chunk2 validate_variant2].
  - apply check_chars_total.
  - cbn [validate_command2]. destruct (str_eqb lab s_begin); [eauto|]. destruct (str_eqb lab s_end); [eauto|].
    apply J in IH. destruct (str_len lab =? 1); cbn [bind]; [exact IH|].
    destruct (check_chars_total lab) as [->|[e ->]]; cbn [bind]; eauto.
  - cbn [validate_scope2]. now apply iterM_total.
  - cbn [validate_env2]. destruct (check_chars_total lab) as [->|[e ->]]; cbn [bind]; [|eauto].
    destruct (J _ IHa) as [->|[e ->]]; cbn [bind]; [|eauto]. now apply iterM_total.
Qed.
Lemma validate_variant2_total v : validate_variant2 v = Ok tt \/ exists e, validate_variant2 v = Err e.
Proof. exact (validate_chunk2_total (mkChunk2 1 v)). Qed.

(** C13: any history of pushes *)
Theorem run_ops2_wf p ops : forall d, well_formed2 d ->
  2 + count_newlines (show2 d) + count_newlines (concat (map op_text2 ops)) < two32 ->
  exists d', run_ops2 p d ops = Ok d' /\ well_formed2 d' /\
    count_newlines (show2 d') <= count_newlines (show2 d) + count_newlines (concat (map op_text2 ops)).
Proof.
  induction ops as [|o ops IH]; intros d W B.
  - exists d. split; [reflexivity|]. split; [assumption|]. lia.
  - cbn [map concat] in B. rewrite count_newlines_app in B. unfold run_ops2. cbn [foldM].
    assert (S1 : exists d1, apply_op2 p d o = Ok d1 /\ well_formed2 d1 /\
       count_newlines (show2 d1) <= count_newlines (show2 d) + count_newlines (op_text2 o)).
    { assert (B0 : 2 + count_newlines (show2 d) < two32) by lia.
      destruct o as [v|c]; unfold apply_op2, op_text2.
      - destruct (validate_variant2_total v) as [Ev|[e Ev]].
        + pose proof (push2_ok p d v W B0 Ev) as E. rewrite E. eexists; split; [reflexivity|]. split.
          * exact (push2_wf p d v _ W B0 E).
          * rewrite (push2_show p d v _ E), count_newlines_app. lia.
        + unfold push2. rewrite Ev. exists d. split; [reflexivity|]. split; [assumption|lia].
      - destruct (push_chunk2_decision p d c W B0) as (D1 & D2 & D3).
        destruct c as [lc v]. cbn [validate_chunk2] in *. destruct (validate_variant2_total v) as [Ev|[e Ev]].
        + destruct (N.eq_dec lc (1 + count_newlines (show2 d))) as [El|El].
          * pose proof (D3 Ev El) as E. rewrite E. eexists; split; [reflexivity|]. split.
            -- exact (push_chunk2_wf p d _ _ W B0 E).
            -- rewrite (push_chunk2_show p d _ _ E), count_newlines_app. lia.
          * rewrite (D2 Ev El). exists d. split; [reflexivity|]. split; [assumption|lia].
        + rewrite (D1 _ Ev). exists d. split; [reflexivity|]. split; [assumption|lia]. }
    destruct S1 as (d1 & E1 & W1 & N1). rewrite E1. cbn [bind].
    destruct (IH d1 W1) as (d' & E' & W' & N'); [lia|].
    exists d'. split; [exact E'|]. split; [assumption|]. cbn [map concat]. rewrite count_newlines_app. lia.
Qed.
