(** * Valid1: validation and pushing, stage 1 *)
From Verif Require Import Base Ast1 Parse1 Spec1 SpecDoc1 Tok Pure1 Refine1 Gram1 Ind Lines Facts1.

Lemma iterM_ok {E A} (f : A -> outcome E unit) l : iterM f l = Ok tt <-> Forall (fun x => f x = Ok tt) l.
Proof.
  induction l as [|x l IH]; cbn [iterM]; [now split|].
  destruct (f x) as [[]|e| |] eqn:Ex; cbn [bind]; split; intros H.
  - constructor; [assumption|now apply IH].
  - inversion H; subst. now apply IH.
  - discriminate. - inversion H; congruence.
  - discriminate. - inversion H; congruence.
  - discriminate. - inversion H; congruence.
Qed.

Lemma check_chars_ok s : check_chars s = Ok tt <-> existsb special s = false.
Proof.
  induction s as [|c s IH]; cbn [check_chars existsb]; [now split|].
  rewrite unsanitised_special. destruct (special c); cbn [orb]; [split; discriminate|exact IH].
Qed.
Lemma check_chars_err s e : check_chars s = Err e -> exists c, e = UnsanitisedCharInString c /\ In c s /\ special c = true.
Proof.
  induction s as [|c s IH]; cbn [check_chars]; [discriminate|].
  rewrite unsanitised_special. destruct (special c) eqn:Ec.
  - intros H. injection H as <-. exists c. repeat split; [now left|assumption].
  - intros H. apply IH in H as (x & -> & Hx & Hs). exists x. repeat split; [now right|assumption].
Qed.
Lemma check_chars_total s : check_chars s = Ok tt \/ exists e, check_chars s = Err e.
Proof.
  induction s as [|c s IH]; cbn [check_chars]; [now left|]. destruct (unsanitised c); [right; eauto|exact IH].
Qed.

Lemma label_ok {E} lab (f : outcome E unit) :
  (let* _ := (if str_len lab =? 1 then Ok tt else check_chars lab) in Ok tt) = Ok tt <-> clean_label lab = true.
Proof.
  unfold clean_label. destruct (str_len lab =? 1); cbn [bind orb]; [now split|].
  rewrite negb_true_iff, <- check_chars_ok. destruct (check_chars lab) as [[]|e| |]; cbn; split; congruence.
Qed.

Lemma label_bind lab (k : outcome internal_error unit) :
  (let* _ := (if str_len lab =? 1 then Ok tt else check_chars lab) in k) = Ok tt <-> clean_label lab = true /\ k = Ok tt.
Proof.
  unfold clean_label. destruct (str_len lab =? 1); cbn [bind orb]; [tauto|].
  rewrite negb_true_iff, <- check_chars_ok. destruct (check_chars lab) as [[]|e| |]; cbn [bind];
   intuition congruence.
Qed.

Definition ok1 (c : chunk1) : Prop := validate_chunk1 c = Ok tt.

(** one level of validation *)
Lemma ok1_unfold c : ok1 c <-> clean1 c /\
  match variant_of1 c with
  | Text1 _ => True
  | Command1 (mkCommand1 _ args) => Forall (fun a => Forall ok1 (chunks1 (snd a))) args
  | Scope1 (mkScope1 cs _) => Forall ok1 cs
  end.
Proof.
  destruct c as [l [s|[lab args]|[cs v]]]; unfold ok1, clean1; cbn [validate_chunk1 validate_variant1 variant_of1].
  - rewrite check_chars_ok. tauto.
  - cbn [validate_command1]. rewrite label_bind, iterM_ok.
    apply and_iff_compat_l. rewrite !Forall_forall. split; intros H [pre [cs v]] Hin; specialize (H _ Hin); cbn in *.
    + now apply iterM_ok.
    + now apply iterM_ok in H.
  - cbn [validate_scope1]. rewrite iterM_ok. tauto.
Qed.

Lemma ok1_within d : Forall ok1 d <-> forall cs, within1 d cs -> Forall clean1 cs.
Proof.
  split.
  - intros H cs Hw.
    assert (K : Forall ok1 cs).
    { induction Hw as [|cs l inner v Hw IH Hin|cs l lab args pre inner v Hw IH Hin Ha]; auto.
      - rewrite Forall_forall in IH. specialize (IH _ Hin). apply ok1_unfold in IH as [_ IH]. exact IH.
      - rewrite Forall_forall in IH. specialize (IH _ Hin). apply ok1_unfold in IH as [_ IH]. cbn in IH.
        rewrite Forall_forall in IH. exact (IH _ Ha). }
    eapply Forall_impl; [|exact K]. intros c Hc. now apply ok1_unfold in Hc as [Hc _].
  - intros H.
    assert (K : forall c, (exists cs, within1 d cs /\ In c cs) -> ok1 c).
    { intros c. induction c as [l s|l lab args IH|l cs v IH] using chunk1_ind'; intros (cs0 & Hw & Hin); apply ok1_unfold;
       (split; [pose proof (H _ Hw) as Hc; rewrite Forall_forall in Hc; now apply Hc|]); cbn.
      - exact I.
      - rewrite Forall_forall in IH |- *. intros [pre [cs v]] Ha. specialize (IH _ Ha). cbn in *.
        rewrite Forall_forall in IH |- *. intros x Hx. apply (IH _ Hx). exists cs. split; [|assumption].
        eapply w1_arg; eauto.
      - rewrite Forall_forall in IH |- *. intros x Hx. apply (IH _ Hx). exists cs. split; [|assumption].
        eapply w1_scope; eauto. }
    apply Forall_forall. intros c Hc. apply K. exists d. split; [constructor|assumption].
Qed.

(** accumulation of lines *)
Definition lines_from1 (L : N) (d : list chunk1) : Prop :=
  forall pre c post, d = pre ++ c :: post -> line_no1 c = L + count_newlines (show1 pre).

Lemma lines_from1_cons L c d : lines_from1 L (c :: d) <->
  line_no1 c = L /\ lines_from1 (L + count_newlines (show_chunk1 c)) d.
Proof.
  unfold lines_from1. split.
  - intros H. split.
    + rewrite (H [] c d eq_refl). change (count_newlines (show1 [])) with 0. lia.
    + intros pre x post ->. rewrite (H (c :: pre) x post eq_refl), show1_cons, count_newlines_app. lia.
  - intros [H1 H2] pre x post E. destruct pre as [|y pre]; cbn [app] in E; injection E as <- E.
    + change (count_newlines (show1 [])) with 0. lia.
    + rewrite (H2 _ _ _ E), show1_cons, count_newlines_app. lia.
Qed.

Lemma lines_ok1 {E} p c : 1 + count_newlines (show_chunk1 c) < two32 ->
  @lines_chunk1 E p c = Ok (1 + count_newlines (show_chunk1 c)).
Proof. apply lines_chunk1_ok. Qed.

Lemma validate_from1_ok p d : forall L, L + count_newlines (show1 d) < two32 -> 1 <= L ->
  (validate_from1 p L d = Ok tt <-> lines_from1 L d /\ Forall ok1 d).
Proof.
  induction d as [|c d IH]; intros L B H1; cbn [validate_from1].
  { split; [|reflexivity]. intros _. split; [|constructor]. intros pre c post E. now destruct pre. }
  rewrite lines_from1_cons. rewrite show1_cons, count_newlines_app in B.
  destruct (N.eqb_spec (line_no1 c) L) as [EL|EL]; cbn [negb].
  2:{ split; [discriminate|]. intros [[? _] _]. contradiction. }
  destruct (validate_chunk1 c) as [[]|e| |] eqn:Ev; cbn [bind].
  2-4: split; [discriminate|]; intros [_ Hf]; inversion Hf; subst; unfold ok1 in *; congruence.
  rewrite lines_ok1 by lia. cbn [bind]. rewrite sub32_ok by lia. cbn [bind]. rewrite add32_ok by lia. cbn [bind].
  rewrite IH by lia. replace (L + (1 + count_newlines (show_chunk1 c) - 1)) with (L + count_newlines (show_chunk1 c)) by lia.
  split.
  - intros [A B0]. repeat split; auto.
  - intros [[_ A] B0]. inversion B0; subst. now split.
Qed.

Theorem validate1_iff p d : 1 + count_newlines (show1 d) < two32 ->
  (validate1 p d = Ok tt <-> well_formed1 d).
Proof.
  intros B. unfold validate1, well_formed1, lines_add_up1. rewrite validate_from1_ok by lia.
  rewrite ok1_within. reflexivity.
Qed.

(** ** Pushing *)

Lemma push_chunk_unchecked1_show d c : show1 (push_chunk_unchecked1 d c) = show1 d ++ show_chunk1 c.
Proof.
  induction d as [|x d IH]; cbn [push_chunk_unchecked1].
  - unfold show1. cbn. now rewrite app_nil_r.
  - destruct d as [|y d].
    + destruct c as [lc [s|cm|sc]]; cbn [variant_of1]; [|unfold show1; cbn; now rewrite !app_nil_r..].
      destruct x as [lx [s'|cm|sc]]; unfold show1; cbn; now rewrite !app_nil_r.
    + rewrite show1_cons, IH, (show1_cons x (y :: d)). now rewrite app_assoc.
Qed.

(** the merged or appended list *)
Lemma push_chunk_unchecked1_snoc d x c :
  push_chunk_unchecked1 (d ++ [x]) c =
  match variant_of1 c, x with
  | Text1 s, mkChunk1 l (Text1 s') => d ++ [mkChunk1 l (Text1 (s' ++ s))]
  | _, _ => d ++ [x; c]
  end.
Proof.
  induction d as [|y d IH]; cbn [app].
  - reflexivity.
  - cbn [push_chunk_unchecked1]. destruct (d ++ [x]) eqn:E; [now destruct d|]. rewrite <- E in *. rewrite IH.
    destruct (variant_of1 c); auto. destruct x as [lx [s'|cm|sc]]; auto.
Qed.

Lemma show1_app a b : show1 (a ++ b) = show1 a ++ show1 b.
Proof. unfold show1. now rewrite map_app, concat_app. Qed.
Lemma show1_one c : show1 [c] = show_chunk1 c.
Proof. unfold show1. cbn. now rewrite app_nil_r. Qed.

Lemma end_line1_ok {E} p d : lines_add_up1 d -> 2 + count_newlines (show1 d) < two32 ->
  @end_line1 E p d = Ok (1 + count_newlines (show1 d)).
Proof.
  intros H B. unfold end_line1. destruct d as [|x d] using rev_ind; [reflexivity|].
  rewrite rev_app_distr. cbn [rev app]. clear IHd.
  rewrite show1_app, show1_one, count_newlines_app in *.
  rewrite lines_ok1 by lia. cbn [bind].
  rewrite (H d x [] eq_refl). rewrite add32_ok by lia. cbn [bind]. rewrite sub32_ok by lia. f_equal. lia.
Qed.

Lemma lines_add_up1_snoc d c : lines_add_up1 (d ++ [c]) <->
  lines_add_up1 d /\ line_no1 c = 1 + count_newlines (show1 d).
Proof.
  unfold lines_add_up1. split.
  - intros H. split; [|exact (H d c [] eq_refl)]. intros pre x post ->. apply (H pre x (post ++ [c])).
    rewrite <- app_assoc. reflexivity.
  - intros [H1 H2] pre x post E. destruct post as [|y post] using rev_ind.
    + apply app_inj_tail in E as [<- <-]. exact H2.
    + clear IHpost. rewrite app_comm_cons, app_assoc in E. apply app_inj_tail in E as [E _]. exact (H1 _ _ _ E).
Qed.

Lemma push_valid1 d c : lines_add_up1 d -> Forall ok1 d -> ok1 c -> line_no1 c = 1 + count_newlines (show1 d) ->
  lines_add_up1 (push_chunk_unchecked1 d c) /\ Forall ok1 (push_chunk_unchecked1 d c).
Proof.
  intros HL HF HC EL. destruct d as [|x d] using rev_ind.
  { cbn [push_chunk_unchecked1]. split; [|now constructor].
    apply (lines_add_up1_snoc [] c). now split. }
  clear IHd. rewrite push_chunk_unchecked1_snoc.
  assert (G : lines_add_up1 (d ++ [x; c]) /\ Forall ok1 (d ++ [x; c])).
  { change (d ++ [x; c]) with (d ++ ([x] ++ [c])). rewrite app_assoc. split.
    - apply lines_add_up1_snoc. now split.
    - apply Forall_app. split; [assumption|now constructor]. }
  destruct (variant_of1 c) as [s|cm|sc] eqn:Ev; auto.
  destruct x as [lx [s'|cm|sc]]; auto.
  apply lines_add_up1_snoc in HL as [HL1 HL2]. apply Forall_app in HF as [HF1 HF2].
  split.
  - apply lines_add_up1_snoc. split; assumption.
  - apply Forall_app. split; [assumption|]. constructor; [|constructor].
    inversion HF2 as [|? ? Hx _]; subst. destruct c as [lc v]. cbn in Ev. subst v.
    apply ok1_unfold in Hx as [Hx _]. apply ok1_unfold in HC as [HC _]. apply ok1_unfold. split; [|exact I].
    unfold clean1 in *. cbn [variant_of1] in *. now rewrite existsb_app, Hx, HC.
Qed.

(** C14: the decision rule of [push_chunk], and of [push] *)
Theorem push_chunk1_decision p d c : well_formed1 d -> 2 + count_newlines (show1 d) < two32 ->
  (forall e, validate_chunk1 c = Err e -> push_chunk1 p d c = Err e) /\
  (validate_chunk1 c = Ok tt -> line_no1 c <> 1 + count_newlines (show1 d) ->
     push_chunk1 p d c = Err (IncorrectChunkLineNumber (1 + count_newlines (show1 d)) (line_no1 c))) /\
  (validate_chunk1 c = Ok tt -> line_no1 c = 1 + count_newlines (show1 d) ->
     push_chunk1 p d c = Ok (push_chunk_unchecked1 d c)).
Proof.
  intros [HL _] B. unfold push_chunk1. repeat split.
  - intros e ->. reflexivity.
  - intros -> Hne. cbn [bind]. rewrite end_line1_ok by assumption. cbn [bind].
    destruct (N.eqb_spec (1 + count_newlines (show1 d)) (line_no1 c)); [congruence|reflexivity].
  - intros -> He. cbn [bind]. rewrite end_line1_ok by assumption. cbn [bind]. rewrite He, N.eqb_refl. reflexivity.
Qed.

Lemma push1_ok p d v : well_formed1 d -> 2 + count_newlines (show1 d) < two32 ->
  validate_variant1 v = Ok tt ->
  push1 p d v = Ok (push_chunk_unchecked1 d (mkChunk1 (1 + count_newlines (show1 d)) v)).
Proof.
  intros [HL _] B H. unfold push1, push_unchecked1. rewrite H. cbn [bind]. now rewrite end_line1_ok.
Qed.

(** C12: Display after a push, for any document (valid or not) *)
Theorem push1_show p d v d' : push1 p d v = Ok d' -> show1 d' = show1 d ++ show_variant1 v.
Proof.
  unfold push1, push_unchecked1. destruct (validate_variant1 v); cbn [bind]; try discriminate.
  destruct (end_line1 p d); cbn [bind]; try discriminate. intros H. injection H as <-.
  apply (push_chunk_unchecked1_show d (mkChunk1 _ v)).
Qed.
Theorem push_chunk1_show p d c d' : push_chunk1 p d c = Ok d' -> show1 d' = show1 d ++ show_chunk1 c.
Proof.
  unfold push_chunk1. destruct (validate_chunk1 c); cbn [bind]; try discriminate.
  destruct (end_line1 p d); cbn [bind]; try discriminate.
  destruct (negb _); intros H; [discriminate|]. injection H as <-. apply push_chunk_unchecked1_show.
Qed.

(** C13, one step *)
Lemma push_chunk1_wf p d c d' : well_formed1 d -> 2 + count_newlines (show1 d) < two32 ->
  push_chunk1 p d c = Ok d' -> well_formed1 d'.
Proof.
  intros W B H. pose proof W as [HL HC]. apply ok1_within in HC.
  unfold push_chunk1 in H. destruct (validate_chunk1 c) as [[]|e| |] eqn:Ev; cbn [bind] in H; try discriminate.
  rewrite end_line1_ok in H by assumption. cbn [bind] in H.
  destruct (N.eqb_spec (1 + count_newlines (show1 d)) (line_no1 c)) as [E|]; cbn [negb] in H; [|discriminate].
  injection H as <-. destruct (push_valid1 d c HL HC Ev (eq_sym E)) as [A B0].
  split; [exact A|now apply ok1_within].
Qed.
Lemma push1_wf p d v d' : well_formed1 d -> 2 + count_newlines (show1 d) < two32 ->
  push1 p d v = Ok d' -> well_formed1 d'.
Proof.
  intros W B H. pose proof W as [HL HC]. apply ok1_within in HC.
  destruct (validate_variant1 v) as [[]|e| |] eqn:Ev.
  2-4: unfold push1 in H; rewrite Ev in H; discriminate.
  rewrite (push1_ok p d v W B Ev) in H. injection H as <-.
  destruct (push_valid1 d (mkChunk1 (1 + count_newlines (show1 d)) v) HL HC Ev eq_refl) as [A B0].
  split; [exact A|now apply ok1_within].
Qed.

Lemma validate_variant1_total v : validate_variant1 v = Ok tt \/ exists e, validate_variant1 v = Err e.
Proof.
  assert (I : forall A (f : A -> outcome internal_error unit) l, Forall (fun x => f x = Ok tt \/ exists e, f x = Err e) l ->
     iterM f l = Ok tt \/ exists e, iterM f l = Err e).
  { intros A f l H. induction H as [|x l [Hx|[e Hx]] H IH]; cbn [iterM]; [now left| |]; rewrite Hx; cbn [bind]; eauto. }
  assert (K : forall c, validate_chunk1 c = Ok tt \/ exists e, validate_chunk1 c = Err e).
  { intros c. induction c as [l s|l lab args IH|l cs v' IH] using chunk1_ind'; cbn [validate_chunk1 validate_variant1].
    - apply check_chars_total.
    - cbn [validate_command1].
      assert (J : iterM (fun a : list N * scope1 => let (_, sc) := a in validate_scope1 sc) args = Ok tt \/
                  exists e, iterM (fun a : list N * scope1 => let (_, sc) := a in validate_scope1 sc) args = Err e).
      { apply I. eapply Forall_impl; [|exact IH]. intros [pre [cs v']] H. now apply I. }
      destruct (str_len lab =? 1); cbn [bind]; [exact J|].
      destruct (check_chars_total lab) as [->|[e ->]]; cbn [bind]; eauto.
    - cbn [validate_scope1]. now apply I. }
  exact (K (mkChunk1 1 v)).
Qed.

(** C13: any history of pushes *)
Theorem run_ops1_wf p ops : forall d, well_formed1 d ->
  2 + count_newlines (show1 d) + count_newlines (concat (map op_text1 ops)) < two32 ->
  exists d', run_ops1 p d ops = Ok d' /\ well_formed1 d' /\
    count_newlines (show1 d') <= count_newlines (show1 d) + count_newlines (concat (map op_text1 ops)).
Proof.
  induction ops as [|o ops IH]; intros d W B.
  - exists d. split; [reflexivity|]. split; [assumption|]. lia.
  - cbn [map concat] in B. rewrite count_newlines_app in B. unfold run_ops1. cbn [foldM].
    assert (S1 : exists d1, apply_op1 p d o = Ok d1 /\ well_formed1 d1 /\
       count_newlines (show1 d1) <= count_newlines (show1 d) + count_newlines (op_text1 o)).
    { assert (B0 : 2 + count_newlines (show1 d) < two32) by lia.
      destruct o as [v|c]; unfold apply_op1, op_text1.
      - destruct (validate_variant1_total v) as [Ev|[e Ev]].
        + pose proof (push1_ok p d v W B0 Ev) as E. rewrite E. eexists; split; [reflexivity|]. split.
          * exact (push1_wf p d v _ W B0 E).
          * rewrite (push1_show p d v _ E), count_newlines_app. lia.
        + unfold push1. rewrite Ev. exists d. split; [reflexivity|]. split; [assumption|lia].
      - destruct (push_chunk1_decision p d c W B0) as (D1 & D2 & D3).
        destruct c as [lc v]. cbn [validate_chunk1] in *. destruct (validate_variant1_total v) as [Ev|[e Ev]].
        + destruct (N.eq_dec lc (1 + count_newlines (show1 d))) as [El|El].
          * pose proof (D3 Ev El) as E. rewrite E. eexists; split; [reflexivity|]. split.
            -- exact (push_chunk1_wf p d _ _ W B0 E).
            -- rewrite (push_chunk1_show p d _ _ E), count_newlines_app. lia.
          * rewrite (D2 Ev El). exists d. split; [reflexivity|]. split; [assumption|lia].
        + rewrite (D1 _ Ev). exists d. split; [reflexivity|]. split; [assumption|lia]. }
    destruct S1 as (d1 & E1 & W1 & N1). rewrite E1. cbn [bind].
    destruct (IH d1 W1) as (d' & E' & W' & N'); [lia|].
    exists d'. split; [exact E'|]. split; [assumption|]. cbn [map concat]. rewrite count_newlines_app. lia.
Qed.

Lemma run_ops1_valid p d ops : well_formed1 d ->
  2 + count_newlines (show1 d) + count_newlines (concat (map op_text1 ops)) < two32 ->
  exists d', run_ops1 p d ops = Ok d' /\ validate1 p d' = Ok tt.
Proof.
  intros W B. destruct (run_ops1_wf p ops d W B) as (d' & E & W' & N').
  exists d'. split; [assumption|]. apply validate1_iff; [lia|assumption].
Qed.

Lemma push_chunk1_rule p d c : well_formed1 d -> 2 + count_newlines (show1 d) < two32 ->
  (forall e, validate_chunk1 c = Err e -> push_chunk1 p d c = Err e) /\
  (validate_chunk1 c = Ok tt -> line_no1 c <> 1 + count_newlines (show1 d) ->
     push_chunk1 p d c = Err (IncorrectChunkLineNumber (1 + count_newlines (show1 d)) (line_no1 c))) /\
  (validate_chunk1 c = Ok tt -> line_no1 c = 1 + count_newlines (show1 d) ->
     exists d', push_chunk1 p d c = Ok d').
Proof.
  intros W B. destruct (push_chunk1_decision p d c W B) as (A & B0 & C). repeat split; auto.
  intros. eexists. now apply C.
Qed.

Lemma push_chunk1_list p d c d' : push_chunk1 p d c = Ok d' ->
  (d' = d ++ [c] /\ ~ (is_text1 c = true /\ exists d0 x, d = d0 ++ [x] /\ is_text1 x = true)) \/
  (exists d0 l s l' s', d = d0 ++ [mkChunk1 l (Text1 s)] /\ c = mkChunk1 l' (Text1 s') /\
     d' = d0 ++ [mkChunk1 l (Text1 (s ++ s'))]).
Proof.
  unfold push_chunk1. destruct (validate_chunk1 c); cbn [bind]; try discriminate.
  destruct (end_line1 p d); cbn [bind]; try discriminate.
  destruct (negb _); [discriminate|]. intros H. injection H as <-.
  destruct d as [|x d] using rev_ind.
  { left. split; [reflexivity|]. intros [_ (d0 & x & E & _)]. now destruct d0. }
  clear IHd. rewrite push_chunk_unchecked1_snoc. destruct c as [lc [s|cm|sc]]; cbn [variant_of1].
  - destruct x as [lx [s'|cm|sc]].
    + right. exists d, lx, s', lc, s. repeat split.
    + left. rewrite <- app_assoc. split; [reflexivity|]. intros [_ (d0 & x & E & Hx)].
      apply app_inj_tail in E as [_ <-]. discriminate.
    + left. rewrite <- app_assoc. split; [reflexivity|]. intros [_ (d0 & x & E & Hx)].
      apply app_inj_tail in E as [_ <-]. discriminate.
  - left. rewrite <- app_assoc. split; [reflexivity|]. intros [Hx _]. discriminate.
  - left. rewrite <- app_assoc. split; [reflexivity|]. intros [Hx _]. discriminate.
Qed.

(** ** C10 *)

Lemma iterM_err {E A} (f : A -> outcome E unit) l e : iterM f l = Err e -> exists x, In x l /\ f x = Err e.
Proof.
  induction l as [|x l IH]; cbn [iterM]; [discriminate|].
  destruct (f x) as [[]|e'| |] eqn:Ex; cbn [bind]; try discriminate.
  - intros H. destruct (IH H) as (y & Hy & Ey). exists y. split; [now right|assumption].
  - intros H. injection H as ->. exists x. split; [now left|assumption].
Qed.

(** the offending character of a failed validation is in some text or label *)
Lemma validate_chunk1_err d : forall c e, (exists cs, within1 d cs /\ In c cs) -> validate_chunk1 c = Err e ->
  exists x, e = UnsanitisedCharInString x /\ special x = true /\
   ((exists cs l t, within1 d cs /\ In (mkChunk1 l (Text1 t)) cs /\ In x t) \/
    (exists cs l lab args, within1 d cs /\ In (mkChunk1 l (Command1 (mkCommand1 lab args))) cs /\
        In x lab /\ clean_label lab = false)).
Proof.
  intros c. induction c as [l s|l lab args IH|l cs v IH] using chunk1_ind'; intros e (cs0 & Hw & Hin);
    cbn [validate_chunk1 validate_variant1].
  - intros H. apply check_chars_err in H as (x & -> & Hx & Hs). exists x. repeat split; auto. left. eauto 6.
  - cbn [validate_command1]. destruct (str_len lab =? 1) eqn:El; cbn [bind].
    2: destruct (check_chars lab) as [[]|e'| |] eqn:Ec; cbn [bind]; try discriminate.
    3:{ intros H. injection H as ->. apply check_chars_err in Ec as (x & -> & Hx & Hs). exists x.
        repeat split; auto. right. exists cs0, l, lab, args. repeat split; auto.
        unfold clean_label. rewrite El. cbn [orb]. apply negb_false_iff, existsb_exists. eauto. }
    1-2: intros H; apply iterM_err in H as ([pre [cs v]] & Ha & He); cbn [validate_scope1] in He;
      apply iterM_err in He as (y & Hy & Ey);
      rewrite Forall_forall in IH; specialize (IH _ Ha); cbn in IH; rewrite Forall_forall in IH;
      apply (IH y Hy e); auto; exists cs; split; auto; eapply w1_arg; eauto.
  - cbn [validate_scope1]. intros H. apply iterM_err in H as (y & Hy & Ey). rewrite Forall_forall in IH.
    apply (IH y Hy e); auto. exists cs. split; auto. eapply w1_scope; eauto.
Qed.

(** The line counters never return an [Err]: they only panic or wrap. *)
Definition no_err {E A} (x : outcome E A) : Prop := forall e, x <> Err e.
Lemma no_err_ok {E A} (a : A) : no_err (@Ok E A a).
Proof. discriminate. Qed.
Lemma no_err_bind {E A B} (x : outcome E A) (f : A -> outcome E B) :
  no_err x -> (forall a, no_err (f a)) -> no_err (bind x f).
Proof. intros Hx Hf. destruct x as [a|e| |]; cbn; auto; intros e0 H; try discriminate. injection H as ->. now apply (Hx e0). Qed.
Lemma no_err_add32 {E} p a b : no_err (@add32 E p a b).
Proof. intros e. unfold add32, overflow32. destruct (_ <? _), p; discriminate. Qed.
Lemma no_err_sub32 {E} p a b : no_err (@sub32 E p a b).
Proof. intros e. unfold sub32, overflow32. destruct (_ <=? _), p; discriminate. Qed.
Lemma no_err_foldM {E A S} (f : S -> A -> outcome E S) l : forall s,
  Forall (fun x => forall s, no_err (f s x)) l -> no_err (foldM f s l).
Proof.
  induction l as [|x l IH]; intros s H; cbn; [apply no_err_ok|].
  inversion H; subst. apply no_err_bind; auto.
Qed.
Lemma no_err_mapM {E A B} (f : A -> outcome E B) l :
  Forall (fun x => no_err (f x)) l -> no_err (mapM f l).
Proof.
  induction l as [|x l IH]; intros H; cbn; [apply no_err_ok|].
  inversion H; subst. apply no_err_bind; [assumption|]. intros a. apply no_err_bind; auto. intros. apply no_err_ok.
Qed.
Lemma no_err_sum32 {E} p l : no_err (@sum32 E p l).
Proof. apply no_err_foldM, Forall_forall. intros. apply no_err_add32. Qed.

Lemma no_err_scope1 {E} p cs v : Forall (fun c => no_err (@lines_chunk1 E p c)) cs ->
  no_err (@lines_scope1 E p (mkScope1 cs v)).
Proof.
  intros H. cbn [lines_scope1]. apply no_err_bind.
  - apply no_err_mapM. eapply Forall_impl; [|exact H]. cbn. intros c Hc.
    apply no_err_bind; [exact Hc|]. intros. apply no_err_sub32.
  - intros. apply no_err_bind; [apply no_err_sum32|]. intros. apply no_err_add32.
Qed.

Lemma lines_chunk1_no_err {E} p c : no_err (@lines_chunk1 E p c).
Proof.
  induction c as [l s|l lab args IH|l cs v IH] using chunk1_ind'.
  - apply no_err_add32.
  - change (no_err (@lines_command1 E p (mkCommand1 lab args))). cbn [lines_command1].
    apply no_err_bind; [|intros; apply no_err_add32]. apply no_err_foldM, Forall_forall.
    intros [pre [cs v]] Ha s. rewrite Forall_forall in IH. specialize (IH _ Ha). cbn [fst snd] in IH.
    apply no_err_bind; [apply no_err_add32|]. intros. apply no_err_bind; [apply (no_err_scope1 p cs v); exact IH|].
    intros. apply no_err_bind; [apply no_err_sub32|]. intros. apply no_err_add32.
  - change (no_err (@lines_scope1 E p (mkScope1 cs v))). apply no_err_scope1, IH.
Qed.

Lemma validate_from1_err p d : forall L d0, (forall c, In c d -> In c d0) -> forall x,
  validate_from1 p L d = Err (UnsanitisedCharInString x) ->
  exists c, In c d0 /\ validate_chunk1 c = Err (UnsanitisedCharInString x).
Proof.
  induction d as [|c d IH]; intros L d0 Hsub x; cbn [validate_from1]; [discriminate|].
  destruct (negb _); [discriminate|].
  destruct (validate_chunk1 c) as [[]|e| |] eqn:Ev; cbn [bind]; try discriminate.
  - destruct (lines_chunk1 p c) as [n|e| |] eqn:El; cbn [bind]; try discriminate.
    + destruct (sub32 p n 1) as [n'|e| |] eqn:Es; cbn [bind]; try discriminate.
      * destruct (add32 p L n') as [n''|e| |] eqn:Ea; cbn [bind]; try discriminate.
        -- apply IH. intros y Hy. apply Hsub. now right.
        -- exfalso. revert Ea. unfold add32, overflow32. destruct (_ <? _); [discriminate|]. destruct p; discriminate.
      * exfalso. revert Es. unfold sub32, overflow32. destruct (_ <=? _); [discriminate|]. destruct p; discriminate.
    + exfalso. now apply (lines_chunk1_no_err p c e).
  - intros H. injection H as ->. exists c. split; [apply Hsub; now left|assumption].
Qed.

Lemma from_str1_only_closing p p' s d c : N.of_nat (length s) + 1 < two32 -> from_str1 p s = Ok d ->
  validate1 p' d = Err (UnsanitisedCharInString c) -> is_closing c = true.
Proof.
  intros B H V. apply (validate_from1_err p' d 1 d (fun _ h => h)) in V as (x & Hx & Ex).
  apply (validate_chunk1_err d) in Ex as (y & Ey & Hs & [(cs & l & t & Hw & Hin & Hy)|(cs & l & lab & args & Hw & Hin & Hy & Hc)]).
  - injection Ey as ->. exact (from_str1_clean p s d B H cs _ Hw Hin y Hy Hs).
  - rewrite (from_str1_labels p s d B H cs l lab args Hw Hin) in Hc. discriminate.
  - exists d. split; [constructor|assumption].
Qed.

Lemma from_str1_validate_iff p p' s d : N.of_nat (length s) + 1 < two32 -> from_str1 p s = Ok d ->
  (validate1 p' d = Ok tt <->
   lines_add_up1 d /\
   forall cs l t, within1 d cs -> In (mkChunk1 l (Text1 t)) cs -> existsb is_closing t = false).
Proof.
  intros B H. rewrite validate1_iff.
  2:{ pose proof (from_str1_newlines p s d B H) as Hn. unfold nls in Hn. rewrite Hn.
      pose proof (count_newlines_le s). lia. }
  apply and_iff_compat_l. split.
  - intros K cs l t Hw Hin. specialize (K cs Hw). rewrite Forall_forall in K. specialize (K _ Hin). cbn in K.
    apply not_true_iff_false. intros E. apply existsb_exists in E as (x & Hx & Ex).
    assert (existsb special t = true); [|congruence]. apply existsb_exists. exists x. split; [assumption|].
    rewrite <- unsanitised_special. unfold unsanitised. rewrite Ex. apply orb_true_r.
  - intros K cs Hw. apply Forall_forall. intros c Hin.
    pose proof (from_str1_clean p s d B H cs c Hw Hin) as C. destruct c as [l [t|[lab args]|sc]]; cbn in *; auto.
    apply not_true_iff_false. intros E. apply existsb_exists in E as (x & Hx & Ex).
    specialize (K cs l t Hw Hin). assert (existsb is_closing t = true); [|congruence].
    apply existsb_exists. exists x. split; [assumption|]. exact (C x Hx Ex).
Qed.
