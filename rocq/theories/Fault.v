(** * Fault: validation reports exactly the fault SpecFault.v describes *)
From Verif Require Import Base Ast1 Parse1 Ast2 Ast3 Spec1 SpecDoc1 SpecDoc2 SpecDoc3 Tok Pure1 Refine1 Gram1 Ind Lines Facts1
  Valid1 Valid2 Valid3 SpecFault.

Lemma iterM_err_iff {E A} (f : A -> outcome E unit) l e :
  iterM f l = Err e <-> exists pre x post, l = pre ++ x :: post /\ Forall (fun x => f x = Ok tt) pre /\ f x = Err e.
Proof.
  induction l as [|x l IH]; cbn [iterM].
  - split; [discriminate|]. intros ([|? ?] & ? & ? & ? & _); discriminate.
  - split.
    + destruct (f x) as [[]|e'| |] eqn:Ex; cbn [bind]; try discriminate.
      * intros H. apply IH in H as (pre & y & post & -> & Hp & Hy). exists (x :: pre), y, post.
        split; [reflexivity|]. split; [constructor; assumption|assumption].
      * intros H. injection H as <-. exists [], x, l. auto.
    + intros ([|y pre] & z & post & Hl & Hp & Hz); cbn [app] in Hl; injection Hl as <- ->.
      * rewrite Hz. reflexivity.
      * inversion Hp as [|? ? Hx Hp']; subst. rewrite Hx. cbn [bind]. apply IH. exists pre, z, post. auto.
Qed.

Lemma check_chars_err_iff s e : check_chars s = Err e <-> exists x, e = UnsanitisedCharInString x /\ first_special s x.
Proof.
  induction s as [|c s IH]; cbn [check_chars].
  - split; [discriminate|]. intros (x & _ & [|? ?] & ? & ? & _); discriminate.
  - rewrite unsanitised_special. destruct (special c) eqn:Ec; split.
    + intros H. injection H as <-. exists c. split; [reflexivity|]. exists [], s. auto.
    + intros (x & -> & [|y a] & b & Hs & Ha & Hx); cbn [app] in Hs; injection Hs as <- ->; [reflexivity|].
      cbn [existsb] in Ha. rewrite Ec in Ha. discriminate.
    + intros H. apply IH in H as (x & -> & a & b & -> & Ha & Hx). exists x. split; [reflexivity|].
      exists (c :: a), b. split; [reflexivity|]. cbn [existsb]. rewrite Ec. auto.
    + intros (x & -> & [|y a] & b & Hs & Ha & Hx); cbn [app] in Hs; injection Hs as <- ->; [congruence|].
      cbn [existsb] in Ha. rewrite Ec in Ha. apply IH. exists x. split; [reflexivity|]. exists a, b. auto.
Qed.
Lemma label_err lab (k : outcome internal_error unit) e :
  (let* _ := (if str_len lab =? 1 then Ok tt else check_chars lab) in k) = Err e <->
  (exists x, e = UnsanitisedCharInString x /\ str_len lab <> 1 /\ first_special lab x) \/ (clean_label lab = true /\ k = Err e).
Proof.
  unfold clean_label. destruct (N.eqb_spec (str_len lab) 1) as [H1|H1]; cbn [bind orb].
  - split; [auto|]. intros [(x & _ & K & _)|[_ K]]; [contradiction|exact K].
  - rewrite negb_true_iff, <- check_chars_ok. destruct (check_chars lab) as [[]|e'| |] eqn:Ec; cbn [bind].
    + split; [auto|]. intros [(x & -> & _ & K)|[_ K]]; [|exact K].
      assert (check_chars lab = Err (UnsanitisedCharInString x)) by (apply check_chars_err_iff; eauto). congruence.
    + split.
      * intros H. injection H as <-. left. apply check_chars_err_iff in Ec as (x & -> & Hx). eauto.
      * intros [(x & -> & _ & K)|[K _]]; [|discriminate]. rewrite <- Ec. apply check_chars_err_iff. eauto.
    + destruct (check_chars_total lab) as [K|[? K]]; congruence.
    + destruct (check_chars_total lab) as [K|[? K]]; congruence.
Qed.
Lemma seq_err (a k : outcome internal_error unit) e :
  (let* _ := a in k) = Err e <-> a = Err e \/ (a = Ok tt /\ k = Err e).
Proof. destruct a as [[]|e'| |]; cbn [bind]; intuition congruence. Qed.

(** ** Stage 1 *)
Lemma vcmd1_eq l lab args : validate_chunk1 (mkChunk1 l (Command1 (mkCommand1 lab args))) =
  let* _ := (if str_len lab =? 1 then Ok tt else check_chars lab) in
  iterM (fun a : list N * scope1 => let (_, sc) := a in validate_scope1 sc) args.
Proof. reflexivity. Qed.
Lemma vscope1_eq l cs v : validate_chunk1 (mkChunk1 l (Scope1 (mkScope1 cs v))) = iterM validate_chunk1 cs.
Proof. reflexivity. Qed.
Lemma sound1_iff d : sound1 d <-> iterM validate_chunk1 d = Ok tt.
Proof. rewrite iterM_ok. symmetry. apply ok1_within. Qed.
Lemma sound_args1_iff args : sound_args1 args <->
  iterM (fun a : list N * scope1 => let (_, sc) := a in validate_scope1 sc) args = Ok tt.
Proof.
  rewrite iterM_ok, Forall_forall. split.
  - intros H [pre [cs v]] Hin. cbn. apply sound1_iff. eapply H, Hin.
  - intros H pre inner v Hin. apply sound1_iff. exact (H _ Hin).
Qed.

Lemma faults1_iff cs : Forall (fun c => forall e, validate_chunk1 c = Err e <-> fault1 c e) cs ->
  forall e, iterM validate_chunk1 cs = Err e <-> faults1 cs e.
Proof.
  intros IH e. rewrite iterM_err_iff. split.
  - intros (pre & c & post & -> & Hp & Hc). constructor; [now apply sound1_iff, iterM_ok|].
    apply Forall_app in IH as [_ IH]. inversion IH; subst. now apply H1.
  - intros H. destruct H as [pre c post e Hp Hc]. exists pre, c, post. split; [reflexivity|].
    split; [now apply iterM_ok, sound1_iff|]. apply Forall_app in IH as [_ IH]. inversion IH; subst. now apply H1.
Qed.

Lemma fault1_iff c : forall e, validate_chunk1 c = Err e <-> fault1 c e.
Proof.
  induction c as [l s|l lab args IH|l cs v IH] using chunk1_ind'; intros e.
  - cbn [validate_chunk1 validate_variant1]. rewrite check_chars_err_iff. split.
    + intros (x & -> & H). now constructor.
    + intros H. inversion H; subst. eauto.
  - rewrite vcmd1_eq, label_err, iterM_err_iff. split.
    + intros [(x & -> & H1 & H2)|(H1 & pre & [prec [inner v]] & post & -> & Hp & Hx)].
      * now constructor.
      * apply ft1_arg; [assumption|now apply sound_args1_iff, iterM_ok|].
        apply Forall_app in IH as [_ IH]. inversion IH; subst. cbn in *. now apply faults1_iff.
    + intros H. inversion H as [|? ? ? x H1 H2|? ? pre prec inner v post ? H1 H2 H3|]; subst.
      * left. eauto.
      * right. split; [assumption|]. exists pre, (prec, mkScope1 inner v), post. split; [reflexivity|].
        split; [now apply iterM_ok, sound_args1_iff|]. cbn.
        apply Forall_app in IH as [_ IH]. inversion IH; subst. cbn in *. now apply faults1_iff.
  - rewrite vscope1_eq, faults1_iff by assumption. split; [now constructor|]. intros H. now inversion H.
Qed.

Lemma validate_from1_err_iff p d : forall pre, lines_add_up1 pre -> sound1 pre ->
  1 + count_newlines (show1 (pre ++ d)) < two32 -> forall e,
  (validate_from1 p (1 + count_newlines (show1 pre)) d = Err e <->
   exists a c b, d = a ++ c :: b /\ lines_add_up1 (pre ++ a) /\ sound1 (pre ++ a) /\
     ((line_no1 c <> 1 + count_newlines (show1 (pre ++ a)) /\
       e = IncorrectChunkLineNumber (1 + count_newlines (show1 (pre ++ a))) (line_no1 c)) \/
      (line_no1 c = 1 + count_newlines (show1 (pre ++ a)) /\ fault1 c e))).
Proof.
  induction d as [|c d IH]; intros pre HL HS B e; cbn [validate_from1].
  { split; [discriminate|]. intros ([|? ?] & ? & ? & ? & _); discriminate. }
  assert (Bc : 1 + count_newlines (show1 pre) + count_newlines (show_chunk1 c) + count_newlines (show1 d) < two32).
  { revert B. rewrite show1_app, count_newlines_app. change (show1 (c :: d)) with (show_chunk1 c ++ show1 d).
    rewrite count_newlines_app. lia. }
  destruct (N.eqb_spec (line_no1 c) (1 + count_newlines (show1 pre))) as [Hc|Hc]; cbn [negb].
  2:{ split.
      - intros H. injection H as <-. exists [], c, d. rewrite app_nil_r. repeat split; auto.
      - intros ([|x a] & c' & b & Hd & H1 & H2 & H3); cbn [app] in Hd; injection Hd as <- ->.
        + rewrite app_nil_r in H3. destruct H3 as [[_ ->]|[K _]]; [reflexivity|contradiction].
        + exfalso. apply Hc. apply (H1 pre c a). reflexivity. }
  destruct (validate_chunk1 c) as [[]|e'| |] eqn:Ev; cbn [bind].
  - (* fine: the next one *)
    rewrite lines_ok1 by lia. cbn [bind]. rewrite sub32_ok by lia. cbn [bind]. rewrite add32_ok by lia. cbn [bind].
    replace (1 + count_newlines (show1 pre) + (1 + count_newlines (show_chunk1 c) - 1))
      with (1 + count_newlines (show1 (pre ++ [c]))) by (rewrite show1_app, show1_one, count_newlines_app; lia).
    rewrite (IH (pre ++ [c])).
    + split.
      * intros (a & c' & b & -> & H). exists (c :: a), c', b. rewrite <- app_assoc in H. auto.
      * intros ([|x a] & c' & b & Hd & H1 & H2 & H3); cbn [app] in Hd; injection Hd as <- ->.
        -- rewrite app_nil_r in H3. destruct H3 as [[K _]|[_ K]]; [contradiction|]. apply fault1_iff in K. congruence.
        -- exists a, c', b. rewrite <- app_assoc. auto.
    + apply lines_add_up1_snoc. auto.
    + apply sound1_iff. apply iterM_ok, Forall_app. split; [now apply iterM_ok, sound1_iff|]. repeat constructor. exact Ev.
    + rewrite <- app_assoc. exact B.
  - split.
    + intros H. injection H as <-. exists [], c, d. rewrite app_nil_r. repeat split; auto. right. split; [assumption|]. now apply fault1_iff.
    + intros ([|x a] & c' & b & Hd & H1 & H2 & H3); cbn [app] in Hd; injection Hd as <- ->.
      * rewrite app_nil_r in H3. destruct H3 as [[K _]|[_ K]]; [contradiction|]. apply fault1_iff in K. congruence.
      * exfalso. apply sound1_iff, iterM_ok in H2. apply Forall_app in H2 as [_ H2]. inversion H2; subst. congruence.
  - exfalso. destruct (validate_variant1_total (variant_of1 c)) as [K|[e' K]]; destruct c; cbn in *; congruence.
  - exfalso. destruct (validate_variant1_total (variant_of1 c)) as [K|[e' K]]; destruct c; cbn in *; congruence.
Qed.
Theorem validate1_err_iff p d e : 1 + count_newlines (show1 d) < two32 -> (validate1 p d = Err e <-> doc_fault1 d e).
Proof.
  intros B. unfold validate1. change 1 with (1 + count_newlines (show1 [])) at 1. rewrite (validate_from1_err_iff p d []).
  - cbn [app]. split.
    + intros (a & c & b & -> & H1 & H2 & [[H3 ->]|[H3 H4]]).
      * now constructor.
      * apply df1_chunk; auto. apply lines_add_up1_snoc. auto.
    + intros H. destruct H as [pre c post L H1 H2 -> H3|pre c post e H1 H2 H3]; exists pre, c, post.
      * split; [reflexivity|]. split; [assumption|]. split; [assumption|]. left. auto.
      * apply lines_add_up1_snoc in H1 as [H1 H4]. split; [reflexivity|]. split; [assumption|]. split; [assumption|]. right. auto.
  - intros [|? ?] ? ? ?; discriminate.
  - apply sound1_iff. reflexivity.
  - exact B.
Qed.

(** ** Stage 2 *)
Lemma vcmd2_eq l lab args : validate_chunk2 (mkChunk2 l (Command2 (mkCommand2 lab args))) =
  if str_eqb lab s_begin then Err BeginCommand
  else if str_eqb lab s_end then Err EndCommand
  else
    let* _ := (if str_len lab =? 1 then Ok tt else check_chars lab) in
    iterM (fun a : list N * scope2 => let (_, sc) := a in validate_scope2 sc) args.
Proof. reflexivity. Qed.
Lemma vscope2_eq l cs v : validate_chunk2 (mkChunk2 l (Scope2 (mkScope2 cs v))) = iterM validate_chunk2 cs.
Proof. reflexivity. Qed.
Lemma venv2_eq l lab args cs pb pe : validate_chunk2 (mkChunk2 l (Environment2 (mkEnv2 lab args cs pb pe))) =
  let* _ := check_chars lab in
  let* _ := iterM (fun a : list N * scope2 => let (_, sc) := a in validate_scope2 sc) args in
  iterM validate_chunk2 cs.
Proof. reflexivity. Qed.
Lemma sound2_iff d : sound2 d <-> iterM validate_chunk2 d = Ok tt.
Proof. rewrite iterM_ok. symmetry. apply ok2_within. Qed.
Lemma sound_args2_iff args : sound_args2 args <->
  iterM (fun a : list N * scope2 => let (_, sc) := a in validate_scope2 sc) args = Ok tt.
Proof.
  rewrite iterM_ok, Forall_forall. split.
  - intros H [pre [cs v]] Hin. cbn. apply sound2_iff. eapply H, Hin.
  - intros H pre inner v Hin. apply sound2_iff. exact (H _ Hin).
Qed.
Lemma faults2_iff cs : Forall (fun c => forall e, validate_chunk2 c = Err e <-> fault2 c e) cs ->
  forall e, iterM validate_chunk2 cs = Err e <-> faults2 cs e.
Proof.
  intros IH e. rewrite iterM_err_iff. split.
  - intros (pre & c & post & -> & Hp & Hc). constructor; [now apply sound2_iff, iterM_ok|].
    apply Forall_app in IH as [_ IH]. inversion IH; subst. now apply H1.
  - intros H. destruct H as [pre c post e Hp Hc]. exists pre, c, post. split; [reflexivity|].
    split; [now apply iterM_ok, sound2_iff|]. apply Forall_app in IH as [_ IH]. inversion IH; subst. now apply H1.
Qed.
Lemma arg_fault2_iff args :
  Forall (fun a : list N * scope2 => Forall (fun c => forall e, validate_chunk2 c = Err e <-> fault2 c e) (chunks2 (snd a))) args ->
  forall e, iterM (fun a : list N * scope2 => let (_, sc) := a in validate_scope2 sc) args = Err e <-> arg_fault2 args e.
Proof.
  intros IH e. rewrite iterM_err_iff. split.
  - intros (pre & [prec [inner v]] & post & -> & Hp & Hx).
    constructor; [now apply sound_args2_iff, iterM_ok|].
    apply Forall_app in IH as [_ IH]. inversion IH; subst. cbn in *. now apply faults2_iff.
  - intros H. destruct H as [pre prec inner v post e H2 H3]. exists pre, (prec, mkScope2 inner v), post. split; [reflexivity|].
    split; [now apply iterM_ok, sound_args2_iff|]. cbn.
    apply Forall_app in IH as [_ IH]. inversion IH; subst. cbn in *. now apply faults2_iff.
Qed.
Lemma env_label_err lab (k : outcome internal_error unit) e :
  (let* _ := check_chars lab in k) = Err e <->
  (exists x, e = UnsanitisedCharInString x /\ first_special lab x) \/ (existsb special lab = false /\ k = Err e).
Proof. rewrite seq_err, check_chars_err_iff, check_chars_ok. reflexivity. Qed.

Lemma s_begin_eq : S! "begin" = s_begin. Proof. reflexivity. Qed.
Lemma s_end_eq : S! "end" = s_end. Proof. reflexivity. Qed.

Lemma first_special_word lab x : first_special lab x -> existsb special lab = true.
Proof. intros (a & b & -> & _ & H). rewrite existsb_app. cbn [existsb]. rewrite H. now rewrite orb_true_r. Qed.

Lemma fault2_iff c : forall e, validate_chunk2 c = Err e <-> fault2 c e.
Proof.
  induction c as [l s|l lab args IH|l cs v IH|l lab args cs pb pe IHa IH] using chunk2_ind'; intros e.
  - cbn [validate_chunk2 validate_variant2]. rewrite check_chars_err_iff. split.
    + intros (x & -> & H). now constructor.
    + intros H. inversion H; subst. eauto.
  - rewrite vcmd2_eq. destruct (str_eqb lab s_begin) eqn:E1.
    { apply str_eqb_eq in E1. subst lab. split.
      - intros H. injection H as <-. constructor.
      - intros H. inversion H; subst; try reflexivity.
        + match goal with K : first_special _ _ |- _ => apply first_special_word in K; vm_compute in K; discriminate end.
        + exfalso. match goal with K : _ <> S! "begin" |- _ => apply K; reflexivity end. }
    destruct (str_eqb lab s_end) eqn:E2.
    { apply str_eqb_eq in E2. subst lab. split.
      - intros H. injection H as <-. constructor.
      - intros H. inversion H; subst; try reflexivity.
        + match goal with K : first_special _ _ |- _ => apply first_special_word in K; vm_compute in K; discriminate end.
        + exfalso. match goal with K : _ <> S! "end" |- _ => apply K; reflexivity end. }
    apply str_eqb_neq in E1, E2. rewrite label_err, arg_fault2_iff by assumption. split.
    + intros [(x & -> & H1 & H2)|(H1 & H2)]; [now constructor|].
      apply ft2_arg; assumption.
    + intros H. inversion H; subst.
      * now destruct E1.
      * now destruct E2.
      * left. eauto.
      * right. auto.
  - rewrite vscope2_eq, faults2_iff by assumption. split; [now constructor|]. intros H. now inversion H.
  - rewrite venv2_eq, env_label_err, seq_err, arg_fault2_iff, faults2_iff, <- sound_args2_iff by assumption. split.
    + intros [(x & -> & H)|(H1 & [H2|[H2 H3]])].
      * now constructor.
      * now apply ft2_env_arg.
      * now apply ft2_env_content.
    + intros H. inversion H; subst; eauto.
Qed.

Lemma validate_from2_err_iff p d : forall pre, lines_add_up2 pre -> sound2 pre ->
  1 + count_newlines (show2 (pre ++ d)) < two32 -> forall e,
  (validate_from2 p (1 + count_newlines (show2 pre)) d = Err e <->
   exists a c b, d = a ++ c :: b /\ lines_add_up2 (pre ++ a) /\ sound2 (pre ++ a) /\
     ((line_no2 c <> 1 + count_newlines (show2 (pre ++ a)) /\
       e = IncorrectChunkLineNumber (1 + count_newlines (show2 (pre ++ a))) (line_no2 c)) \/
      (line_no2 c = 1 + count_newlines (show2 (pre ++ a)) /\ fault2 c e))).
Proof.
  induction d as [|c d IH]; intros pre HL HS B e; cbn [validate_from2].
  { split; [discriminate|]. intros ([|? ?] & ? & ? & ? & _); discriminate. }
  assert (Bc : 1 + count_newlines (show2 pre) + count_newlines (show_chunk2 c) + count_newlines (show2 d) < two32).
  { revert B. rewrite show2_app, count_newlines_app, show2_cons, count_newlines_app. lia. }
  destruct (N.eqb_spec (line_no2 c) (1 + count_newlines (show2 pre))) as [Hc|Hc]; cbn [negb].
  2:{ split.
      - intros H. injection H as <-. exists [], c, d. rewrite app_nil_r. repeat split; auto.
      - intros ([|x a] & c' & b & Hd & H1 & H2 & H3); cbn [app] in Hd; injection Hd as <- ->.
        + rewrite app_nil_r in H3. destruct H3 as [[_ ->]|[K _]]; [reflexivity|contradiction].
        + exfalso. apply Hc. apply (H1 pre c a). reflexivity. }
  destruct (validate_chunk2 c) as [[]|e'| |] eqn:Ev; cbn [bind].
  - rewrite lines_ok2 by lia. cbn [bind]. rewrite sub32_ok by lia. cbn [bind]. rewrite add32_ok by lia. cbn [bind].
    replace (1 + count_newlines (show2 pre) + (1 + count_newlines (show_chunk2 c) - 1))
      with (1 + count_newlines (show2 (pre ++ [c]))) by (rewrite show2_app, show2_one, count_newlines_app; lia).
    rewrite (IH (pre ++ [c])).
    + split.
      * intros (a & c' & b & -> & H). exists (c :: a), c', b. rewrite <- app_assoc in H. auto.
      * intros ([|x a] & c' & b & Hd & H1 & H2 & H3); cbn [app] in Hd; injection Hd as <- ->.
        -- rewrite app_nil_r in H3. destruct H3 as [[K _]|[_ K]]; [contradiction|]. apply fault2_iff in K. congruence.
        -- exists a, c', b. rewrite <- app_assoc. auto.
    + apply lines_add_up2_snoc. auto.
    + apply sound2_iff. apply iterM_ok, Forall_app. split; [now apply iterM_ok, sound2_iff|]. repeat constructor. exact Ev.
    + rewrite <- app_assoc. exact B.
  - split.
    + intros H. injection H as <-. exists [], c, d. rewrite app_nil_r. repeat split; auto. right. split; [assumption|]. now apply fault2_iff.
    + intros ([|x a] & c' & b & Hd & H1 & H2 & H3); cbn [app] in Hd; injection Hd as <- ->.
      * rewrite app_nil_r in H3. destruct H3 as [[K _]|[_ K]]; [contradiction|]. apply fault2_iff in K. congruence.
      * exfalso. apply sound2_iff, iterM_ok in H2. apply Forall_app in H2 as [_ H2]. inversion H2; subst. congruence.
  - exfalso. destruct (validate_chunk2_total c) as [K|[e' K]]; congruence.
  - exfalso. destruct (validate_chunk2_total c) as [K|[e' K]]; congruence.
Qed.
Theorem validate2_err_iff p d e : 1 + count_newlines (show2 d) < two32 -> (validate2 p d = Err e <-> doc_fault2 d e).
Proof.
  intros B. unfold validate2. change 1 with (1 + count_newlines (show2 [])) at 1. rewrite (validate_from2_err_iff p d []).
  - cbn [app]. split.
    + intros (a & c & b & -> & H1 & H2 & [[H3 ->]|[H3 H4]]).
      * now constructor.
      * apply df2_chunk; auto. apply lines_add_up2_snoc. auto.
    + intros H. destruct H as [pre c post L H1 H2 -> H3|pre c post e H1 H2 H3]; exists pre, c, post.
      * split; [reflexivity|]. split; [assumption|]. split; [assumption|]. left. auto.
      * apply lines_add_up2_snoc in H1 as [H1 H4]. split; [reflexivity|]. split; [assumption|]. split; [assumption|]. right. auto.
  - intros [|? ?] ? ? ?; discriminate.
  - apply sound2_iff. reflexivity.
  - exact B.
Qed.

(** ** Stage 3 *)
Lemma not_breaks_nil consec : ~ breaks consec [].
Proof.
  intros [(a & w & b & E & _)|(_ & w & b & E & _)]; [now destruct a|now destruct w].
Qed.
Lemma check_text3_err_iff s : forall consec e, check_text3 consec s = Err e <->
  exists a c b, s = a ++ c :: b /\ existsb special a = false /\ ~ breaks consec a /\
    ((special c = true /\ e = UnsanitisedCharInString c) \/
     (c = c_newline /\ breaks consec (a ++ [c]) /\ e = UnbrokenParagraph)).
Proof.
  induction s as [|c s IH]; intros consec e; cbn [check_text3].
  { split; [discriminate|]. intros ([|? ?] & ? & ? & ? & _); discriminate. }
  rewrite unsanitised_special. destruct (special c) eqn:Es.
  { split.
    - intros H. injection H as <-. exists [], c, s. split; [reflexivity|]. split; [reflexivity|]. split; [apply not_breaks_nil|auto].
    - intros ([|y a] & c' & b & Hs & Ha & Hb & H); cbn [app] in Hs; injection Hs as <- ->.
      + destruct H as [[_ ->]|[-> _]]; [reflexivity|discriminate].
      + cbn [existsb] in Ha. rewrite Es in Ha. discriminate. }
  destruct (N.eqb_spec c c_newline) as [->|Hc].
  - destruct consec.
    + split.
      * intros H. injection H as <-. exists [], c_newline, s. split; [reflexivity|]. split; [reflexivity|].
        split; [apply not_breaks_nil|]. right. split; [reflexivity|]. split; [|reflexivity]. cbn [app]. apply breaks_cons. cbn. now left.
      * intros ([|y a] & c' & b & Hs & Ha & Hb & H); cbn [app] in Hs; injection Hs as <- ->.
        -- destruct H as [[K _]|[_ [_ ->]]]; [discriminate|reflexivity].
        -- exfalso. apply Hb. apply breaks_cons. cbn. now left.
    + rewrite IH. split.
      * intros (a & c' & b & -> & Ha & Hb & H). exists (c_newline :: a), c', b. split; [reflexivity|].
        cbn [existsb app]. rewrite newline_not_special. split; [exact Ha|]. rewrite !breaks_cons. change (c_newline =? c_newline) with true. cbv iota. split; [intros [K|K]; [discriminate|now apply Hb]|].
        destruct H as [H|(H1 & H2 & H3)]; [left; exact H|right]. split; [assumption|]. split; [right; exact H2|exact H3].
      * intros ([|y a] & c' & b & Hs & Ha & Hb & H); cbn [app] in Hs; injection Hs as <- ->.
        -- exfalso. destruct H as [[K _]|[_ [K _]]]; [discriminate|]. cbn [app] in K. apply breaks_cons in K. cbn in K.
           destruct K as [K|K]; [discriminate|]. now apply not_breaks_nil in K.
        -- exists a, c', b. split; [reflexivity|]. cbn [existsb app] in *. rewrite newline_not_special in Ha. split; [exact Ha|].
           rewrite breaks_cons in Hb. change (c_newline =? c_newline) with true in Hb. cbv iota in Hb. split; [intros K; apply Hb; now right|].
           destruct H as [H|(H1 & H2 & H3)]; [left; exact H|right]. split; [assumption|]. split; [|exact H3].
           cbn [app] in H2. rewrite breaks_cons in H2. change (c_newline =? c_newline) with true in H2. cbv iota in H2. destruct H2 as [K|K]; [discriminate|exact K].
  - assert (K : forall q, (if negb (is_whitespace c) then check_text3 false s else check_text3 consec s) = q ->
                check_text3 (consec && is_whitespace c) s = q).
    { intros q <-. destruct (is_whitespace c); cbn [negb]; [rewrite andb_true_r|rewrite andb_false_r]; reflexivity. }
    rewrite <- (K _ eq_refl). clear K. rewrite IH.
    assert (Q : forall a, breaks consec (c :: a) <-> breaks (consec && is_whitespace c) a).
    { intros a. rewrite breaks_cons. destruct (N.eqb_spec c c_newline); [contradiction|reflexivity]. }
    split.
    + intros (a & c' & b & -> & Ha & Hb & H). exists (c :: a), c', b. split; [reflexivity|].
      cbn [existsb app]. rewrite Es. split; [exact Ha|]. rewrite !Q. auto.
    + intros ([|y a] & c' & b & Hs & Ha & Hb & H); cbn [app] in Hs; injection Hs as <- ->.
      * exfalso. destruct H as [[K _]|[K _]]; congruence.
      * exists a, c', b. split; [reflexivity|]. cbn [existsb app] in *. rewrite Es in Ha. rewrite Q in Hb. rewrite Q in H. auto.
Qed.

Lemma check_break3_err_iff p s : forall n e, n + count_newlines s < two32 ->
  (check_break3 p n s = Err e <->
   (forallb is_whitespace s = false /\ e = ParagraghBreakNonwhitespace) \/
   (forallb is_whitespace s = true /\ n + count_newlines s < 2 /\ e = ParagraphBreakTooShort)).
Proof.
  induction s as [|c s IH]; intros n e B; cbn [check_break3 forallb].
  - rewrite count_newlines_nil. rewrite N.add_0_r. destruct (N.ltb_spec n 2) as [Hn|Hn]; split.
    + intros H. injection H as <-. auto.
    + intros [[? _]|(_ & _ & ->)]; [discriminate|reflexivity].
    + discriminate.
    + intros [[? _]|(_ & ? & _)]; [discriminate|lia].
  - destruct (is_whitespace c) eqn:Ew; cbn [negb andb].
    2:{ split; [intros H; injection H as <-; auto|]. intros [[_ ->]|[? _]]; [reflexivity|discriminate]. }
    rewrite count_newlines_cons in *. destruct (c =? c_newline).
    + rewrite add32_ok by lia. cbn [bind]. rewrite IH by lia.
      replace (n + 1 + count_newlines s) with (n + (1 + count_newlines s)) by lia. reflexivity.
    + rewrite IH by lia. replace (n + (0 + count_newlines s)) with (n + count_newlines s) by lia. reflexivity.
Qed.

Lemma sound3_iff p d : count_newlines (show_chunks3 d) < two32 -> (sound3 d <-> iterM (validate_chunk3 p) d = Ok tt).
Proof. intros B. rewrite iterM_ok. symmetry. now apply ok3_within. Qed.
Lemma sound_args3_iff p args : count_newlines (show_args3 args) < two32 -> (sound_args3 args <->
  iterM (fun a : list N * scope3 => let (_, sc) := a in validate_scope3 p sc) args = Ok tt).
Proof.
  intros B. rewrite iterM_ok, Forall_forall. split.
  - intros H [pre [cs v]] Hin. cbn. apply sound3_iff; [|eapply H, Hin]. apply nl_arg3 in Hin. rewrite nl_scope3 in Hin. lia.
  - intros H pre inner v Hin. apply (sound3_iff p); [|exact (H _ Hin)]. apply nl_arg3 in Hin. rewrite nl_scope3 in Hin. lia.
Qed.
Definition agree3 (p : profile) (c : chunk3) : Prop :=
  count_newlines (show_chunk3 c) < two32 -> forall e, validate_chunk3 p c = Err e <-> fault3 c e.
Lemma faults3_iff p cs : count_newlines (show_chunks3 cs) < two32 -> Forall (agree3 p) cs ->
  forall e, iterM (validate_chunk3 p) cs = Err e <-> faults3 cs e.
Proof.
  intros B IH e. rewrite iterM_err_iff.
  assert (Q : forall pre c post, cs = pre ++ c :: post ->
            count_newlines (show_chunks3 pre) < two32 /\ count_newlines (show_chunk3 c) < two32 /\ agree3 p c).
  { intros pre c post ->. rewrite show_chunks3_app, show_chunks3_cons, !count_newlines_app in B.
    apply Forall_app in IH as [_ IH]. inversion IH; subst. split; [lia|]. split; [lia|assumption]. }
  split.
  - intros (pre & c & post & -> & Hp & Hc). destruct (Q _ _ _ eq_refl) as (Q1 & Q2 & Q3).
    constructor; [now apply (sound3_iff p), iterM_ok|now apply Q3].
  - intros H. destruct H as [pre c post e Hp Hc]. destruct (Q _ _ _ eq_refl) as (Q1 & Q2 & Q3).
    exists pre, c, post. split; [reflexivity|].
    split; [now apply iterM_ok, sound3_iff|now apply Q3].
Qed.
Lemma show_args3_app a b : show_args3 (a ++ b) = show_args3 a ++ show_args3 b.
Proof. unfold show_args3. now rewrite map_app, concat_app. Qed.
Lemma show_args3_cons pre sc b : show_args3 ((pre, sc) :: b) = (pre ++ show_scope3 sc) ++ show_args3 b.
Proof. reflexivity. Qed.
Lemma arg_fault3_iff p args : count_newlines (show_args3 args) < two32 ->
  Forall (fun a : list N * scope3 => Forall (agree3 p) (chunks3 (snd a))) args ->
  forall e, iterM (fun a : list N * scope3 => let (_, sc) := a in validate_scope3 p sc) args = Err e <-> arg_fault3 args e.
Proof.
  intros B IH e. rewrite iterM_err_iff.
  assert (Q : forall pre prec inner v post, args = pre ++ (prec, mkScope3 inner v) :: post ->
            count_newlines (show_args3 pre) < two32 /\ count_newlines (show_chunks3 inner) < two32 /\ Forall (agree3 p) inner).
  { intros pre prec inner v post ->. rewrite show_args3_app, show_args3_cons, !count_newlines_app, nl_scope3 in B.
    apply Forall_app in IH as [_ IH]. inversion IH; subst. split; [lia|]. split; [lia|assumption]. }
  split.
  - intros (pre & [prec [inner v]] & post & -> & Hp & Hx). destruct (Q _ _ _ _ _ eq_refl) as (Q1 & Q2 & Q3).
    constructor; [now apply (sound_args3_iff p), iterM_ok|]. now apply (faults3_iff p).
  - intros H. destruct H as [pre prec inner v post e H2 H3]. destruct (Q _ _ _ _ _ eq_refl) as (Q1 & Q2 & Q3).
    exists pre, (prec, mkScope3 inner v), post. split; [reflexivity|].
    split; [now apply iterM_ok, sound_args3_iff|]. now apply faults3_iff.
Qed.

Lemma fault3_iff p c : agree3 p c.
Proof.
  induction c as [l s|l s|l lab args IH|l cs v IH|l lab args cs pb pe IHa IH|l mv mt cs IH] using chunk3_ind'; intros B e.
  - rewrite vtext3_eq, check_text3_err_iff. split.
    + intros (a & c & b & -> & Ha & Hb & H). rewrite breaks_false in Hb.
      destruct H as [[H ->]|(-> & H & ->)]; [now apply ft3_text|]. rewrite breaks_false in H. now apply ft3_text_break.
    + intros H. inversion H; subst.
      * exists a, x, b. rewrite breaks_false. split; [reflexivity|]. split; [assumption|]. split; [assumption|]. left. auto.
      * exists a, c_newline, b. rewrite !breaks_false. split; [reflexivity|]. split; [assumption|]. split; [assumption|]. right. auto.
  - cbn [show_chunk3 show_variant3] in B. rewrite vbreak3_eq, check_break3_err_iff by lia. rewrite N.add_0_l. split.
    + intros [[H ->]|(H1 & H2 & ->)]; [now apply ft3_break_text|now apply ft3_break_short].
    + intros H. inversion H; subst; auto.
  - pose proof (nl_cmd3 l lab args). rewrite vcmd3_eq. destruct (str_eqb lab s_begin) eqn:E1.
    { apply str_eqb_eq in E1. subst lab. split.
      - intros Q. injection Q as <-. constructor.
      - intros Q. inversion Q; subst; try reflexivity.
        + match goal with K : first_special _ _ |- _ => apply first_special_word in K; vm_compute in K; discriminate end.
        + exfalso. match goal with K : _ <> S! "begin" |- _ => apply K; reflexivity end. }
    destruct (str_eqb lab s_end) eqn:E2.
    { apply str_eqb_eq in E2. subst lab. split.
      - intros Q. injection Q as <-. constructor.
      - intros Q. inversion Q; subst; try reflexivity.
        + match goal with K : first_special _ _ |- _ => apply first_special_word in K; vm_compute in K; discriminate end.
        + exfalso. match goal with K : _ <> S! "end" |- _ => apply K; reflexivity end. }
    apply str_eqb_neq in E1, E2. rewrite label_err, (arg_fault3_iff p) by (assumption || lia). split.
    + intros [(x & -> & H1 & H2)|(H1 & H2)]; [now constructor|].
      apply ft3_arg; assumption.
    + intros Q. inversion Q; subst.
      * now destruct E1.
      * now destruct E2.
      * left. eauto.
      * right. auto.
  - cbn [show_chunk3 show_variant3] in B. rewrite nl_scope3 in B.
    rewrite vscope3_eq, (faults3_iff p) by assumption. split; [now constructor|]. intros H. now inversion H.
  - pose proof (nl_env3 l lab args cs pb pe).
    rewrite venv3_eq, env_label_err, seq_err, (arg_fault3_iff p), (faults3_iff p), <- (sound_args3_iff p) by (assumption || lia). split.
    + intros [(x & -> & Q)|(H1 & [H2|[H2 H3]])].
      * now constructor.
      * now apply ft3_env_arg.
      * now apply ft3_env_content.
    + intros Q. inversion Q; subst; eauto.
  - pose proof (nl_maths3 l mv mt cs).
    rewrite vmaths3_eq, (faults3_iff p) by (assumption || lia). split; [now constructor|]. intros Q. now inversion Q.
Qed.

Lemma validate_from3_err_iff p d : forall pre, lines_add_up3 pre -> sound3 pre ->
  1 + count_newlines (show_chunks3 (pre ++ d)) < two32 -> forall e,
  (validate_from3 p (1 + count_newlines (show_chunks3 pre)) d = Err e <->
   exists a c b, d = a ++ c :: b /\ lines_add_up3 (pre ++ a) /\ sound3 (pre ++ a) /\
     ((line_no3 c <> 1 + count_newlines (show_chunks3 (pre ++ a)) /\
       e = IncorrectChunkLineNumber (1 + count_newlines (show_chunks3 (pre ++ a))) (line_no3 c)) \/
      (line_no3 c = 1 + count_newlines (show_chunks3 (pre ++ a)) /\ fault3 c e))).
Proof.
  induction d as [|c d IH]; intros pre HL HS B e; cbn [validate_from3].
  { split; [discriminate|]. intros ([|? ?] & ? & ? & ? & _); discriminate. }
  assert (Bc : 1 + count_newlines (show_chunks3 pre) + count_newlines (show_chunk3 c) + count_newlines (show_chunks3 d) < two32).
  { revert B. rewrite show_chunks3_app, count_newlines_app, show_chunks3_cons, count_newlines_app. lia. }
  assert (FI : forall e, validate_chunk3 p c = Err e <-> fault3 c e) by (intros q; apply fault3_iff; lia).
  destruct (N.eqb_spec (line_no3 c) (1 + count_newlines (show_chunks3 pre))) as [Hc|Hc]; cbn [negb].
  2:{ split.
      - intros H. injection H as <-. exists [], c, d. rewrite app_nil_r. repeat split; auto.
      - intros ([|x a] & c' & b & Hd & H1 & H2 & H3); cbn [app] in Hd; injection Hd as <- ->.
        + rewrite app_nil_r in H3. destruct H3 as [[_ ->]|[K _]]; [reflexivity|contradiction].
        + exfalso. apply Hc. apply (H1 pre c a). reflexivity. }
  destruct (validate_chunk3 p c) as [[]|e'| |] eqn:Ev; cbn [bind].
  - rewrite lines_ok3 by lia. cbn [bind]. rewrite sub32_ok by lia. cbn [bind]. rewrite add32_ok by lia. cbn [bind].
    replace (1 + count_newlines (show_chunks3 pre) + (1 + count_newlines (show_chunk3 c) - 1))
      with (1 + count_newlines (show_chunks3 (pre ++ [c]))) by (rewrite show_chunks3_app, show_chunks3_one, count_newlines_app; lia).
    rewrite (IH (pre ++ [c])).
    + split.
      * intros (a & c' & b & -> & H). exists (c :: a), c', b. rewrite <- app_assoc in H. auto.
      * intros ([|x a] & c' & b & Hd & H1 & H2 & H3); cbn [app] in Hd; injection Hd as <- ->.
        -- rewrite app_nil_r in H3. destruct H3 as [[K _]|[_ K]]; [contradiction|]. apply FI in K. congruence.
        -- exists a, c', b. rewrite <- app_assoc. auto.
    + apply lines_add_up3_snoc. auto.
    + apply (sound3_iff p); [rewrite show_chunks3_app, show_chunks3_one, count_newlines_app; lia|].
      apply iterM_ok, Forall_app. split; [apply iterM_ok, sound3_iff; [lia|assumption]|]. repeat constructor. exact Ev.
    + rewrite <- app_assoc. exact B.
  - split.
    + intros H. injection H as <-. exists [], c, d. rewrite app_nil_r. repeat split; auto. right. split; [assumption|]. now apply FI.
    + intros ([|x a] & c' & b & Hd & H1 & H2 & H3); cbn [app] in Hd; injection Hd as <- ->.
      * rewrite app_nil_r in H3. destruct H3 as [[K _]|[_ K]]; [contradiction|]. apply FI in K. congruence.
      * exfalso. apply (sound3_iff p), iterM_ok in H2.
        -- apply Forall_app in H2 as [_ H2]. inversion H2; subst. congruence.
        -- rewrite !show_chunks3_app, show_chunks3_cons, !count_newlines_app in *. lia.
  - exfalso. destruct (validate_chunk3_total p c) as [K|[e' K]]; [lia|congruence..].
  - exfalso. destruct (validate_chunk3_total p c) as [K|[e' K]]; [lia|congruence..].
Qed.
Lemma validate_section3_err_iff p d e : 1 + count_newlines (show_chunks3 d) < two32 ->
  (validate_from3 p 1 d = Err e <-> section_fault3 d e).
Proof.
  intros B. change 1 with (1 + count_newlines (show_chunks3 [])) at 1. rewrite (validate_from3_err_iff p d []).
  - cbn [app]. split.
    + intros (a & c & b & -> & H1 & H2 & [[H3 ->]|[H3 H4]]).
      * now constructor.
      * apply df3_chunk; auto. apply lines_add_up3_snoc. auto.
    + intros H. destruct H as [pre c post L H1 H2 -> H3|pre c post e H1 H2 H3]; exists pre, c, post.
      * split; [reflexivity|]. split; [assumption|]. split; [assumption|]. left. auto.
      * apply lines_add_up3_snoc in H1 as [H1 H4]. split; [reflexivity|]. split; [assumption|]. split; [assumption|]. right. auto.
  - intros [|? ?] ? ? ?; discriminate.
  - apply (sound3_iff p); reflexivity.
  - exact B.
Qed.
Theorem validate3_err_iff p d e :
  1 + count_newlines (show_chunks3 (d_preamable d)) < two32 ->
  1 + count_newlines (show_chunks3 (d_body d)) < two32 ->
  1 + count_newlines (show_chunks3 (d_trailing d)) < two32 ->
  (validate3 p d = Err e <-> doc_fault3 d e).
Proof.
  intros B1 B2 B3. unfold validate3, doc_fault3.
  rewrite !seq_err, !validate_section3_err_iff, !validate_vec3_iff by assumption. tauto.
Qed.
