(** * Flat: the conversions back produce exactly what SpecFlat.v says *)
From Verif Require Import Base Ast1 Parse1 Ast2 Ast3 Api Spec1 SpecDoc1 SpecDoc2 SpecDoc3 Spec2 SpecBack2 SpecBack3 SpecFlat
  Tok Refine1 Gram1 Ind Lines Facts1 Conv2 Valid2 Valid3 MathsRun Mono Rules Doc3 Back2 Back3.
Open Scope N_scope.

(** ** Stage 2 to stage 1 *)
Lemma fits1_cons l v d : fits1 (mkChunk1 l v :: d) -> l < two32 /\ fits1 d.
Proof.
  intros H. split.
  - specialize (H _ (w1_self _)). inversion H; subst. assumption.
  - intros cs Hw. assert (K : cs = d \/ within1 (mkChunk1 l v :: d) cs).
    { clear H. induction Hw as [|cs l0 inner v0 Hw IH Hin|cs l0 lab args pre inner v0 Hw IH Hin Ha].
      - now left.
      - right. destruct IH as [->|IH]; [eapply w1_scope; [apply w1_self|right; exact Hin]|eapply w1_scope; eauto].
      - right. destruct IH as [->|IH]; [eapply w1_arg; [apply w1_self|right; exact Hin|exact Ha]|eapply w1_arg; eauto]. }
    destruct K as [->|K]; [|now apply H]. specialize (H _ (w1_self _)). now inversion H.
Qed.
Lemma fits1_app a b : fits1 (a ++ b) -> fits1 a /\ fits1 b.
Proof.
  intros H.
  assert (S : forall x, incl x (a ++ b) -> fits1 x).
  { intros x I cs Hw. assert (K : cs = x \/ within1 (a ++ b) cs).
    { clear H. induction Hw as [|cs l0 inner v0 Hw IH Hin|cs l0 lab args pre inner v0 Hw IH Hin Ha].
      - now left.
      - right. destruct IH as [->|IH]; [eapply w1_scope; [apply w1_self|apply I; exact Hin]|eapply w1_scope; eauto].
      - right. destruct IH as [->|IH]; [eapply w1_arg; [apply w1_self|apply I; exact Hin|exact Ha]|eapply w1_arg; eauto]. }
    destruct K as [->|K]; [|now apply H]. specialize (H _ (w1_self _)). rewrite Forall_forall in *. intros c Hc. apply H, I, Hc. }
  split; apply S; intros x Hx; apply in_or_app; auto.
Qed.
Lemma fits1_scope l cs v d : fits1 (mkChunk1 l (Scope1 (mkScope1 cs v)) :: d) -> fits1 cs.
Proof.
  intros H es Hw. apply H. clear H. induction Hw as [|es l0 inner v0 Hw IH Hin|es l0 lab args pre inner v0 Hw IH Hin Ha].
  - eapply w1_scope; [apply w1_self|]. left. reflexivity.
  - eapply w1_scope; eauto.
  - eapply w1_arg; eauto.
Qed.
Lemma fits1_arg l lab args pre cs v d : fits1 (mkChunk1 l (Command1 (mkCommand1 lab args)) :: d) -> In (pre, mkScope1 cs v) args -> fits1 cs.
Proof.
  intros H Hin es Hw. apply H. clear H. induction Hw as [|es l0 inner v0 Hw IH Hi|es l0 lab0 args0 pre0 inner v0 Hw IH Hi Ha].
  - eapply w1_arg; [apply w1_self|left; reflexivity|eassumption].
  - eapply w1_scope; eauto.
  - eapply w1_arg; eauto.
Qed.
Lemma open1_inj v' v : open1 v' = open2 v -> v' = sv1_of_sv2 v.
Proof. now destruct v', v. Qed.

Section One.
  Context {E : Type} (p : profile).
  Definition U (c : chunk2) : Prop := forall off sh out, unfolds off c out -> offset sh off -> fits1 out -> @into1_chunk E p c sh = Ok out.
  Lemma U_list cs : Forall U cs -> forall off sh out, unfolds_all off cs out -> offset sh off -> fits1 out ->
    exists css, @into_list E p sh cs = Ok css /\ concat css = out.
  Proof.
    induction 1 as [|c cs Hc _ IH]; intros off sh out H O F; inversion H; subst.
    - exists []. split; reflexivity.
    - apply fits1_app in F as [F1 F2]. destruct (IH _ _ _ H5 O F2) as (css & E1 & E2).
      exists (out0 :: css). unfold into_list in *. cbn [mapM]. rewrite (Hc _ _ _ H3 O F1). cbn [bind]. rewrite E1. cbn [bind concat].
      split; [reflexivity|congruence].
  Qed.
  Lemma U_scope cs v v' out : Forall U cs -> open1 v' = open2 v -> unfolds_all 0 cs out -> fits1 out ->
    @into1_scope E p (mkScope2 cs v) = Ok (mkScope1 out v').
  Proof.
    intros H Hv Hu F. rewrite into_scope_eq. destruct (U_list cs H 0 None out Hu eq_refl F) as (css & -> & <-).
    cbn [bind]. now rewrite (open1_inj _ _ Hv).
  Qed.
  Lemma U_args args : Forall (fun a => Forall U (chunks2 (snd a))) args -> forall args', unfolds_args args args' ->
    (forall pre cs v, In (pre, mkScope1 cs v) args' -> fits1 cs) -> @into_args E p args = Ok args'.
  Proof.
    induction 1 as [|[pre [cs v]] args Hc _ IH]; intros args' H F; inversion H; subst; [reflexivity|].
    cbn [snd chunks2] in Hc. unfold into_args in *. cbn [mapM].
    rewrite (U_scope cs v v' out Hc) by (auto; eapply F; left; reflexivity). cbn [bind].
    rewrite (IH args'0) by (auto; intros; eapply F; right; eassumption). reflexivity.
  Qed.
  Lemma U_all c : U c.
  Proof.
    induction c as [l s|l lab args IH|l cs v IH|l lab args cs pb pe IHa IH] using chunk2_ind'; intros off sh out H O F; inversion H; subst.
    - rewrite into_text_eq, (into_line_ok p l sh off O) by (apply fits1_cons in F; lia). reflexivity.
    - rewrite into_cmd_eq, (into_line_ok p l sh off O) by (apply fits1_cons in F; lia). cbn [bind].
      rewrite (U_args args IH args' ltac:(assumption) (fun pre cs v K => fits1_arg _ _ _ _ _ _ _ F K)). reflexivity.
    - rewrite into_scope_chunk_eq, (into_line_ok p l sh off O) by (apply fits1_cons in F; lia). cbn [bind].
      rewrite (U_scope cs v v' out0 IH) by (auto; eapply fits1_scope; exact F). reflexivity.
    - unfold begin_cmd, end_cmd in F. pose proof (proj1 (fits1_cons _ _ _ F)) as F1. pose proof (proj2 (fits1_cons _ _ _ F)) as F2.
      apply fits1_app in F2 as [F2 F3]. apply fits1_cons in F3 as [F3 _].
      rewrite !count_newlines_app in F3.
      rewrite into_env_eq, (into_line_ok p l sh off O) by lia. cbn [bind].
      rewrite end_extra_eq. unfold as_u32. rewrite N.mod_small by lia. rewrite add32_ok by lia. cbn [bind].
      rewrite (proj2 (from_str1_iff p lab lab' ltac:(assumption)) ltac:(assumption)). cbn [unwrap bind].
      rewrite (U_args args IHa args' ltac:(assumption) (fun pre cs v K => fits1_arg _ _ _ _ _ _ _ F (or_intror K))). cbn [bind].
      destruct (U_list cs IH (l + off - 1) (Some (l + off)) out0 ltac:(assumption)) as (css & -> & <-); [split; [assumption|reflexivity]|exact F2|].
      cbn [bind]. do 3 f_equal. f_equal. f_equal. rewrite !count_newlines_app. f_equal; lia.
  Qed.
End One.

Lemma joined1_det d c d' : joined1 d c d' -> d' = push_chunk_unchecked1 d c.
Proof.
  assert (P : forall d0 l s l' s', push_chunk_unchecked1 (d0 ++ [mkChunk1 l (Text1 s)]) (mkChunk1 l' (Text1 s')) = d0 ++ [mkChunk1 l (Text1 (s ++ s'))]).
  { induction d0 as [|x d0 IH]; intros; [reflexivity|]. cbn [app]. rewrite <- (IH l s l' s'). destruct d0; reflexivity. }
  intros H. pose proof (joined1_push d c) as J. destruct H as [d0 l s l' s'|d c H].
  - symmetry. apply P.
  - inversion J; subst; [|reflexivity]. exfalso. apply H. do 5 eexists. split; reflexivity.
Qed.
Lemma joined2_det d c d' : joined2 d c d' -> d' = push_chunk_unchecked2 d c.
Proof.
  assert (P : forall d0 l s l' s', push_chunk_unchecked2 (d0 ++ [mkChunk2 l (Text2 s)]) (mkChunk2 l' (Text2 s')) = d0 ++ [mkChunk2 l (Text2 (s ++ s'))]).
  { induction d0 as [|x d0 IH]; intros; [reflexivity|]. cbn [app]. rewrite <- (IH l s l' s'). destruct d0; reflexivity. }
  intros H. pose proof (joined2_push d c) as J. destruct H as [d0 l s l' s'|d c H].
  - symmetry. apply P.
  - inversion J; subst; [|reflexivity]. exfalso. apply H. do 5 eexists. split; reflexivity.
Qed.
Lemma joins1_fold cs : forall d, joins1 d cs (fold_left push_chunk_unchecked1 cs d).
Proof. induction cs as [|c cs IH]; intros d; cbn [fold_left]; [constructor|]. econstructor; [apply joined1_push|apply IH]. Qed.
Lemma joins1_det cs : forall d d', joins1 d cs d' -> d' = fold_left push_chunk_unchecked1 cs d.
Proof.
  induction cs as [|c cs IH]; intros d d' H; inversion H; subst; [reflexivity|]. cbn [fold_left].
  rewrite <- (joined1_det _ _ _ H3). now apply IH.
Qed.
Lemma joins2_fold cs : forall d, joins2 d cs (fold_left push_chunk_unchecked2 cs d).
Proof. induction cs as [|c cs IH]; intros d; cbn [fold_left]; [constructor|]. econstructor; [apply joined2_push|apply IH]. Qed.
Lemma joins2_det cs : forall d d', joins2 d cs d' -> d' = fold_left push_chunk_unchecked2 cs d.
Proof.
  induction cs as [|c cs IH]; intros d d' H; inversion H; subst; [reflexivity|]. cbn [fold_left].
  rewrite <- (joined2_det _ _ _ H3). now apply IH.
Qed.

Theorem unfolds_exact {E} p c out : unfolds 0 c out -> fits1 out -> @into1_chunk E p c None = Ok out.
Proof. intros H F. exact (U_all p c 0 None out H eq_refl F). Qed.
Theorem unfolds_push {E} p c out d d' : unfolds 0 c out -> fits1 out -> joins1 d out d' -> @push_into1 E p d c = Ok d'.
Proof. intros H F J. unfold push_into1. rewrite (unfolds_exact p c out H F). cbn [bind]. now rewrite (joins1_det _ _ _ J). Qed.
Theorem unfolds_doc {E} p d out d' : unfolds_all 0 d out -> fits1 out -> joins1 [] out d' -> @from2_to1 E p d = Ok d'.
Proof.
  intros H F J. assert (K : Forall (U (E := E) p) d) by (apply Forall_forall; intros; apply U_all).
  destruct (U_list p d K 0 None out H eq_refl F) as (css & E1 & E2). rewrite (from2_to1_map p d css E1), E2. now rewrite (joins1_det _ _ _ J).
Qed.

Scheme unfolds_mut := Induction for unfolds Sort Prop
with unfolds_all_mut := Induction for unfolds_all Sort Prop
with unfolds_args_mut := Induction for unfolds_args Sort Prop.
Combined Scheme unfolds_ind3 from unfolds_mut, unfolds_all_mut, unfolds_args_mut.
Lemma unfolds_det :
  (forall off c out, unfolds off c out -> forall out', unfolds off c out' -> out = out') /\
  (forall off cs out, unfolds_all off cs out -> forall out', unfolds_all off cs out' -> out = out') /\
  (forall args args1, unfolds_args args args1 -> forall args2, unfolds_args args args2 -> args1 = args2).
Proof.
  apply unfolds_ind3; intros.
  - inversion H. reflexivity.
  - inversion H0; subst. rewrite (H out0) by assumption. rewrite (open1_inj _ _ e), (open1_inj v'0 v) by assumption. reflexivity.
  - inversion H0; subst. rewrite (H args'0) by assumption. reflexivity.
  - inversion H1; subst. rewrite (H args'0), (H0 out0) by assumption.
    assert (lab' = lab'0) as ->; [|reflexivity].
    apply (from_str1_iff Debug lab lab' s) in p. match goal with K : parses 1 (tokens lab) lab'0 |- _ => apply (from_str1_iff Debug lab lab'0 s) in K; congruence end.
  - inversion H. reflexivity.
  - inversion H1; subst. rewrite (H out0), (H0 outs0) by assumption. reflexivity.
  - inversion H. reflexivity.
  - inversion H1; subst. rewrite (H out0), (H0 args'0) by assumption. rewrite (open1_inj _ _ e), (open1_inj v'0 v) by assumption. reflexivity.
Qed.

(** existence *)
Definition env_numbered2 (d : list chunk2) : Prop :=
  forall cs l e, within2 d cs -> In (mkChunk2 l (Environment2 e)) cs -> 1 <= l.
Definition label_ok (lab : str) : Prop := source_fits lab /\ exists x, parses 1 (tokens lab) x.
Lemma unfolds_exists d : env_numbered2 d -> every_label label_ok d -> forall c, (exists cs, within2 d cs /\ In c cs) ->
  forall off, exists out, unfolds off c out.
Proof.
  intros HN HL.
  assert (LS : forall cs, Forall (fun c => forall off, exists out, unfolds off c out) cs -> forall off, exists out, unfolds_all off cs out).
  { induction 1 as [|c cs Hc _ IH]; intros off; [eexists; constructor|]. destruct (Hc off) as [x Hx], (IH off) as [y Hy]. eexists. econstructor; eassumption. }
  assert (AS : forall args, Forall (fun a => Forall (fun c => forall off, exists out, unfolds off c out) (chunks2 (snd a))) args ->
    exists args', unfolds_args args args').
  { induction 1 as [|[pre [cs v]] args Hc _ [args' IH]]; [eexists; constructor|]. cbn [snd chunks2] in Hc. destruct (LS cs Hc 0) as [y Hy].
    eexists. econstructor; [|eassumption|eassumption]. apply open1_of. }
  intros c. induction c as [l s|l lab args IH|l cs v IH|l lab args cs pb pe IHa IH] using chunk2_ind'; intros (cs0 & Hw & Hin) off.
  - eexists. constructor.
  - destruct (AS args) as [args' Ha].
    { apply Forall_forall. intros [pre [ics v]] Ha. rewrite Forall_forall in IH. specialize (IH _ Ha). cbn [snd chunks2] in *.
      apply Forall_forall. intros x Hx. rewrite Forall_forall in IH. apply (IH _ Hx). exists ics. split; [|assumption]. eapply w2_arg; eauto. }
    eexists. constructor. exact Ha.
  - destruct (LS cs) with (off := 0) as [y Hy].
    { apply Forall_forall. intros x Hx. rewrite Forall_forall in IH. apply (IH _ Hx). exists cs. split; [|assumption]. eapply w2_scope; eauto. }
    eexists. econstructor; [apply open1_of|exact Hy].
  - destruct (AS args) as [args' Ha].
    { apply Forall_forall. intros [pre [ics v]] Ha. rewrite Forall_forall in IHa. specialize (IHa _ Ha). cbn [snd chunks2] in *.
      apply Forall_forall. intros x Hx. rewrite Forall_forall in IHa. apply (IHa _ Hx). exists ics. split; [|assumption]. eapply w2_env_arg; eauto. }
    destruct (LS cs) with (off := l + off - 1) as [y Hy].
    { apply Forall_forall. intros x Hx. rewrite Forall_forall in IH. apply (IH _ Hx). exists cs. split; [|assumption]. eapply w2_env; eauto. }
    destruct (HL _ _ _ _ _ _ _ Hw Hin) as [B [lab' P]]. specialize (HN _ _ _ Hw Hin).
    eexists. econstructor; try eassumption. lia.
Qed.
Theorem unfolds_all_exists d : env_numbered2 d -> every_label label_ok d -> exists out, unfolds_all 0 d out.
Proof.
  intros HN HL. pose proof (unfolds_exists d HN HL) as K.
  assert (I : forall cs, incl cs d -> exists out, unfolds_all 0 cs out); [|apply I, incl_refl].
  induction cs as [|c cs IH]; intros HI; [eexists; constructor|].
  destruct (K c) with (off := 0) as [x Hx]; [exists d; split; [constructor|apply HI; now left]|].
  destruct IH as [y Hy]; [intros z Hz; apply HI; now right|]. eexists. econstructor; eassumption.
Qed.

(** ** Stage 3 to stage 2 *)
Lemma fits2_incl x y : incl x y -> fits2 y -> fits2 x.
Proof.
  intros I H cs Hw. assert (K : cs = x \/ within2 y cs).
  { clear H. induction Hw as [|cs l0 inner v0 Hw IH Hin|cs l0 lab args pre inner v0 Hw IH Hin Ha|cs l0 lab args content pb pe pre inner v0 Hw IH Hin Ha|cs l0 lab args content pb pe Hw IH Hin].
    - now left.
    - right. destruct IH as [->|IH]; [eapply w2_scope; [apply w2_self|apply I; exact Hin]|eapply w2_scope; eauto].
    - right. destruct IH as [->|IH]; [eapply w2_arg; [apply w2_self|apply I; exact Hin|exact Ha]|eapply w2_arg; eauto].
    - right. destruct IH as [->|IH]; [eapply w2_env_arg; [apply w2_self|apply I; exact Hin|exact Ha]|eapply w2_env_arg; eauto].
    - right. destruct IH as [->|IH]; [eapply w2_env; [apply w2_self|apply I; exact Hin]|eapply w2_env; eauto]. }
  destruct K as [->|K]; [|now apply H]. specialize (H _ (w2_self _)). rewrite Forall_forall in *. intros c Hc. apply H, I, Hc.
Qed.
Lemma fits2_forall d : fits2 d <-> Forall (fun c => fits2 [c]) d.
Proof.
  split.
  - intros H. apply Forall_forall. intros c Hc. eapply fits2_incl; [|exact H]. intros x [<-|[]]. exact Hc.
  - intros H cs Hw. rewrite Forall_forall in H.
    assert (K : cs = d \/ exists c, In c d /\ within2 [c] cs).
    { clear H. induction Hw as [|cs l0 inner v0 Hw IH Hin|cs l0 lab args pre inner v0 Hw IH Hin Ha|cs l0 lab args content pb pe pre inner v0 Hw IH Hin Ha|cs l0 lab args content pb pe Hw IH Hin].
      - now left.
      - right. destruct IH as [->|(c & Hc & IH)]; [exists (mkChunk2 l0 (Scope2 (mkScope2 inner v0))); split; [exact Hin|]; eapply w2_scope; [apply w2_self|now left]|exists c; split; [exact Hc|]; eapply w2_scope; eauto].
      - right. destruct IH as [->|(c & Hc & IH)]; [eexists; split; [exact Hin|]; eapply w2_arg; [apply w2_self|now left|exact Ha]|exists c; split; [exact Hc|]; eapply w2_arg; eauto].
      - right. destruct IH as [->|(c & Hc & IH)]; [eexists; split; [exact Hin|]; eapply w2_env_arg; [apply w2_self|now left|exact Ha]|exists c; split; [exact Hc|]; eapply w2_env_arg; eauto].
      - right. destruct IH as [->|(c & Hc & IH)]; [eexists; split; [exact Hin|]; eapply w2_env; [apply w2_self|now left]|exists c; split; [exact Hc|]; eapply w2_env; eauto]. }
    destruct K as [->|(c & Hc & K)]; [|exact (H c Hc cs K)].
    apply Forall_forall. intros c Hc. specialize (H c Hc [c] (w2_self _)). now inversion H.
Qed.
Lemma fits2_app a b : fits2 (a ++ b) <-> fits2 a /\ fits2 b.
Proof. rewrite !fits2_forall. apply Forall_app. Qed.
Lemma fits2_line c : fits2 [c] -> line_no2 c < two32.
Proof. intros H. specialize (H _ (w2_self _)). now inversion H. Qed.
Lemma fits2_lines cs : fits2 cs -> Forall (fun c => line_no2 c < two32) cs.
Proof. intros H. exact (H _ (w2_self _)). Qed.
Lemma fits2_scope l cs v : fits2 [mkChunk2 l (Scope2 (mkScope2 cs v))] -> fits2 cs.
Proof.
  intros H es Hw. apply H. clear H. induction Hw; [eapply w2_scope; [apply w2_self|now left]|eapply w2_scope; eauto|eapply w2_arg; eauto|eapply w2_env_arg; eauto|eapply w2_env; eauto].
Qed.
Lemma fits2_arg l lab args pre cs v : fits2 [mkChunk2 l (Command2 (mkCommand2 lab args))] -> In (pre, mkScope2 cs v) args -> fits2 cs.
Proof.
  intros H Hi es Hw. apply H. clear H. induction Hw; [eapply w2_arg; [apply w2_self|now left|eassumption]|eapply w2_scope; eauto|eapply w2_arg; eauto|eapply w2_env_arg; eauto|eapply w2_env; eauto].
Qed.
Lemma fits2_env_arg l lab args content pb pe pre cs v : fits2 [mkChunk2 l (Environment2 (mkEnv2 lab args content pb pe))] -> In (pre, mkScope2 cs v) args -> fits2 cs.
Proof.
  intros H Hi es Hw. apply H. clear H. induction Hw; [eapply w2_env_arg; [apply w2_self|now left|eassumption]|eapply w2_scope; eauto|eapply w2_arg; eauto|eapply w2_env_arg; eauto|eapply w2_env; eauto].
Qed.
Lemma fits2_env l lab args content pb pe : fits2 [mkChunk2 l (Environment2 (mkEnv2 lab args content pb pe))] -> fits2 content.
Proof.
  intros H es Hw. apply H. clear H. induction Hw; [eapply w2_env; [apply w2_self|now left]|eapply w2_scope; eauto|eapply w2_arg; eauto|eapply w2_env_arg; eauto|eapply w2_env; eauto].
Qed.
Lemma fits2_text l s s' : fits2 [mkChunk2 l (Text2 s)] -> fits2 [mkChunk2 l (Text2 s')].
Proof.
  intros H cs Hw. apply fits2_line in H. assert (cs = [mkChunk2 l (Text2 s')]) as ->; [|repeat constructor; exact H].
  induction Hw; [reflexivity|subst; destruct H0 as [H0|[]]; discriminate..].
Qed.
Lemma fits2_fronted c inner mid : fronted c inner mid -> fits2 mid -> fits2 inner.
Proof.
  intros H F. destruct H as [l' s' l s d|c d H].
  - apply (fits2_app [_] d) in F as [F1 F2]. apply (fits2_app [_] d). split; [eapply fits2_text; exact F1|exact F2].
  - apply (fits2_app [c] d) in F. apply F.
Qed.
Lemma fits2_joined d c d' : joined2 d c d' -> fits2 d' -> fits2 d.
Proof.
  intros H F. destruct H as [d0 l s l' s'|d c H]; apply fits2_app in F as [F1 F2]; [|exact F1].
  apply fits2_app. split; [exact F1|eapply fits2_text; exact F2].
Qed.
Definition sh (k : N) (c : chunk2) : chunk2 := match c with mkChunk2 l v => mkChunk2 (l + k) v end.
Lemma sh_sh a b cs : map (sh a) (map (sh b) cs) = map (sh (b + a)) cs.
Proof. rewrite map_map. apply map_ext. intros [l v]. cbn [sh]. f_equal. lia. Qed.
Lemma sh_0 cs : map (sh 0) cs = cs.
Proof. rewrite <- (map_id cs) at 2. apply map_ext. intros [l v]. cbn [sh]. now rewrite N.add_0_r. Qed.
Lemma shift_exact {E} p k cs : Forall (fun c => line_no2 c < two32) (map (sh k) cs) -> mapM (@shift_chunk2 E p k) cs = Ok (map (sh k) cs).
Proof.
  induction cs as [|[l v] cs IH]; intros H; [reflexivity|]. cbn [map] in H. inversion H; subst. cbn [sh line_no2] in H2. cbn [mapM].
  unfold shift_chunk2 at 1. rewrite add32_ok by lia. cbn [bind]. rewrite IH by assumption. reflexivity.
Qed.
Lemma lines_less a b cs : Forall (fun c => line_no2 c < two32) (map (sh (a + b)) cs) -> Forall (fun c => line_no2 c < two32) (map (sh a) cs).
Proof.
  intros H. rewrite Forall_forall in *. intros c Hc. apply in_map_iff in Hc as ([l v] & <- & Hc).
  specialize (H (sh (a + b) (mkChunk2 l v)) (in_map _ _ _ Hc)). cbn [sh line_no2] in *. lia.
Qed.
Lemma fits2_less a b cs : fits2 (map (sh (a + b)) cs) -> fits2 (map (sh a) cs).
Proof.
  rewrite !fits2_forall. intros H. rewrite Forall_forall in *. intros c Hc. apply in_map_iff in Hc as ([l v] & <- & Hc).
  specialize (H (sh (a + b) (mkChunk2 l v)) (in_map _ _ _ Hc)). cbn [sh] in *. intros es Hw.
  assert (K : es = [mkChunk2 (l + a) v] \/ within2 [mkChunk2 (l + (a + b)) v] es /\ es <> [mkChunk2 (l + a) v] \/ within2 [mkChunk2 (l + (a + b)) v] es).
  { clear H Hc. induction Hw as [|cs0 l0 inner v0 Hw IH Hin|cs0 l0 lab args pre inner v0 Hw IH Hin Ha|cs0 l0 lab args content pb pe pre inner v0 Hw IH Hin Ha|cs0 l0 lab args content pb pe Hw IH Hin].
    - now left.
    - right; right. destruct IH as [->|[[IH _]|IH]]; [destruct Hin as [Hin|[]]; injection Hin as <- ->; eapply w2_scope; [apply w2_self|now left]|eapply w2_scope; eauto..].
    - right; right. destruct IH as [->|[[IH _]|IH]]; [destruct Hin as [Hin|[]]; injection Hin as <- ->; eapply w2_arg; [apply w2_self|now left|exact Ha]|eapply w2_arg; eauto..].
    - right; right. destruct IH as [->|[[IH _]|IH]]; [destruct Hin as [Hin|[]]; injection Hin as <- ->; eapply w2_env_arg; [apply w2_self|now left|exact Ha]|eapply w2_env_arg; eauto..].
    - right; right. destruct IH as [->|[[IH _]|IH]]; [destruct Hin as [Hin|[]]; injection Hin as <- ->; eapply w2_env; [apply w2_self|now left]|eapply w2_env; eauto..]. }
  destruct K as [->|[[K _]|K]]; [|now apply H..]. apply fits2_line in H. cbn [line_no2] in H. repeat constructor. cbn [line_no2]. lia.
Qed.
(** the dollars *)
Lemma append_push D n out : append_dollars D n out = push_chunk_unchecked2 out (mkChunk2 n (Text2 D)).
Proof.
  induction out as [|x out IH]; [reflexivity|]. destruct out as [|y out].
  - destruct x as [lx [s|c|s|e]]; reflexivity.
  - replace (append_dollars D n (x :: y :: out)) with (x :: append_dollars D n (y :: out)) by (destruct x as [? [?|?|?|?]]; reflexivity).
    now rewrite IH.
Qed.
Lemma push_sh k d l v : push_chunk_unchecked2 (map (sh k) d) (mkChunk2 (l + k) v) = map (sh k) (push_chunk_unchecked2 d (mkChunk2 l v)).
Proof.
  induction d as [|x d IH]; [reflexivity|]. destruct d as [|y d].
  - destruct x as [lx [s|c|s|e]], v; reflexivity.
  - change (push_chunk_unchecked2 (map (sh k) (x :: y :: d)) (mkChunk2 (l + k) v)) with (sh k x :: push_chunk_unchecked2 (map (sh k) (y :: d)) (mkChunk2 (l + k) v)).
    rewrite IH. reflexivity.
Qed.
Lemma fronted_sh k D inner0 mid : fronted (mkChunk2 (1 + k) (Text2 D)) (map (sh k) inner0) mid -> mid = map (sh k) (prepend_dollars D inner0).
Proof.
  destruct inner0 as [|[l [s|c|s|e]] inner0]; cbn [map sh]; intros H; inversion H; subst; try reflexivity.
  exfalso. match goal with K : ~ _ |- _ => apply K end. do 3 eexists. reflexivity.
Qed.
Lemma open2_inj v' v : open2 v' = open3 v -> v' = sv2_of_sv3 v.
Proof. now destruct v', v. Qed.
Lemma dollar_out D n inner0 : append_dollars D n (prepend_dollars D inner0) =
  match inner0 with [] => [mkChunk2 1 (Text2 (D ++ D))] | _ => append_dollars D n (prepend_dollars D inner0) end.
Proof. destruct inner0; reflexivity. Qed.

Section Two.
  Context {E : Type} (p : profile).
  Definition L (c : chunk3) : Prop := forall off out, lowers off c out -> 1 + count_newlines (show_chunk3 c) < two32 -> fits2 out ->
    exists out0, @into2_chunk E p c = Ok out0 /\ out = map (sh off) out0.
  Lemma L_list cs : Forall L cs -> forall off out, lowers_all off cs out -> 1 + count_newlines (show_chunks3 cs) < two32 -> fits2 out ->
    exists css, mapM (@into2_chunk E p) cs = Ok css /\ out = map (sh off) (concat css).
  Proof.
    induction 1 as [|c cs Hc _ IH]; intros off out H B F; inversion H; subst.
    - exists []. split; reflexivity.
    - rewrite show_chunks3_cons, count_newlines_app in B. apply fits2_app in F as [F1 F2].
      destruct (Hc off out0 ltac:(assumption) ltac:(lia) F1) as (x & E1 & ->).
      destruct (IH off outs ltac:(assumption) ltac:(lia) F2) as (xs & E2 & ->).
      exists (x :: xs). cbn [mapM]. rewrite E1. cbn [bind]. rewrite E2. cbn [bind concat]. now rewrite map_app.
  Qed.
  Lemma L_scope cs v v' out : Forall L cs -> open2 v' = open3 v -> lowers_all 0 cs out -> 1 + count_newlines (show_chunks3 cs) < two32 -> fits2 out ->
    @into2_scope E p (mkScope3 cs v) = Ok (mkScope2 out v').
  Proof.
    intros H Hv Hl B F. rewrite i2scope. destruct (L_list cs H 0 out Hl B F) as (css & -> & ->). cbn [bind]. now rewrite sh_0, (open2_inj _ _ Hv).
  Qed.
  Lemma L_args args : Forall (fun a => Forall L (chunks3 (snd a))) args -> forall args', lowers_args args args' ->
    1 + count_newlines (show_args3 args) < two32 -> (forall pre cs v, In (pre, mkScope2 cs v) args' -> fits2 cs) ->
    mapM (fun a : str * scope3 => match a with (s, sc) => let* sc := @into2_scope E p sc in Ok (s, sc) end) args = Ok args'.
  Proof.
    induction 1 as [|[pre [cs v]] args Hc _ IH]; intros args' H B F; inversion H; subst; [reflexivity|].
    cbn [snd chunks3] in Hc. unfold show_args3 in B. cbn [map concat] in B. fold (show_args3 args) in B. rewrite !count_newlines_app, nl_scope3 in B.
    cbn [mapM]. rewrite (L_scope cs v v' out Hc) by (try assumption; try lia; eapply F; left; reflexivity). cbn [bind].
    rewrite (IH args'0) by (try assumption; try lia; intros; eapply F; right; eassumption). reflexivity.
  Qed.
  Lemma maths_shift l cs : 1 <= l -> Forall (fun c => line_no2 c < two32) (map (sh (l - 1)) cs) ->
    mapM (fun c => let* off := sub32 p l 1 in @shift_chunk2 E p off c) cs = Ok (map (sh (l - 1)) cs).
  Proof. intros Hl H. rewrite <- (shift_exact (E := E) p (l - 1) cs H). rewrite sub32_ok by lia. reflexivity. Qed.
  Lemma L_all c : L c.
  Proof.
    induction c as [l s|l s|l lab args IH|l cs v IH|l lab args cs pb pe IHa IHc|l v t cs IH] using chunk3_ind'; intros off out H B F.
    - inversion H; subst. eexists. split; [reflexivity|]. reflexivity.
    - inversion H; subst. eexists. split; [reflexivity|]. reflexivity.
    - inversion H; subst. change (@into2_chunk E p (mkChunk3 l (Command3 (mkCommand3 lab args)))) with (let* c := @into2_command E p (mkCommand3 lab args) in Ok [mkChunk2 l (Command2 c)]). rewrite i2command.
      pose proof (nl_cmd3 l lab args) as NC.
      rewrite (L_args args IH args' ltac:(assumption) ltac:(lia) (fun pre cs v K => fits2_arg _ _ _ _ _ _ F K)). cbn [bind]. eexists. split; reflexivity.
    - inversion H; subst. change (@into2_chunk E p (mkChunk3 l (Scope3 (mkScope3 cs v)))) with (let* c := @into2_scope E p (mkScope3 cs v) in Ok [mkChunk2 l (Scope2 c)]).
      assert (NS : count_newlines (show_chunk3 (mkChunk3 l (Scope3 (mkScope3 cs v)))) = count_newlines (show_chunks3 cs)) by apply nl_scope3.
      rewrite (L_scope cs v v' out0 IH) by (try assumption; try lia; eapply fits2_scope; exact F). cbn [bind]. eexists. split; reflexivity.
    - inversion H; subst. change (@into2_chunk E p (mkChunk3 l (Environment3 (mkEnv3 lab args cs pb pe)))) with (let* c := @into2_env E p (mkEnv3 lab args cs pb pe) in Ok [mkChunk2 l (Environment2 c)]). rewrite i2env.
      pose proof (nl_env3 l lab args cs pb pe) as NE.
      rewrite (L_args args IHa args' ltac:(assumption) ltac:(lia) (fun pre cs v K => fits2_env_arg _ _ _ _ _ _ _ _ _ F K)). cbn [bind].
      destruct (L_list cs IHc 0 out0 ltac:(assumption) ltac:(lia) (fits2_env _ _ _ _ _ _ F)) as (css & -> & ->). cbn [bind]. rewrite sh_0. eexists. split; reflexivity.
    - change (@into2_chunk E p (mkChunk3 l (Maths3 (mkMaths3 v t cs)))) with (let* cs := @into2_maths E p (mkMaths3 v t cs) in mapM (fun c => let* off := sub32 p l 1 in shift_chunk2 p off c) cs).
      assert (NM : count_newlines (show_chunk3 (mkChunk3 l (Maths3 (mkMaths3 v t cs)))) = count_newlines (show_chunks3 cs)) by apply nlc_maths3.
      rewrite NM in B.
      rewrite i2maths, (mapM_lines p (lines_chunk3 p) show_chunk3); [|apply all_good|fold (show_chunks3 cs); lia]. cbn [bind]. unfold sum32. rewrite (sum_lines p show_chunk3) by (fold (show_chunks3 cs); lia). fold (show_chunks3 cs). cbn [bind]. rewrite add32_ok by lia. cbn [bind].
      assert (K : forall res, 1 <= l -> out = map (sh (l + off - 1)) res -> exists out0,
        (let* c := @Ok E _ res in mapM (fun c => let* off := sub32 p l 1 in @shift_chunk2 E p off c) c) = Ok out0 /\ out = map (sh off) out0).
      { intros res Hl ->. exists (map (sh (l - 1)) res). cbn [bind]. split.
        - apply maths_shift; [exact Hl|]. apply (lines_less (l - 1) off). replace (l - 1 + off) with (l + off - 1) by lia. now apply fits2_lines.
        - rewrite sh_sh. f_equal. f_equal. lia. }
      inversion H; subst.
      + apply (fits2_app [_]) in F as [_ F]. apply fits2_app in F as [F _].
        destruct (L_list cs IH (l + off - 1) out0 ltac:(assumption) ltac:(lia) F) as (css & -> & ->). cbn [bind].
        destruct t; apply K; try assumption; cbn [app map sh]; rewrite map_app; cbn [map sh app].
        all: replace (1 + (l + off - 1)) with (l + off) by lia; replace (0 + count_newlines (show_chunks3 cs) + 1 + (l + off - 1)) with (l + off + count_newlines (show_chunks3 cs)) by lia; reflexivity.
      + match goal with K : joined2 _ _ _ |- _ => rename K into H10 end. match goal with K : fronted _ _ _ |- _ => rename K into H9 end.
        pose proof (fits2_joined _ _ _ H10 F) as F1. pose proof (fits2_fronted _ _ _ H9 F1) as F2.
        destruct (L_list cs IH (l + off - 1) inner ltac:(assumption) ltac:(lia) F2) as (css & -> & ->). cbn [bind].
        replace (l + off) with (1 + (l + off - 1)) in H9 at 1 by lia. apply fronted_sh in H9. subst mid. apply joined2_det in H10.
        replace (l + off + count_newlines (show_chunks3 cs)) with ((0 + count_newlines (show_chunks3 cs) + 1) + (l + off - 1)) in H10 by lia.
        rewrite push_sh, <- append_push, dollar_out in H10.
        destruct t; (destruct (concat css) as [|c0 cs0] eqn:Ec; [apply K; [assumption|exact H10]|apply K; [assumption|exact H10]]).
  Qed.
End Two.
Lemma push_other2 d l e : push_chunk_unchecked2 d (mkChunk2 l (Environment2 e)) = d ++ [mkChunk2 l (Environment2 e)].
Proof. pose proof (joined2_push d (mkChunk2 l (Environment2 e))) as J. inversion J. reflexivity. Qed.
Theorem lowers_chunk {E} p c out : lowers 0 c out -> 1 + count_newlines (show_chunk3 c) < two32 -> fits2 out -> @into2_chunk E p c = Ok out.
Proof. intros H B F. destruct (L_all (E := E) p c 0 out H B F) as (o & E1 & ->). now rewrite sh_0. Qed.
Lemma L_every {E} p cs : Forall (L (E := E) p) cs. Proof. apply Forall_forall. intros c _. apply L_all. Qed.
Theorem lowers_document {E} p d out : lowers_doc d out -> 1 + count_newlines (full_text d) < two32 -> 1 <= count_newlines (upto_end d) ->
  @from3_to2 E p d = Ok out.
Proof.
  intros H B HU. destruct H as [pre args body env trail out E0 -> H1 H2 H3 -> H4 F J].
  apply fits2_app in F as [F1 F2]. apply (fits2_app [_]) in F2 as [F2 F3].
  unfold full_text in B. unfold upto_end in *. fold (document_env d) in *. rewrite !count_newlines_app in *.
  unfold document_env in *. rewrite nlc_env3 in *. fold (show_args3 (d_body_args d)) in *. fold (show_chunks3 (d_body d)) in *. change (count_newlines (S! "document")) with 0 in *. rewrite count_newlines_app in *.
  unfold from3_to2. cbv zeta.
  destruct (L_list (E := E) p _ (L_every p _) 0 pre H1 ltac:(lia) F1) as (css1 & E1 & ->). rewrite sh_0 in *. rewrite E1. cbn [bind]. pose proof (chunks_show p _ (all_Sh p _) _ E1) as S1.
  rewrite (mapM_lines p (lines_chunk2 p) show_chunk2); [|apply Forall_forall; intros; apply lines_chunk2_ok|fold (show2 (concat css1)); rewrite S1; lia]. cbn [bind]. unfold sum32.
  rewrite (sum_lines p show_chunk2) by (fold (show2 (concat css1)); rewrite S1; lia). fold (show2 (concat css1)). rewrite S1. cbn [bind].
  destruct (@offs_ok E p (d_body_args d)) with (acc := 0) as (ls & E2 & E3); [lia|lia|]. rewrite E2. cbn [bind]. unfold sum32. rewrite E3. cbn [bind].
  unfold as_u32. rewrite N.mod_small by lia. rewrite add32_ok by lia. cbn [bind].
  destruct (L_list (E := E) p _ (L_every p _) _ body H3 ltac:(lia) (fits2_env _ _ _ _ _ _ F2)) as (css2 & E4 & ->). rewrite E4. cbn [bind]. pose proof (chunks_show p _ (all_Sh p _) _ E4) as S4.
  replace (0 + count_newlines (show_args3 (d_body_args d)) + count_newlines (d_begin_prec d)) with (count_newlines (d_begin_prec d) + count_newlines (show_args3 (d_body_args d))) by lia.
  pose proof (shift_exact (E := E) p _ _ (fits2_lines _ (fits2_env _ _ _ _ _ _ F2))) as E5. rewrite E5. cbn [bind]. pose proof (mapM_show _ _ (shift_show p _) _ E5) as S5.
  assert (E6 : mapM (fun a : str * scope3 => match a with (s, sc) => let* sc := @into2_scope E p sc in Ok (s, sc) end) (d_body_args d) = Ok args).
  { apply L_args; [apply Forall_forall; intros; apply L_every|exact H2|lia|]. intros pre cs v K. eapply fits2_env_arg; [exact F2|exact K]. }
  rewrite E6. cbn [bind]. pose proof (args_show p _ (all_Sh_args p _) _ E6) as S6.
  change (0 + count_newlines (show_chunks3 (d_preamable d))) with (count_newlines (show_chunks3 (d_preamable d))).
  change s_document with (S! "document").
  match goal with |- context [lines_chunk2 p ?c] => set (env := c) in * end.
  assert (NE : count_newlines (show_chunk2 env) = count_newlines (d_begin_prec d) + count_newlines (d_end_prec d) + count_newlines (show_args3 (d_body_args d)) + count_newlines (show_chunks3 (d_body d))).
  { unfold env. cbn [show_chunk2 show_variant2]. rewrite nlc_env2. fold (show_args2 args). match goal with |- context [concat (map show_chunk2 ?x)] => fold (show2 x) end. rewrite S6, S5, S4, count_newlines_app. change (count_newlines (S! "document")) with 0. lia. }
  assert (LE : @lines_chunk2 E p env = Ok (1 + count_newlines (show_chunk2 env))) by (apply (lines_chunk2_ok p env); rewrite NE; lia).
  rewrite LE, NE. cbn [bind]. rewrite add32_ok by lia. cbn [bind]. rewrite sub32_ok by lia. cbn [bind].
  destruct (L_list (E := E) p _ (L_every p _) _ trail H4 ltac:(lia) F3) as (css3 & E7 & ->). rewrite E7. cbn [bind].
  match goal with |- context [mapM (shift_chunk2 p ?n) _] => match type of H4 with lowers_all ?m _ _ => replace n with m by lia end end.
  rewrite (shift_exact (E := E) p _ _ (fits2_lines _ F3)). cbn [bind]. rewrite (joins2_det _ _ _ J). f_equal. f_equal. apply push_other2.
Qed.

Scheme lowers_mut := Induction for lowers Sort Prop
with lowers_all_mut := Induction for lowers_all Sort Prop
with lowers_args_mut := Induction for lowers_args Sort Prop.
Combined Scheme lowers_ind3 from lowers_mut, lowers_all_mut, lowers_args_mut.
Lemma fronted_det c d x : fronted c d x -> forall y, fronted c d y -> x = y.
Proof.
  intros H y K. destruct H; inversion K; subst; try reflexivity.
  - exfalso. match goal with N : ~ _ |- _ => apply N end. do 3 eexists. reflexivity.
  - exfalso. match goal with N : ~ _ |- _ => apply N end. do 3 eexists. reflexivity.
Qed.
Lemma lowers_det :
  (forall off c out, lowers off c out -> forall out', lowers off c out' -> out = out') /\
  (forall off cs out, lowers_all off cs out -> forall out', lowers_all off cs out' -> out = out') /\
  (forall args args1, lowers_args args args1 -> forall args2, lowers_args args args2 -> args1 = args2).
Proof.
  apply lowers_ind3; intros.
  - inversion H. reflexivity.
  - inversion H. reflexivity.
  - inversion H0; subst. rewrite (H out0) by assumption. rewrite (open2_inj _ _ e), (open2_inj v'0 v) by assumption. reflexivity.
  - inversion H0; subst. rewrite (H args'0) by assumption. reflexivity.
  - inversion H1; subst. rewrite (H args'0), (H0 out0) by assumption. reflexivity.
  - inversion H0; subst. rewrite (H out0) by assumption. reflexivity.
  - inversion H0; subst. rewrite (H inner0) in * by assumption.
    match goal with A : fronted ?c inner0 mid, B : fronted ?c inner0 mid0 |- _ => pose proof (fronted_det _ _ _ A _ B); subst mid0 end.
    match goal with A : joined2 mid _ out, B : joined2 mid _ out' |- _ => apply joined2_det in A; apply joined2_det in B; congruence end.
  - inversion H. reflexivity.
  - inversion H1; subst. rewrite (H out0), (H0 outs0) by assumption. reflexivity.
  - inversion H. reflexivity.
  - inversion H1; subst. rewrite (H out0), (H0 args'0) by assumption. rewrite (open2_inj _ _ e), (open2_inj v'0 v) by assumption. reflexivity.
Qed.
Lemma fronted_exists c d : (exists l s, c = mkChunk2 l (Text2 s)) -> exists x, fronted c d x.
Proof.
  intros (l & s & ->). destruct d as [|[l0 [s0|c0|s0|e0]] d]; eexists; try (apply fronted_other; intros (? & ? & ? & K); discriminate).
  apply fronted_text.
Qed.
Lemma lowers_exists c : numbered [c] -> forall off, exists out, lowers off c out.
Proof.
  assert (LS : forall cs, Forall (fun c => numbered [c] -> forall off, exists out, lowers off c out) cs -> numbered cs -> forall off, exists out, lowers_all off cs out).
  { induction 1 as [|c0 cs Hc _ IH]; intros HN off; [eexists; constructor|].
    destruct (Hc ltac:(apply (numbered_incl (c0 :: cs)); [intros y [<-|[]]; now left|exact HN]) off) as [x Hx].
    destruct (IH ltac:(apply (numbered_incl (c0 :: cs)); [intros y Hy; now right|exact HN]) off) as [y Hy]. eexists. econstructor; eassumption. }
  assert (AS : forall args, Forall (fun a => Forall (fun c => numbered [c] -> forall off, exists out, lowers off c out) (chunks3 (snd a))) args ->
    (forall pre inner v, In (pre, mkScope3 inner v) args -> numbered inner) -> exists args', lowers_args args args').
  { induction 1 as [|[pre [cs v]] args Hc _ IH]; intros HN; [eexists; constructor|]. cbn [snd chunks3] in Hc.
    destruct (LS cs Hc ltac:(eapply HN; left; reflexivity) 0) as [y Hy].
    destruct IH as [args' IH]; [intros; eapply HN; right; eassumption|].
    eexists. econstructor; [|eassumption|eassumption]. apply open23. }
  induction c as [l s|l s|l lab args IH|l cs v IH|l lab args cs pb pe IHa IHc|l v t cs IH] using chunk3_ind'; intros HN off.
  - eexists. constructor.
  - eexists. constructor.
  - destruct (AS args IH) as [args' Ha]; [intros pre inner v Hi; eapply numbered_within; [exact HN|]; eapply w3_arg; [apply w3_self|now left|exact Hi]|].
    eexists. constructor. exact Ha.
  - destruct (LS cs IH) with (off := 0) as [y Hy]; [eapply numbered_within; [exact HN|]; eapply w3_scope; [apply w3_self|now left]|].
    eexists. econstructor; [apply open23|exact Hy].
  - destruct (AS args IHa) as [args' Ha]; [intros pre inner v Hi; eapply numbered_within; [exact HN|]; eapply w3_env_arg; [apply w3_self|now left|exact Hi]|].
    destruct (LS cs IHc) with (off := 0) as [y Hy]; [eapply numbered_within; [exact HN|]; eapply w3_env; [apply w3_self|now left]|].
    eexists. constructor; eassumption.
  - assert (Hl : 1 <= l) by (eapply HN; [apply w3_self|now left]).
    destruct (LS cs IH) with (off := l + off - 1) as [y Hy]; [eapply numbered_within; [exact HN|]; eapply w3_maths; [apply w3_self|now left]|].
    destruct v; [eexists; constructor; eassumption|].
    destruct (fronted_exists (mkChunk2 (l + off) (Text2 (dollars t))) y) as [mid Hm]; [eauto|].
    eexists. econstructor; [exact Hl|exact Hy|exact Hm|apply joined2_push].
Qed.
Lemma lowers_all_exists cs off : numbered cs -> exists out, lowers_all off cs out.
Proof.
  induction cs as [|c cs IH]; intros HN; [eexists; constructor|].
  destruct (lowers_exists c ltac:(apply (numbered_incl (c :: cs)); [intros y [<-|[]]; now left|exact HN]) off) as [x Hx].
  destruct (IH ltac:(apply (numbered_incl (c :: cs)); [intros y Hy; now right|exact HN])) as [y Hy]. eexists. econstructor; eassumption.
Qed.

(** ** Decision procedures for the size conditions *)
Fixpoint fc1 (c : chunk1) : bool :=
  match c with
  | mkChunk1 l v => (l <? two32) &&
      match v with
      | Text1 _ => true
      | Command1 (mkCommand1 _ args) => forallb (fun a => match a with (_, mkScope1 cs _) => forallb fc1 cs end) args
      | Scope1 (mkScope1 cs _) => forallb fc1 cs
      end
  end.
Lemma fc1_fits d : forallb fc1 d = true -> fits1 d.
Proof.
  intros H cs Hw. assert (K : forallb fc1 cs = true).
  { induction Hw as [|cs l0 inner v0 Hw IH Hin|cs l0 lab args pre inner v0 Hw IH Hin Ha]; [exact H| |].
    - rewrite forallb_forall in IH. specialize (IH _ Hin). cbn [fc1] in IH. apply andb_true_iff in IH. apply IH.
    - rewrite forallb_forall in IH. specialize (IH _ Hin). cbn [fc1] in IH. apply andb_true_iff in IH as [_ IH].
      rewrite forallb_forall in IH. exact (IH _ Ha). }
  apply Forall_forall. intros [l v] Hc. rewrite forallb_forall in K. specialize (K _ Hc). cbn [fc1] in K.
  apply andb_true_iff in K as [K _]. now apply N.ltb_lt in K.
Qed.
Fixpoint fc2 (c : chunk2) : bool :=
  match c with
  | mkChunk2 l v => (l <? two32) &&
      match v with
      | Text2 _ => true
      | Command2 (mkCommand2 _ args) => forallb (fun a => match a with (_, mkScope2 cs _) => forallb fc2 cs end) args
      | Scope2 (mkScope2 cs _) => forallb fc2 cs
      | Environment2 (mkEnv2 _ args content _ _) =>
          forallb (fun a => match a with (_, mkScope2 cs _) => forallb fc2 cs end) args && forallb fc2 content
      end
  end.
Lemma fc2_fits d : forallb fc2 d = true -> fits2 d.
Proof.
  intros H cs Hw. assert (K : forallb fc2 cs = true).
  { induction Hw as [|cs l0 inner v0 Hw IH Hin|cs l0 lab args pre inner v0 Hw IH Hin Ha|cs l0 lab args content pb pe pre inner v0 Hw IH Hin Ha|cs l0 lab args content pb pe Hw IH Hin]; [exact H| | | |];
      rewrite forallb_forall in IH; specialize (IH _ Hin); cbn [fc2] in IH; apply andb_true_iff in IH as [_ IH].
    - exact IH.
    - rewrite forallb_forall in IH. exact (IH _ Ha).
    - apply andb_true_iff in IH as [IH _]. rewrite forallb_forall in IH. exact (IH _ Ha).
    - apply andb_true_iff in IH. apply IH. }
  apply Forall_forall. intros [l v] Hc. rewrite forallb_forall in K. specialize (K _ Hc). cbn [fc2] in K.
  apply andb_true_iff in K as [K _]. now apply N.ltb_lt in K.
Qed.
