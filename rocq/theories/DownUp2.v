(** * DownUp2: documents from sources, down to stage 1 and up again *)
From Verif Require Import Base Ast1 Parse1 Ast2 Ast3 Spec1 SpecDoc1 SpecDoc2 SpecDoc3 SpecCanon1 Spec2 SpecBack2 SpecFlat SpecAgain Tok Pure1 Refine1 Gram1 Ind Lines Facts1
  Valid1 Valid2 Eqb Conv2 Fail2 Facts2 Good2 Env2 Canon1 Back2 Flat SpecMaths3 Keep2 DownUp Mono SpecUnnum SpecWrap ReadsW.
From Coq Require Import Lia Arith.
Open Scope N_scope.

Scheme good_mut := Induction for good Sort Prop with good_args_mut := Induction for good_args Sort Prop.
Combined Scheme good_both_ind from good_mut, good_args_mut.
Definition u32 (c : chunk1) : Prop := line_no1 c < two32.
Lemma good_fits :
  (forall L d, good L d -> L + len1 d < two32 -> everywhere u32 d) /\
  (forall args, good_args args -> 1 + len_args args < two32 -> Forall (fun a => everywhere u32 (chunks1 (snd a))) args).
Proof.
  apply good_both_ind; intros.
  - apply everywhere_nil.
  - rewrite len1_cons in H0. cbn [show_chunk1 show_variant1] in H0. pose proof (count_newlines_le s). apply everywhere_cons.
    split; [unfold u32; cbn; lia|]. split; [exact I|]. apply H. lia.
  - rewrite len1_cons, len_scope in H1. pose proof (nls_len cs). apply everywhere_cons. split; [unfold u32; cbn; lia|]. split; [cbn; apply H; lia|apply H0; lia].
  - rewrite len1_cons in H1. pose proof (len_cmd l lab args) as Lc. pose proof (nlch_len (mkChunk1 l (Command1 (mkCommand1 lab args)))). apply everywhere_cons.
    split; [unfold u32; cbn; lia|]. split; [cbn; apply H; lia|apply H0; lia].
  - constructor.
  - rewrite len_args_cons in H1. constructor; [cbn; apply H; lia|apply H0; lia].
Qed.

Lemma unfolds_restored :
  (forall d d2, converts d d2 -> forall L k, 1 <= L -> good L d -> everywhere args_stable d ->
     L + k + 2 * len1 d < two32 ->
     exists out, unfolds_all k d2 out /\ restored (map (shift1 k) d) out /\ everywhere u32 out) /\
  (forall args args', converts_args args args' -> good_args args ->
     Forall (fun a => everywhere args_stable (chunks1 (snd a))) args ->
     1 + 2 * len_args args < two32 ->
     exists args1, unfolds_args args' args1 /\ restored_args args args1 /\ Forall (fun a => everywhere u32 (chunks1 (snd a))) args1).
Proof.
  apply converts_both_ind.
  - intros L k _ _ _ _. exists []. split; [constructor|]. split; [constructor|apply everywhere_nil].
  - intros l s d d' _ IH L k HL G S B. apply everywhere_cons in S as (_ & _ & S).
    inversion G as [|? ? ? ? G1 G2| |]; subst. rewrite len1_cons in B. cbn [show_chunk1 show_variant1] in B.
    pose proof (count_newlines_le s) as Cs.
    pose proof (fun H => IH _ k H G2 S) as IH'. destruct (IH' ltac:(lia) ltac:(lia)) as (out & Hc & R & F).
    exists ([mkChunk1 (l + k) (Text1 s)] ++ out). split; [constructor; [constructor|exact Hc]|]. cbn [map shift1 app]. split; [now constructor|].
    apply everywhere_cons. split; [unfold u32; cbn; lia|]. split; [exact I|exact F].
  - intros l cs v cs' d d' _ IHc _ IH L k HL G S B. apply everywhere_cons in S as (_ & S1 & S). cbn in S1.
    inversion G as [| |? ? ? ? G1 G2|]; subst. rewrite len1_cons, len_scope in B. pose proof (nls_len cs) as Cs.
    destruct (IHc 1 0 ltac:(lia) G1 S1 ltac:(lia)) as (ics & Hi & Ri & Fi). rewrite shift_0 in Ri.
    pose proof (fun H => IH _ k H G2 S) as IH'. destruct (IH' ltac:(lia) ltac:(lia)) as (out & Hc & R & F).
    exists ([mkChunk1 (l + k) (Scope1 (mkScope1 ics v))] ++ out). split; [constructor; [constructor; [now destruct v|exact Hi]|exact Hc]|].
    cbn [map shift1 app]. split; [now constructor|]. apply everywhere_cons. split; [unfold u32; cbn; lia|]. split; [exact Fi|exact F].
  - intros l lab args args' d d' H1 H2 _ IHa _ IH L k HL G S B. apply everywhere_cons in S as (_ & S1 & S). cbn in S1.
    inversion G as [| | |? ? ? ? ? G1 G2 G3 G4]; subst. pose proof (nlch_len (mkChunk1 l (Command1 (mkCommand1 lab args)))) as Cs.
    rewrite len1_cons in B. pose proof (len_cmd l lab args) as Lc.
    destruct (IHa G3 S1 ltac:(lia)) as (args1 & Hi & Ri & Fi).
    pose proof (fun H => IH _ k H G4 S) as IH'. destruct (IH' ltac:(lia) ltac:(lia)) as (out & Hc & R & F).
    exists ([mkChunk1 (l + k) (Command1 (mkCommand1 lab args1))] ++ out). split; [constructor; [constructor; exact Hi|exact Hc]|].
    cbn [map shift1 app]. split; [now constructor|]. apply everywhere_cons. split; [unfold u32; cbn; lia|]. split; [exact Fi|exact F].
  - intros l pb lab args args' body content l' pe d d' start -> Hargs IHa Hb IHb _ IH L k HL G S B.
    fold (begin_end_line l pb lab args) in *.
    apply everywhere_cons in S as (S0 & S1 & S). cbn in S0, S1. apply everywhere_app in S as [Sb S].
    apply everywhere_cons in S as (_ & _ & S).
    inversion S0 as [|? ? S0' _]; subst. specialize (S0' eq_refl). cbn [snd chunks1] in S0'.
    inversion S1 as [|? ? _ S1']; subst.
    pose proof (good_env L [] l pb lab args body _ G) as (El & _ & Ga & Gb & Gr & Eb).
    change (nls []) with 0 in El, Eb. rewrite N.add_0_r in El, Eb.
    set (start := begin_end_line l pb lab args) in *.
    assert (El' : l' = start + nls body).
    { pose proof Gr as Gr'. inversion Gr' as [| | |? ? ? ? ? G1 G2 G3 G4]; subst. apply G2. now right. }
    assert (Gl : good 1 lab).
    { pose proof Gr as Gr'. inversion Gr' as [| | |? ? ? ? ? G1 G2 G3 G4]; subst. inversion G3; subst. assumption. }
    apply (good_mid _ []) in Gr as (_ & _ & _ & Gr). change (nls []) with 0 in Gr. rewrite N.add_0_r in Gr.
    pose proof (nlch_len (begin_cmd l pb lab args)) as C1. pose proof (nlch_len (end_cmd l' pe lab)) as C2.
    pose proof (nls_len body) as C3. pose proof (len_begin_args l pb lab args) as C4.
    rewrite len1_cons, len1_app, len1_cons in B.
    assert (BL : 1 + len1 lab < two32).
    { pose proof (show_begin l pb lab args) as SB. rewrite SB, !app_length in B. cbn [length] in B. unfold len1. lia. }
    destruct (IHa Ga S1' ltac:(lia)) as (args1 & Hi & Ri & Fi).
    destruct (IHb 1 (start + k - 1)) as (bout & Hbc & Rb & Fb).
    { lia. } { now apply rebase_good0. } { now apply args_stable_rebase. } { rewrite len_rebase. lia. }
    rewrite shift_rebase in Rb by (assumption || lia).
    pose proof (fun H => IH _ k H Gr S) as IH'. destruct (IH' ltac:(lia) ltac:(lia)) as (out & Hc & R & F).
    pose proof (nl_begin l pb lab args) as NB.
    assert (NE : count_newlines (pb ++ show1 lab ++ show_args2 args' ++ show2 content) = nlch (begin_cmd l pb lab args) + nls body).
    { rewrite NB, (proj2 converts_show _ _ Hargs), (proj1 converts_show _ _ Hb), show_rebase.
      rewrite !count_newlines_app. unfold nls. lia. }
    pose proof (proj1 good_fits _ _ Gl BL) as Fl.
    eexists. split; [constructor; [apply uf_env|exact Hc]|].
    + lia.
    + unfold source_fits. unfold len1 in BL. lia.
    + destruct (proj1 canonical_toks _ _ S0') as [W E]. rewrite <- E, (tokens_untoks _ W). now apply canonical_parses.
    + exact Hi.
    + exact Hbc.
    + rewrite NE. cbn [map shift1 begin_cmd app]. rewrite map_app, <- app_assoc. cbn [map shift1 end_cmd app].
      replace (start + k + (nlch (begin_cmd l pb lab args) + nls body)) with (l' + k + nlch (begin_cmd l pb lab args)) by lia.
      replace (start + k) with (l + k + nlch (begin_cmd l pb lab args)) by lia. split; [apply rs_env; auto|].
      apply everywhere_cons. split; [change (l + k + nlch (begin_cmd l pb lab args) < two32); lia|]. split; [constructor; [exact Fl|exact Fi]|].
      apply everywhere_app. split; [exact Fb|]. apply everywhere_cons. split; [change (l' + k + nlch (begin_cmd l pb lab args) < two32); lia|]. split; [constructor; [exact Fl|constructor]|exact F].
  - intros _ _ _. exists []. split; [constructor|]. split; constructor.
  - intros pre cs v cs' args args' _ IHc _ IHa G S B. rewrite len_args_cons in B.
    inversion G; subst. inversion S as [|? ? S1 S2]; subst. cbn [snd chunks1] in S1.
    destruct (IHc 1 0 ltac:(lia) ltac:(assumption) S1 ltac:(lia)) as (ics & Hi & Ri & Fi). rewrite shift_0 in Ri.
    destruct (IHa ltac:(assumption) S2 ltac:(lia)) as (args1 & Ha & Ra & Fa).
    exists ((pre, mkScope1 ics v) :: args1). split; [constructor; [now destruct v|exact Hi|exact Ha]|]. split; constructor; auto.
Qed.

(** ** any document *)
Lemma debug_or_panic d r : try_from2 Release d = Ok r -> try_from2 Debug d = Ok r \/ try_from2 Debug d = Panic.
Proof. intros H. destruct (try_from2_leq true Debug Release dr d) as [K|K]; [right; exact K|left; congruence]. Qed.
Theorem down_up_out d out :
  (forall cs c, within2 d cs -> In c cs -> 1 <= line_no2 c) ->
  (forall cs l lab args, within2 d cs -> In (mkChunk2 l (Command2 (mkCommand2 lab args))) cs -> lab <> S! "begin" /\ lab <> S! "end") ->
  every_label (fun lab => forall x, parses 1 (tokens lab) x -> show1 x = lab) d ->
  unfolds_all 0 d out -> fits1 out ->
  try_from2 Release out = Ok (again2 d) /\ (roomy d -> try_from2 Debug out = Ok (again2 d)) /\ (~ roomy d -> try_from2 Debug out = Panic).
Proof.
  intros HL HB HE U F.
  assert (A1 : forall c, inD d c -> 1 <= line_no2 c) by (intros c (cs & W & I); eauto).
  assert (A2 : forall c, inD d c -> no_be2 c) by (intros [l [s|[lab args]|sc|e]] (cs & W & I); try exact Logic.I; cbn; eauto).
  assert (A3 : forall l lab args content pb pe x, inD d (mkChunk2 l (Environment2 (mkEnv2 lab args content pb pe))) -> parses 1 (tokens lab) x -> show1 x = lab).
  { intros l lab args content pb pe x (cs & W & I). exact (HE cs l lab args content pb pe W I x). }
  assert (AD : allD d d) by (intros c Hc; exists d; split; [apply w2_self|exact Hc]).
  assert (K : forall p, p = Release \/ roomy d -> try_from2 p out = Ok (again2 d)).
  { intros p R. apply try_from2_iff. rewrite <- (lowc_0 out) by exact F.
    apply (proj1 (proj2 (up_again d A1 A2 A3 p R)) 0 d out U AD F 0); [reflexivity|]. right. eapply pos_all; eauto. }
  split; [apply K; now left|]. split; [intros R; apply K; now right|].
  intros NR. destruct (debug_or_panic out (again2 d) (K Release (or_introl eq_refl))) as [E|E]; [|exact E]. exfalso. apply NR.
  apply try_from2_iff in E. rewrite <- (lowc_0 out), <- (app_nil_r (map _ out)) in E by exact F.
  eapply (proj1 (proj2 (only_roomy d A1 A2 A3)) 0 d out U AD F 0 []); [eapply pos_all; eauto|exact E].
Qed.

(** ** labels *)
Definition prints_back (lab : str) : Prop := exists x, canonical 1 x /\ lab = show1 x.
Lemma every_label_cases P d : every_label P d <-> (forall l lab args content pb pe, In (mkChunk2 l (Environment2 (mkEnv2 lab args content pb pe))) d -> P lab) /\
  forall l v inner, In (mkChunk2 l v) d -> inside v inner -> every_label P inner.
Proof.
  split.
  - intros R. split; [intros; eapply R; [apply w2_self|eassumption]|]. intros l v inner I J cs l0 lab args content pb pe W. eapply R. eapply within2_inside; eauto.
  - intros [A B] cs l lab args content pb pe W I. apply within2_cases in W as [->|(l0 & v & inner & I1 & I2 & W)]; [eapply A; eauto|]. eapply (B l0 v inner I1 I2); eauto.
Qed.
Lemma every_label_cons P c cs : every_label P [c] -> every_label P cs -> every_label P (c :: cs).
Proof.
  rewrite !every_label_cases. intros [A B] [A' B']. split.
  - intros l lab args content pb pe [->|I]; [eapply A; now left|eapply A'; eauto].
  - intros l v inner [->|I] J; [eapply B; [now left|exact J]|eapply B'; eauto].
Qed.
Lemma converts_labels :
  (forall d d2, converts d d2 -> everywhere args_stable d -> every_label prints_back d2) /\
  (forall args args', converts_args args args' -> Forall (fun a => everywhere args_stable (chunks1 (snd a))) args ->
     forall pre cs v, In (pre, mkScope2 cs v) args' -> every_label prints_back cs).
Proof.
  apply converts_both_ind; intros.
  - apply every_label_cases. split; intros; contradiction.
  - apply everywhere_cons in H0 as (_ & _ & S). apply every_label_cons; [|auto]. apply every_label_cases. split; [intros ? ? ? ? ? ? [E|[]]; discriminate E|].
    intros ? ? ? [E|[]] J. injection E as <- <-. inversion J.
  - apply everywhere_cons in H1 as (_ & S1 & S). cbn in S1. apply every_label_cons; [|auto]. apply every_label_cases. split; [intros ? ? ? ? ? ? [E|[]]; discriminate E|].
    intros ? ? ? [E|[]] J. injection E as <- <-. inversion J; subst. auto.
  - apply everywhere_cons in H1 as (_ & S1 & S). cbn in S1. apply every_label_cons; [|auto]. apply every_label_cases. split; [intros ? ? ? ? ? ? [E|[]]; discriminate E|].
    intros ? ? ? [E|[]] J. injection E as <- <-. inversion J; subst. eapply H; eauto.
  - apply everywhere_cons in H2 as (S0 & S1 & S). cbn in S0, S1. apply everywhere_app in S as [Sb S]. apply everywhere_cons in S as (_ & _ & S).
    inversion S0 as [|? ? S0' _]; subst. specialize (S0' eq_refl). cbn [snd chunks1] in S0'. inversion S1 as [|? ? _ S1']; subst.
    apply every_label_cons; [|auto]. apply every_label_cases. split.
    + intros ? ? ? ? ? ? [E|[]]. injection E as <- <- <- <- <- <-. exists lab. auto.
    + intros ? ? ? [E|[]] J. injection E as <- <-. inversion J; subst; [eapply H; eauto|]. apply H0. now apply args_stable_rebase.
  - contradiction.
  - inversion H1 as [|? ? S1 S2]; subst. cbn [snd chunks1] in S1. destruct H2 as [E|Hi]; [injection E as <- <- <-; auto|eapply H0; eauto].
Qed.

(** ** documents from sources *)
Theorem down_up_parsed {E} q p s d1 d2 : 2 * (N.of_nat (length s) + 1) < two32 -> from_str1 p s = Ok d1 -> try_from2 p d1 = Ok d2 ->
  exists d', @from2_to1 E q d2 = Ok d' /\
  try_from2 Release d' = Ok (again2 d2) /\ (roomy d2 -> try_from2 Debug d' = Ok (again2 d2)) /\ (~ roomy d2 -> try_from2 Debug d' = Panic).
Proof.
  intros B H1 H2. assert (F : source_fits s) by (unfold source_fits; lia).
  assert (P : parsed d1) by (exists p, s; auto).
  pose proof (parsed_good d1 P) as [G _]. pose proof (parsed_args_stable d1 P) as S.
  pose proof H2 as H0. apply (try_from2_converts p d1 d2 P) in H2.
  pose proof (Facts1.degrades_length _ _ (from_str1_degrades p s d1 F H1)) as Dl.
  destruct (proj1 unfolds_restored _ _ H2 1 0 ltac:(lia) G S) as (out & U & R & FO).
  { unfold len1. lia. }
  rewrite shift_0 in R.
  assert (J : joins1 [] out out).
  { rewrite <- (fold_push_nil out) at 2; [apply joins1_fold|]. rewrite <- (no_adj_kinds d1 out (restored_kinds _ _ R)). now apply parsed_no_adj. }
  exists out. split; [exact (unfolds_doc q d2 out out U FO J)|].
  assert (HS : from_str2 p s = Ok d2) by (unfold from_str2; rewrite H1; exact H0).
  apply down_up_out; [| | |exact U|exact FO].
  - intros cs c W I. apply in_split in I as (pre & post & Ei). pose proof (from_str2_placed p s d2 F HS cs W pre c post Ei) as PL.
    destruct c as [l [t|c|sc|[lab args content pb pe]]]; cbn [placed2 line_no2] in *; lia.
  - intros. eapply try_from2_no_be; eauto.
  - intros cs l lab args content pb pe W I x Px.
    destruct (proj1 converts_labels _ _ H2 S cs l lab args content pb pe W I) as (y & Cy & ->).
    destruct (proj1 canonical_toks _ _ Cy) as [Wy Ey]. rewrite <- Ey, (tokens_untoks _ Wy) in Px. apply parse_toks_iff in Px.
    pose proof (proj1 canonical_parses _ _ Cy) as Py. apply parse_toks_iff in Py. congruence.
Qed.

(** ** what changes *)
Lemma again_unnumbered c : forall up, unnumbered_chunk2 (again_chunk up c) = unnumbered_chunk2 c.
Proof.
  induction c as [l s|l lab args IH|l cs v IH|l lab args cs pb pe IHa IH] using chunk2_ind'; intros up.
  - reflexivity.
  - cbn [again_chunk again_command unnumbered_chunk2 unnumbered_variant2 unnumbered_command2]. do 3 f_equal. rewrite map_map. apply map_ext_in.
    intros [pre [cs v]] Hi. rewrite Forall_forall in IH. specialize (IH _ Hi). cbn [snd chunks2] in IH. cbn [again_scope unnumbered_scope2]. do 2 f_equal. rewrite map_map.
    apply map_ext_in. intros c Hc. rewrite Forall_forall in IH. now apply IH.
  - cbn [again_chunk again_scope unnumbered_chunk2 unnumbered_variant2 unnumbered_scope2]. do 3 f_equal. rewrite map_map. apply map_ext_in. intros c Hc. rewrite Forall_forall in IH. now apply IH.
  - cbn [again_chunk unnumbered_chunk2 unnumbered_variant2 unnumbered_env2]. do 2 f_equal. f_equal.
    + rewrite map_map. apply map_ext_in.
      intros [pre [cs0 v]] Hi. rewrite Forall_forall in IHa. specialize (IHa _ Hi). cbn [snd chunks2] in IHa. cbn [again_scope unnumbered_scope2]. do 2 f_equal. rewrite map_map.
      apply map_ext_in. intros c Hc. rewrite Forall_forall in IHa. now apply IHa.
    + rewrite map_map. apply map_ext_in. intros c Hc. rewrite Forall_forall in IH. now apply IH.
Qed.
Theorem again2_unnumbered d : unnumbered2 (again2 d) = unnumbered2 d.
Proof. unfold unnumbered2, again2. rewrite map_map. apply map_ext. intros c. apply again_unnumbered. Qed.

Section Same.
  Variable D : list chunk2.
  Hypothesis lines_u32 : forall c, inD D c -> line_no2 c < two32.
  Hypothesis begins_u32 : forall l lab args content pb pe, inD D (mkChunk2 l (Environment2 (mkEnv2 lab args content pb pe))) -> begin_newlines lab args pb < two32.
  Lemma minus32_0 l : l < two32 -> minus32 l 0 = l.
  Proof. intros H. rewrite minus32_le; lia. Qed.
  Lemma map_same {A} (f : A -> A) l : map f l = l <-> forall x, In x l -> f x = x.
  Proof.
    induction l as [|x l IH]; [split; [intros _ ? []|reflexivity]|]. cbn [map]. split.
    - intros E. injection E as E1 E2. intros y [<-|Hy]; [exact E1|]. now apply IH.
    - intros H. f_equal; [apply H; now left|]. apply IH. intros y Hy. apply H. now right.
  Qed.
  Lemma again_same : forall c, inD D c -> (again_chunk 0 c = c <-> one_line_environments [c]).
  Proof.
    assert (OL : forall d, one_line_environments d <-> (forall l lab args content pb pe, In (mkChunk2 l (Environment2 (mkEnv2 lab args content pb pe))) d -> begin_newlines lab args pb = 0) /\
      forall l v inner, In (mkChunk2 l v) d -> inside v inner -> one_line_environments inner).
    { intros d. split.
      - intros R. split; [intros; eapply R; [apply w2_self|eassumption]|]. intros l v inner I J cs l0 lab args content pb pe W. eapply R. eapply within2_inside; eauto.
      - intros [A B] cs l lab args content pb pe W I. apply within2_cases in W as [->|(l0 & v & inner & I1 & I2 & W)]; [eapply A; eauto|]. eapply (B l0 v inner I1 I2); eauto. }
    assert (OC : forall d, one_line_environments d <-> forall c, In c d -> one_line_environments [c]).
    { intros d. rewrite OL. split.
      - intros [A B] c Hc. apply OL. split; [intros ? ? ? ? ? ? [->|[]]; eapply A; eauto|]. intros ? ? ? [->|[]] J. eapply B; eauto.
      - intros H. split; [intros l lab args content pb pe I; apply (proj1 (OL _)) with (1 := H _ I) (2 := or_introl eq_refl)|]. intros l v inner I J. exact (proj2 (proj1 (OL _) (H _ I)) l v inner (or_introl eq_refl) J). }
    assert (OS : forall cs, (forall c, In c cs -> (again_chunk 0 c = c <-> one_line_environments [c])) -> (map (again_chunk 0) cs = cs <-> one_line_environments cs)).
    { intros cs H. rewrite map_same, OC. split; intros K c Hc; apply H; auto. }
    assert (OA : forall args : list (str * scope2), (forall pre cs v, In (pre, mkScope2 cs v) args -> forall c, In c cs -> (again_chunk 0 c = c <-> one_line_environments [c])) ->
      (map (fun a => match a with (pre, sc) => (pre, again_scope sc) end) args = args <-> forall pre cs v, In (pre, mkScope2 cs v) args -> one_line_environments cs)).
    { intros args H. rewrite map_same. split.
      - intros K pre cs v Hi. specialize (K _ Hi). cbn in K. injection K as K. apply (OS cs); eauto.
      - intros K [pre [cs v]] Hi. cbn. do 2 f_equal. apply (OS cs); eauto. }
    intros c. induction c as [l s|l lab args IH|l cs v IH|l lab args cs pb pe IHa IH] using chunk2_ind'; intros I.
    - pose proof (lines_u32 _ I) as B. cbn [line_no2] in B. cbn [again_chunk]. rewrite minus32_0 by exact B. split; [intros _|reflexivity]. apply OL.
      split; [intros ? ? ? ? ? ? [E|[]]; discriminate E|]. intros ? ? ? [E|[]] J. injection E as <- <-. inversion J.
    - pose proof (lines_u32 _ I) as B. cbn [line_no2] in B. cbn [again_chunk again_command]. rewrite minus32_0 by exact B.
      assert (K := OA args). rewrite Forall_forall in IH. specialize (K ltac:(intros pre cs v Hi c Hc; specialize (IH _ Hi); cbn [snd chunks2] in IH; rewrite Forall_forall in IH; apply IH; [exact Hc|eapply inD_args; eauto])).
      split.
      + intros E. injection E as E. pose proof (proj1 K E) as K2. apply OL. split; [intros ? ? ? ? ? ? [E1|[]]; discriminate E1|]. intros ? ? ? [E1|[]] J. injection E1 as <- <-. inversion J; subst. eauto.
      + intros H. do 3 f_equal. apply K. intros pre cs v Hi. apply OL in H as [_ H]. eapply H; [now left|econstructor; exact Hi].
    - pose proof (lines_u32 _ I) as B. cbn [line_no2] in B. cbn [again_chunk again_scope]. rewrite minus32_0 by exact B.
      assert (K := OS cs). rewrite Forall_forall in IH. specialize (K ltac:(intros c Hc; apply IH; [exact Hc|eapply inD_scope; eauto])). split.
      + intros E. injection E as E. pose proof (proj1 K E) as K2. apply OL. split; [intros ? ? ? ? ? ? [E1|[]]; discriminate E1|]. intros ? ? ? [E1|[]] J. injection E1 as <- <-. inversion J; subst. eauto.
      + intros H. do 3 f_equal. apply K. apply OL in H as [_ H]. eapply H; [now left|constructor].
    - pose proof (lines_u32 _ I) as B. cbn [line_no2] in B. cbn [again_chunk]. rewrite minus32_0 by exact B.
      pose proof (begins_u32 _ _ _ _ _ _ I) as BK.
      assert (K := OS cs). rewrite Forall_forall in IH. specialize (K ltac:(intros c Hc; apply IH; [exact Hc|eapply inD_env; eauto])).
      assert (K' := OA args). rewrite Forall_forall in IHa. specialize (K' ltac:(intros pre cs' v Hi c Hc; specialize (IHa _ Hi); cbn [snd chunks2] in IHa; rewrite Forall_forall in IHa; apply IHa; [exact Hc|eapply inD_env_args; eauto])).
      split.
      + intros E. injection E as E0 E1 E2. assert (Z : begin_newlines lab args pb = 0).
        { rewrite mod_add_cases in E0 by lia. destruct (N.ltb_spec (l + begin_newlines lab args pb) two32); lia. }
        rewrite Z in E2. pose proof (proj1 K E2) as E5. pose proof (proj1 K' E1) as E3. apply OL. split.
        * intros ? ? ? ? ? ? [E4|[]]. injection E4 as <- <- <- <- <- <-. exact Z.
        * intros ? ? ? [E4|[]] J. injection E4 as <- <-. inversion J; subst; eauto.
      + intros H. apply OL in H as [H1 H2]. assert (Z : begin_newlines lab args pb = 0) by (eapply H1; now left). rewrite Z, N.add_0_r, N.mod_small by exact B.
        do 2 f_equal. f_equal; [apply K'; intros; eapply H2; [now left|econstructor; eassumption]|apply K; eapply H2; [now left|constructor]].
  Qed.
End Same.

Lemma u32_lines_in d : u32_lines d -> forall c, inD d c -> line_no2 c < two32.
Proof.
  intros H c (cs & W & I). assert (K : u32_lines cs).
  { clear I. induction W; [exact H|..].
    - inversion IHW as [? A B]; subst. eapply B; [eassumption|constructor].
    - inversion IHW as [? A B]; subst. eapply B; [eassumption|econstructor; eassumption].
    - inversion IHW as [? A B]; subst. eapply B; [eassumption|econstructor; eassumption].
    - inversion IHW as [? A B]; subst. eapply B; [eassumption|constructor]. }
  inversion K as [? A B]; subst. destruct c as [l v]. exact (A _ _ I).
Qed.
Theorem again_identity p s d2 : source_fits s -> count_newlines s < 2147483648 -> from_str2 p s = Ok d2 -> again2 d2 = d2 <-> one_line_environments d2.
Proof.
  intros F Bn H. pose proof (u32_lines_in _ (parsed_u32 p s d2 F Bn H)) as U.
  assert (K : forall c, inD d2 c -> again_chunk 0 c = c <-> one_line_environments [c]).
  { apply again_same; [exact U|]. intros l lab args content pb pe (cs & W & I). pose proof (U _ (ex_intro _ cs (conj W I))) as B.
    apply in_split in I as (pre & post & Ei). pose proof (from_str2_placed p s d2 F H cs W pre _ post Ei) as PL. cbn [placed2 line_no2] in *. unfold begin_newlines. lia. }
  unfold again2. rewrite map_same. split.
  - intros A cs l lab args content pb pe W I. apply within2_cases in W as [->|(l0 & v & inner & I1 & I2 & W)].
    + assert (Hd : inD d2 (mkChunk2 l (Environment2 (mkEnv2 lab args content pb pe)))) by (exists d2; split; [apply w2_self|exact I]).
      eapply (proj1 (K _ Hd) (A _ I)); [apply w2_self|now left].
    + assert (Hd : inD d2 (mkChunk2 l0 v)) by (exists d2; split; [apply w2_self|exact I1]).
      eapply (proj1 (K _ Hd) (A _ I1)); [eapply within2_inside; [now left|exact I2|exact W]|exact I].
  - intros A c Hc. apply K; [exists d2; split; [apply w2_self|exact Hc]|]. intros cs l lab args content pb pe W I.
    apply within2_cases in W as [->|(l0 & v & inner & [->|[]] & I2 & W)].
    + destruct I as [->|[]]. eapply A; [apply w2_self|exact Hc].
    + eapply A; [eapply within2_inside; [exact Hc|exact I2|exact W]|exact I].
Qed.

(** ** there is room or not *)
Fixpoint roomyb_chunk (c : chunk2) : bool :=
  match c with
  | mkChunk2 _ (Text2 _) => true
  | mkChunk2 _ (Command2 (mkCommand2 _ args)) => forallb (fun a => match a with (_, sc) => roomyb_scope sc end) args
  | mkChunk2 _ (Scope2 sc) => roomyb_scope sc
  | mkChunk2 _ (Environment2 (mkEnv2 lab args content pb _)) =>
      forallb (fun c => begin_newlines lab args pb <? line_no2 c) content &&
      forallb (fun a => match a with (_, sc) => roomyb_scope sc end) args && forallb roomyb_chunk content
  end
with roomyb_scope (sc : scope2) : bool := match sc with mkScope2 cs _ => forallb roomyb_chunk cs end.
Definition roomyb (d : list chunk2) : bool := forallb roomyb_chunk d.
Lemma roomyb_in d : roomyb d = true <-> forall c, In c d -> roomyb_chunk c = true.
Proof. apply forallb_forall. Qed.
Lemma roomyb_inside v inner l : inside v inner -> roomyb_chunk (mkChunk2 l v) = true -> roomyb inner = true.
Proof.
  destruct 1 as [cs v|lab args pre cs v J|lab args content pb pe pre cs v J|lab args content pb pe]; cbn [roomyb_chunk]; intros H.
  - exact H.
  - rewrite forallb_forall in H. exact (H _ J).
  - apply andb_true_iff in H as [H _]. apply andb_true_iff in H as [_ H]. rewrite forallb_forall in H. exact (H _ J).
  - apply andb_true_iff in H as [_ H]. exact H.
Qed.
Lemma roomyb_sound d : roomyb d = true -> roomy d.
Proof.
  intros H cs l lab args content pb pe W I. assert (K : roomyb cs = true).
  { clear I. induction W; [exact H|..]; (eapply roomyb_inside; [|eapply roomyb_in; [exact IHW|eassumption]]); econstructor; eassumption. }
  rewrite roomyb_in in K. specialize (K _ I). cbn [roomyb_chunk] in K. apply andb_true_iff in K as [K _]. apply andb_true_iff in K as [K _].
  rewrite forallb_forall in K. apply Forall_forall. intros c Hc. apply N.ltb_lt. exact (K c Hc).
Qed.
Lemma roomyb_complete_chunk : forall c, roomy [c] -> roomyb_chunk c = true.
Proof.
  assert (S : forall l v inner, inside v inner -> roomy [mkChunk2 l v] -> roomy inner).
  { intros l v inner J R. apply roomy_cases in R as [_ R]. eapply R; [now left|exact J]. }
  assert (T : forall cs, roomy cs -> forall c, In c cs -> roomy [c]).
  { intros cs R c Hc. apply roomy_cases in R as [A B]. apply roomy_cases. split; [intros ? ? ? ? ? ? [->|[]]; eapply A; eauto|]. intros ? ? ? [->|[]] J. eapply B; eauto. }
  intros c. induction c as [l s|l lab args IH|l cs v IH|l lab args cs pb pe IHa IH] using chunk2_ind'; intros R; cbn [roomyb_chunk roomyb_scope].
  - reflexivity.
  - apply forallb_forall. intros [pre [cs v]] Hi. cbn [roomyb_scope]. apply forallb_forall. intros c Hc. rewrite Forall_forall in IH. specialize (IH _ Hi). cbn [snd chunks2] in IH.
    rewrite Forall_forall in IH. apply IH; [exact Hc|]. eapply T; [|exact Hc]. eapply S; [|exact R]. econstructor; exact Hi.
  - apply forallb_forall. intros c Hc. rewrite Forall_forall in IH. apply IH; [exact Hc|]. eapply T; [|exact Hc]. eapply S; [|exact R]. constructor.
  - apply andb_true_iff. split; [apply andb_true_iff; split|].
    + apply roomy_cases in R as [A _]. specialize (A _ _ _ _ _ _ (or_introl eq_refl)). apply forallb_forall. intros c Hc. rewrite Forall_forall in A. apply N.ltb_lt. exact (A c Hc).
    + apply forallb_forall. intros [pre [ics v]] Hi. cbn [roomyb_scope]. apply forallb_forall. intros c Hc. rewrite Forall_forall in IHa. specialize (IHa _ Hi). cbn [snd chunks2] in IHa.
      rewrite Forall_forall in IHa. apply IHa; [exact Hc|]. eapply T; [|exact Hc]. eapply S; [|exact R]. econstructor; exact Hi.
    + apply forallb_forall. intros c Hc. rewrite Forall_forall in IH. apply IH; [exact Hc|]. eapply T; [|exact Hc]. eapply S; [|exact R]. constructor.
Qed.
Lemma classic_roomy d : roomy d \/ ~ roomy d.
Proof.
  destruct (roomyb d) eqn:E; [left; now apply roomyb_sound|right]. intros R. assert (K : roomyb d = true); [|congruence].
  apply roomyb_in. intros c Hc. apply roomyb_complete_chunk. apply roomy_cases in R as [A B]. apply roomy_cases.
  split; [intros ? ? ? ? ? ? [->|[]]; eapply A; eauto|]. intros ? ? ? [->|[]] J. eapply B; eauto.
Qed.
