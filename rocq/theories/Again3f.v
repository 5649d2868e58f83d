(** * Again3f: the second way down and up *)
From Verif Require Import Base Ast1 Parse1 Ast2 Ast3 SpecDoc1 SpecDoc2 SpecUnnum SpecDoc3 SpecMaths3 SpecPar3 SpecReads SpecClass3 SpecRead3 SpecWrap SpecBack3 SpecAgain3 Ind Lines Eqb Tok Mono Facts2 Valid2 Valid3 Env2 Par3 Maths3 Reads Read3 ReadsW Keep2 Keep3 KeepW Back3 Unnum Unnum3 Again3 Again3b Again3c Again3d Again3e.
From Coq Require Import Lia Permutation.

Lemma un_textless : forall c, textless (unnumbered_chunk3 c) = textless c.
Proof.
  intros c. induction c as [k s|k s|k lab args _|k cs v _|k lab args cs pb pe _ _|k v t cs IH] using chunk3_ind'; try reflexivity. destruct v; [|reflexivity]. cbn [unnumbered_chunk3 unnumbered_variant3 unnumbered_maths3 textless]. now apply un_forallb.
Qed.
Lemma un_without t : forall c, without t (unnumbered_chunk3 c) = without t c.
Proof.
  intros c. induction c as [k s|k s|k lab args _|k cs v _|k lab args cs pb pe _ _|k v t' cs IH] using chunk3_ind'; try reflexivity. destruct v; cbn [unnumbered_chunk3 unnumbered_variant3 unnumbered_maths3 without]; now rewrite (un_forallb (without t) cs IH).
Qed.
Lemma un_no_document : forall c, no_document (unnumbered_chunk3 c) = no_document c.
Proof.
  intros c. induction c as [k s|k s|k lab args _|k cs v _|k lab args cs pb pe _ _|k v t' cs IH] using chunk3_ind'; try reflexivity. cbn [unnumbered_chunk3 unnumbered_variant3 unnumbered_maths3 no_document]. now rewrite (un_forallb no_document cs IH).
Qed.
Lemma un_in (P : chunk3 -> Prop) cs : Forall (fun c => P (unnumbered_chunk3 c) <-> P c) cs -> ((forall c, In c (map unnumbered_chunk3 cs) -> P c) <-> (forall c, In c cs -> P c)).
Proof.
  intros H. rewrite Forall_forall in H. split; intros K c Hc; [apply (H c Hc), K, in_map, Hc|]. apply in_map_iff in Hc as (x & <- & Hx). apply (H x Hx), K, Hx.
Qed.
Lemma un_in_args (P : chunk3 -> Prop) (args : list (str * scope3)) : Forall (fun a : str * scope3 => Forall (fun c => P (unnumbered_chunk3 c) <-> P c) (chunks3 (snd a))) args ->
  ((forall pre cs v c, In (pre, mkScope3 cs v) (unn_args args) -> In c cs -> P c) <-> (forall pre cs v c, In (pre, mkScope3 cs v) args -> In c cs -> P c)).
Proof.
  intros H. rewrite Forall_forall in H. split; intros K pre cs v c Hi Hc.
  - pose proof (H _ Hi) as F. cbn [snd chunks3] in F. apply (proj1 (un_in P cs F)); [|exact Hc]. intros x Hx. eapply (K pre (map unnumbered_chunk3 cs) v); [|exact Hx]. apply in_map_iff. exists (pre, mkScope3 cs v). split; [reflexivity|exact Hi].
  - apply in_map_iff in Hi as ([pre0 [cs0 v0]] & E & Hi). cbn [unnumbered_scope3] in E. injection E as <- <- <-. pose proof (H _ Hi) as F. cbn [snd chunks3] in F. apply (proj2 (un_in P cs0 F)); [|exact Hc]. intros x Hx. eapply K; eassumption.
Qed.
Lemma un_forallb_all (f : chunk3 -> bool) cs : (forall c, f (unnumbered_chunk3 c) = f c) -> forallb f (map unnumbered_chunk3 cs) = forallb f cs.
Proof. intros H. apply un_forallb, Forall_forall. auto. Qed.
Lemma un_shaped : forall c, shaped (unnumbered_chunk3 c) <-> shaped c.
Proof.
  intros c. induction c as [k s|k s|k lab args IH|k cs v IH|k lab args cs pb pe IHa IHc|k v t cs IH] using chunk3_ind'; cbn [unnumbered_chunk3 unnumbered_variant3 unnumbered_command3 unnumbered_scope3 unnumbered_env3 unnumbered_maths3].
  - split; intros Sh; inversion Sh; subst; now constructor.
  - split; intros Sh; inversion Sh; subst; now constructor.
  - split; intros Sh; inversion Sh as [| |? ? ? H1 H2| | | |]; subst; constructor; try exact H1; apply (un_in_args shaped args IH); exact H2.
  - split; intros Sh; inversion Sh as [| | |? ? ? H2| | |]; subst; constructor; apply (un_in shaped cs IH); exact H2.
  - split; intros Sh; inversion Sh as [| | | |? ? ? ? ? ? H1 H2| |]; subst; constructor; try (apply (un_in_args shaped args IHa); exact H1); apply (un_in shaped cs IHc); exact H2.
  - destruct v; split; intros Sh.
    + inversion Sh as [| | | | |? ? ? H1 H2|]; subst. constructor; [now rewrite (un_forallb_all _ _ (un_without t)) in H1|apply (un_in shaped cs IH); exact H2].
    + inversion Sh as [| | | | |? ? ? H1 H2|]; subst. constructor; [now rewrite (un_forallb_all _ _ (un_without t))|apply (un_in shaped cs IH); exact H2].
    + inversion Sh as [| | | | | |? ? X T HX HT Hn Hs]; subst. match goal with K : _ ++ _ = map _ _ |- _ => rename K into E | K : map _ _ = _ ++ _ |- _ => symmetry in K; rename K into E end. symmetry in E. apply map_eq_app in E as (X0 & T0 & -> & <- & <-). rewrite <- map_app in *. constructor; [now rewrite (un_forallb_all _ _ un_textless) in HX|now rewrite (un_forallb_all _ _ un_textual) in HT| |apply (un_in shaped _ IH); exact Hs].
      intros Et K. apply (Hn Et). now rewrite K.
    + inversion Sh as [| | | | | |? ? X T HX HT Hn Hs E]; subst. rewrite map_app. constructor; [now rewrite (un_forallb_all _ _ un_textless)|now rewrite (un_forallb_all _ _ un_textual)| |rewrite <- map_app; apply (un_in shaped _ IH); exact Hs].
      intros Et K. apply (Hn Et). rewrite <- map_app in K. now apply map_eq_nil in K.
Qed.
Lemma un_shapes a b : unnumbered3 a = unnumbered3 b -> (forall c, In c a -> shaped c) -> forall c, In c b -> shaped c.
Proof.
  intros H K. apply (un_in shaped b); [apply Forall_forall; intros; apply un_shaped|]. unfold unnumbered3 in H. rewrite <- H. apply (un_in shaped a); [apply Forall_forall; intros; apply un_shaped|exact K].
Qed.
Lemma un_shaped_document a b : unnumbered_document3 a = unnumbered_document3 b -> shaped_document a -> shaped_document b.
Proof.
  intros H (Sc & Sa & N1 & N2). unfold unnumbered_document3 in H. injection H as _ _ E3 E4 E5 _ _ E6.
  split; [|split; [|split]].
  - apply (un_shapes (d_preamable a ++ d_body a ++ d_trailing a)); [|exact Sc]. unfold unnumbered3 in *. now rewrite !map_app, E3, E4, E6.
  - assert (F : forall args : list (str * scope3), Forall (fun a : str * scope3 => Forall (fun c => shaped (unnumbered_chunk3 c) <-> shaped c) (chunks3 (snd a))) args) by (intros args; apply Forall_forall; intros x _; apply Forall_forall; intros c _; apply un_shaped).
    apply (un_in_args shaped _ (F _)). rewrite <- E5. apply (un_in_args shaped _ (F _)). exact Sa.
  - unfold unnumbered3 in *. now rewrite <- (un_forallb_all _ _ un_no_document), <- E3, (un_forallb_all _ _ un_no_document).
  - unfold unnumbered3 in *. now rewrite <- (un_forallb_all _ _ un_no_document), <- E6, (un_forallb_all _ _ un_no_document).
Qed.
(** ** The round *)
Definition round (p : profile) (d : document3) : outcome error document3 := let* d2 := from3_to2 p d in try_from3 p d2.
Lemma round_ok d cls opts : shaped_document d -> spaced (d_trailing d) = true -> small (full_text d) -> declares (d_preamable d) cls opts ->
  exists d', round Release d = Ok d' /\ unnumbered_document3 d' = unnumbered_document3 (again cls opts d).
Proof. intros A B C D. destruct (down_up d cls opts A B C D) as (d2 & d' & E1 & E2 & E3). exists d'. unfold round. rewrite E1. cbn [bind]. auto. Qed.
Lemma round_debug d : round Debug d = Panic \/ round Debug d = round Release d.
Proof. unfold round. apply (leq_bind true); [apply (from3_to2_leq true _ _ dr)|]. intros a. apply (try_from3_leq true _ _ dr). Qed.
Lemma round_keeps d cls opts d' : shaped_document d -> spaced (d_trailing d) = true -> small (full_text d) -> declares (d_preamable d) cls opts ->
  unnumbered_document3 d' = unnumbered_document3 (again cls opts d) ->
  shaped_document d' /\ spaced (d_trailing d') = true /\ small (full_text d') /\ single_document d' = true /\ exists cls' opts', declares (d_preamable d') cls' opts'.
Proof.
  intros Sh Sp Sm De E. destruct (up_document d cls opts Sh De) as (d0 & E0 & W). assert (U : unnumbered_document3 d0 = unnumbered_document3 d') by congruence.
  split; [apply (un_shaped_document d0 d' U); exact (converted_shaped _ _ W)|]. split; [|split; [|split]].
  - assert (K : unnumbered3 (d_trailing d') = unnumbered3 (moves (d_trailing d))) by (unfold unnumbered_document3, again in E; injection E; auto).
    rewrite (un_spaced _ _ K). apply moves_spaced; [|exact Sp]. intros c Hc. apply (proj1 Sh). apply in_or_app. right. apply in_or_app. now right.
  - rewrite (un_full _ _ E). eapply perm_small; [|exact Sm]. symmetry. apply again_perm.
  - rewrite (un_single_document _ _ E). now apply again_single.
  - destruct (converted_declares _ _ W) as (cls' & opts' & D). exists cls', opts'. eapply un_declares; [|exact D]. unfold unnumbered_document3 in U. injection U; auto.
Qed.
Definition with_class (cls : option str) (opts : list option_entry) (d : document3) : document3 :=
  mkDoc3 cls opts (d_preamable d) (d_body d) (d_body_args d) (d_begin_prec d) (d_end_prec d) (d_trailing d).
Lemma again_class cls opts d : shaped_document d -> single_document d = true -> unnumbered_document3 (again cls opts d) = unnumbered_document3 (with_class cls opts d).
Proof.
  intros Sh Si. assert (Sh' : shaped_document (with_class cls opts d)) by exact Sh. apply (proj2 (again_same cls opts _ Sh')). repeat split. exact Si.
Qed.
Theorem settles d cls opts : shaped_document d -> spaced (d_trailing d) = true -> small (full_text d) -> declares (d_preamable d) cls opts ->
  exists d' d'', round Release d = Ok d' /\ round Release d' = Ok d'' /\ unnumbered_document3 d'' = unnumbered_document3 (with_class (d_class d'') (d_options d'') d') /\
    exists d3, round Release d'' = Ok d3 /\ unnumbered_document3 d3 = unnumbered_document3 d''.
Proof.
  intros Sh Sp Sm De. destruct (round_ok d cls opts Sh Sp Sm De) as (d' & R1 & E1). destruct (round_keeps d cls opts d' Sh Sp Sm De E1) as (Sh1 & Sp1 & Sm1 & Si1 & cls1 & opts1 & De1).
  destruct (round_ok d' cls1 opts1 Sh1 Sp1 Sm1 De1) as (d'' & R2 & E2). destruct (round_keeps d' cls1 opts1 d'' Sh1 Sp1 Sm1 De1 E2) as (Sh2 & Sp2 & Sm2 & Si2 & _).
  rewrite (again_class cls1 opts1 d' Sh1 Si1) in E2.
  assert (C : d_class d'' = cls1 /\ d_options d'' = opts1 /\ unnumbered3 (d_preamable d'') = unnumbered3 (d_preamable d')) by (unfold unnumbered_document3, with_class in E2; injection E2; auto). destruct C as (C1 & C2 & C3).
  pose proof (un_declares _ _ _ _ (eq_sym C3) De1) as De2. destruct (round_ok d'' cls1 opts1 Sh2 Sp2 Sm2 De2) as (d3 & R3 & E3).
  exists d', d''. split; [exact R1|]. split; [exact R2|]. split; [now rewrite C1, C2|]. exists d3. split; [exact R3|]. rewrite E3. apply (proj2 (again_same cls1 opts1 d'' Sh2)). auto.
Qed.

(** ** Sources *)
Lemma texts_shown bl cs out : (forall c, In c cs -> exists k t, c = mkChunk2 k (Text2 t) /\ ~ In c_dollar t) -> wreads bl cs (Good out) -> show_chunks3 out = show2 cs.
Proof.
  revert out. induction cs as [|c cs IH]; intros out H W; [apply wreads_text_none in W as ->; reflexivity|]. destruct (H c (or_introl eq_refl)) as (k & t & -> & D). remember (Good out) as G eqn:E.
  inversion W as [|? ? ? ? pieces r ? Hp Wr|? ? ? ? ? ? Hpl Wv ?| | | |? ? u s| ]; subst.
  - match goal with K : on _ _ = _ |- _ => apply on_good in K as (o & -> & ->) end. rewrite show_chunks3_app, (paragraphs_show _ _ _ Hp), (IH o); [reflexivity|intros; apply H; now right|exact Wr].
  - inversion Wv.
  - elim D. apply in_or_app. right. now left.
  - discriminate.
Qed.
Lemma parsed_reads s d : source_fits s -> count_newlines s < 2147483648 -> from_str3 Release s = Ok d -> exists d2, from_str2 Release s = Ok d2 /\ wreads_document d2 (Good d).
Proof.
  intros B Bn H. apply (proj1 (wsource_iff s (Good d) B Bn)) in H. destruct H as [(e & _ & X)|X]; [discriminate|exact X].
Qed.
Lemma source_declares s d2 d : source_fits s -> count_newlines s < 2147483648 -> from_str2 Release s = Ok d2 -> from_str3 Release s = Ok d ->
  (forall l args, In (l, args) (class_commands d2) -> forall pre cs v c, In (pre, mkScope2 cs v) args -> In c cs -> exists k t, c = mkChunk2 k (Text2 t) /\ ~ In c_dollar t) ->
  declares (d_preamable d) (d_class d) (d_options d).
Proof.
  intros B Bn H2 H3 K. destruct (parsed_reads s d B Bn H3) as (d2' & E & W). rewrite H2 in E. injection E as <-.
  pose proof W as W'. remember (Good d) as G eqn:ER. destruct W' as [pr envs trail e HP Hc|pr envs trail cls pss opts rb rp rt HP]; [discriminate|]. rewrite ER in W.
  apply (converted_declares_same d2 d pr envs trail W HP). intros l args Hi pre cs v Ha out Wo. eapply texts_shown; [|exact Wo]. intros c Hc. eapply K; [|exact Ha|exact Hc].
  destruct HP as (post & -> & _). rewrite class_commands_app. apply in_or_app. left. exact Hi.
Qed.
