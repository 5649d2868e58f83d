(** * Again3d: converted documents survive the way down and up; what stays the same *)
From Verif Require Import Base Ast1 Parse1 Ast2 Ast3 SpecDoc1 SpecDoc2 SpecUnnum SpecDoc3 SpecMaths3 SpecPar3 SpecReads SpecClass3 SpecRead3 SpecWrap SpecBack3 SpecAgain3 Ind Lines Eqb Tok Facts2 Valid2 Valid3 Env2 Par3 Maths3 MathsBwd Reads Read3 ReadsW Keep2 Keep3 KeepW Unnum Unnum3 Again3 Again3b Again3c.
From Coq Require Import Lia.

(** ** Converted documents *)
Lemma divided_none cs envs rest : divided cs envs rest -> forall c, In c rest -> ~ is_document c.
Proof. induction 1; intros x Hx; [destruct Hx|auto|]. destruct Hx as [<-|Hx]; auto. Qed.
Lemma wread_env e b : wreads_variant (Environment2 e) (Good b) -> exists lab args content pb pe args3 out,
  e = mkEnv2 lab args content pb pe /\ wreads_args args (Good args3) /\ wreads 0 content (Good out) /\ b = Environment3 (mkEnv3 lab args3 out pb pe).
Proof.
  intros H. remember (Good b) as G eqn:E. inversion H as [|?|lab args content pb pe ra rc Ha Hc Eq]; subst e.
  match goal with K : andthen _ _ _ = Good b |- _ => apply andthen_good in K as (a & o & -> & -> & ->) | K : andthen _ _ _ = G |- _ => rewrite E in K; apply andthen_good in K as (a & o & -> & -> & ->) end. do 7 eexists. repeat split; eassumption.
Qed.
Theorem converted_shaped d d3 : wreads_document d (Good d3) -> shaped_document d3.
Proof.
  intros H. remember (Good d3) as G eqn:ER. destruct H as [pr envs trail e HP Hc|pr envs trail cls pss opts rb rp rt HP Hc Ho1 Ho2 HB Hp Ht]; [discriminate|].
  apply andthen_good in ER as (body & f & -> & E1 & ->). apply andthen_good in E1 as (pre & tr & -> & -> & ->).
  destruct HP as (post & -> & HF & _ & HD). rewrite Forall_forall in HF.
  destruct (proj1 wreads_shaped _ _ _ Hp pre eq_refl) as (P1 & _ & _ & _ & _ & P6 & _). specialize (P6 HF).
  destruct (proj1 wreads_shaped _ _ _ Ht tr eq_refl) as (T1 & _ & _ & _ & _ & T6 & _). specialize (T6 (divided_none _ _ _ HD)).
  rewrite Forall_forall in P1, T1.
  destruct body as [b|].
  - destruct (wbodies_from _ _ HB b eq_refl) as (e & _ & Hr). apply wread_env in Hr as (lab & args & content & pb & pe & args3 & out & -> & Ha & Hcn & ->).
    destruct (proj1 wreads_shaped _ _ _ Hcn out eq_refl) as (C1 & _). rewrite Forall_forall in C1. pose proof (proj2 (proj2 wreads_shaped) _ _ Ha args3 eq_refl) as A1.
    split; [|split; [exact A1|split; [exact P6|exact T6]]]. cbn [document_of d_preamable d_body d_trailing]. intros c Hi. apply in_app_or in Hi as [Hi|Hi]; [auto|]. apply in_app_or in Hi as [Hi|Hi]; auto.
  - split; [|split; [intros ? ? ? ? []|split; [exact P6|exact T6]]]. cbn [document_of d_preamable d_body d_trailing app]. intros c Hi. apply in_app_or in Hi as [Hi|Hi]; auto.
Qed.
(** ** The class and its options *)
Lemma conv_cases a2 a3 : conv a2 a3 -> Forall2 (fun x y => match x, y with (p2, mkScope2 cs v), (p3, mkScope3 out w) => p3 = p2 /\ w = variant3_of v /\ wreads 0 cs (Good out) end) a2 a3.
Proof.
  unfold conv. revert a3. induction a2 as [|[p2 [cs v]] a2 IH]; intros a3 H; remember (Good a3) as G eqn:E; inversion H as [|? ? ? ? r ra Hr Ha E1 E2]; subst.
  - match goal with K : Good _ = Good _ |- _ => injection K as <- end. constructor.
  - match goal with K : andthen _ _ _ = _ |- _ => apply andthen_good in K as (o & a & -> & -> & ->) end. constructor; [auto|]. apply IH. assumption.
Qed.
Lemma conv_curly a2 a3 : conv a2 a3 -> length (curly_texts3 a3) = length (curly_texts a2).
Proof.
  intros H. apply conv_cases in H. induction H as [|[p2 [cs v]] [p3 [out w]] a2 a3 (-> & -> & _) _ IH]; [reflexivity|]. destruct v; cbn [curly_texts3 curly_texts variant3_of length]; congruence.
Qed.
Lemma conv_same a2 a3 : conv a2 a3 -> (forall pre cs v, In (pre, mkScope2 cs v) a2 -> forall out, wreads 0 cs (Good out) -> show_chunks3 out = show2 cs) ->
  curly_texts3 a3 = curly_texts a2 /\ option_texts3 a3 = option_texts a2.
Proof.
  intros H. apply conv_cases in H. induction H as [|[p2 [cs v]] [p3 [out w]] a2 a3 (-> & -> & W) _ IH]; intros K; [split; reflexivity|].
  destruct IH as [I1 I2]; [intros; eapply K; [right; eassumption|assumption]|]. pose proof (K p2 cs v (or_introl eq_refl) out W) as E.
  destruct v; cbn [curly_texts3 curly_texts option_texts3 option_texts variant3_of]; rewrite I1, I2, ?E; split; reflexivity.
Qed.
Lemma declared_conv cmds cmds3 cls : Forall2 conv (map snd cmds) cmds3 -> declared_class cmds = inr cls -> exists cls3, declared3 cmds3 = Some cls3.
Proof.
  revert cmds3. induction cmds as [|[l args] cmds IH]; intros cmds3 H E; inversion H as [|? a3 ? r3 C R]; subst; [eexists; reflexivity|].
  cbn [declared_class snd] in *. pose proof (conv_curly _ _ C) as L. cbn [declared3]. destruct (curly_texts args) as [|x [|]]; destruct (curly_texts3 a3) as [|x3 [|]]; try discriminate; [eauto|].
  destruct cmds as [|[l' a'] cmds]; [|discriminate]. inversion R. eexists. reflexivity.
Qed.
Lemma declared_same cmds cmds3 cls : Forall2 conv (map snd cmds) cmds3 ->
  (forall l args, In (l, args) cmds -> forall pre cs v, In (pre, mkScope2 cs v) args -> forall out, wreads 0 cs (Good out) -> show_chunks3 out = show2 cs) ->
  declared_class cmds = inr cls -> declared3 cmds3 = Some cls /\ flat_map option_texts3 cmds3 = all_options cmds.
Proof.
  unfold all_options. revert cmds3. induction cmds as [|[l args] cmds IH]; intros cmds3 H K E; inversion H as [|? a3 ? r3 C R]; subst; [injection E as <-; split; reflexivity|].
  cbn [declared_class snd flat_map] in *. destruct (conv_same _ _ C (K l args (or_introl eq_refl))) as [L1 L2]. cbn [declared3]. rewrite L1, L2. destruct (curly_texts args) as [|x [|]]; try discriminate.
  - destruct (IH r3 R) as [-> ->]; [intros; eapply K; [right|..]; eassumption|exact E|]. split; reflexivity.
  - destruct cmds as [|[l' a'] cmds]; [|discriminate]. inversion R; subst. injection E as <-. split; reflexivity.
Qed.
Lemma options_exist3 ts : exists pss opts, Forall2 pieces ts pss /\ Forall2 read_option (concat pss) opts.
Proof.
  pose proof (options_exist [(1, flat_map (fun t => [([], mkScope2 [mkChunk2 1 (Text2 t)] Square2)]) ts)]) as (pss & opts & A & B). exists pss, opts. split; [|exact B].
  assert (E : all_options [(1, flat_map (fun t => [([], mkScope2 [mkChunk2 1 (Text2 t)] Square2)]) ts)] = ts); [|now rewrite E in A].
  unfold all_options. cbn [flat_map snd]. rewrite app_nil_r. clear. induction ts as [|t ts IH]; [reflexivity|]. cbn [flat_map app option_texts]. rewrite IH. f_equal.
  unfold show2. cbn. now rewrite ?app_nil_r.
Qed.
Theorem converted_declares d d3 : wreads_document d (Good d3) -> exists cls opts, declares (d_preamable d3) cls opts.
Proof.
  intros H. remember (Good d3) as G eqn:ER. destruct H as [pr envs trail e HP Hc|pr envs trail cls pss opts rb rp rt HP Hc Ho1 Ho2 HB Hp Ht]; [discriminate|].
  apply andthen_good in ER as (body & f & -> & E1 & ->). apply andthen_good in E1 as (pre & tr & -> & -> & ->).
  destruct (proj1 wreads_shaped _ _ _ Hp pre eq_refl) as (_ & _ & _ & _ & _ & _ & P7).
  assert (E : d_preamable (document_of cls opts body pre tr) = pre) by (destruct body as [[]|]; try reflexivity; destruct e; reflexivity). rewrite E.
  destruct (declared_conv _ _ _ P7 Hc) as [cls3 D]. destruct (options_exist3 (flat_map option_texts3 (flat_map class_args pre))) as (pss3 & opts3 & O1 & O2). exists cls3, opts3. split; [exact D|]. exists pss3. auto.
Qed.
Theorem converted_declares_same d d3 pr envs trail : wreads_document d (Good d3) -> parts d pr envs trail ->
  (forall l args, In (l, args) (class_commands pr) -> forall pre cs v, In (pre, mkScope2 cs v) args -> forall out, wreads 0 cs (Good out) -> show_chunks3 out = show2 cs) ->
  declares (d_preamable d3) (d_class d3) (d_options d3).
Proof.
  intros H HP' K. remember (Good d3) as G eqn:ER. destruct H as [pr' envs' trail' e HP Hc|pr' envs' trail' cls pss opts rb rp rt HP Hc Ho1 Ho2 HB Hp Ht]; [discriminate|].
  apply andthen_good in ER as (body & f & -> & E1 & ->). apply andthen_good in E1 as (pre & tr & -> & -> & ->).
  assert (Epr : pr' = pr).
  { destruct HP as (post & E & F & N & _), HP' as (post' & E' & F' & N' & _). rewrite E in E'. clear - E' F N F' N'. revert pr' post E' F N. induction pr as [|c pr IH]; intros pr' post E F N.
    - destruct pr' as [|c pr']; [reflexivity|]. cbn in E. inversion F; subst. now elim H1; eapply N'.
    - destruct pr' as [|c' pr']; [cbn in E; inversion F'; subst; now elim H1; eapply N|]. cbn in E. injection E as -> E. inversion F; inversion F'; subst. f_equal. eapply IH; eassumption. }
  subst pr'. destruct (proj1 wreads_shaped _ _ _ Hp pre eq_refl) as (_ & _ & _ & _ & _ & _ & P7).
  assert (E : d_preamable (document_of cls opts body pre tr) = pre /\ d_class (document_of cls opts body pre tr) = cls /\ d_options (document_of cls opts body pre tr) = opts)
    by (destruct body as [[]|]; try (repeat split); destruct e; repeat split). destruct E as (-> & -> & ->).
  destruct (declared_same _ _ _ P7 K Hc) as [D1 D2]. split; [exact D1|]. exists pss. rewrite D2. auto.
Qed.

(** ** What stays the same *)
Definition single_args (args : list (str * scope3)) : bool := forallb (fun a => match a with (_, mkScope3 cs _) => forallb single cs end) args.
Lemma moves_single_chunk : forall c, shaped c -> single c = true -> moves_chunk c = [c].
Proof.
  assert (L : forall cs, Forall (fun c => shaped c -> single c = true -> moves_chunk c = [c]) cs -> (forall c, In c cs -> shaped c) -> forallb single cs = true -> flat_map moves_chunk cs = cs).
  { induction 1 as [|c cs Hc _ IH]; intros H K; [reflexivity|]. cbn [forallb flat_map] in *. apply andb_prop in K as [K1 K2]. rewrite (Hc (H c (or_introl eq_refl)) K1), IH; [reflexivity|intros; apply H; now right|exact K2]. }
  assert (A : forall args, Forall (fun a => Forall (fun c => shaped c -> single c = true -> moves_chunk c = [c]) (chunks3 (snd a))) args ->
    (forall pre cs v c, In (pre, mkScope3 cs v) args -> In c cs -> shaped c) -> single_args args = true ->
    map (fun a => match a with (pre, mkScope3 cs v) => (pre, mkScope3 (flat_map moves_chunk cs) v) end) args = args).
  { induction 1 as [|[pre [cs v]] args Hc _ IH]; intros H K; [reflexivity|]. unfold single_args in K. cbn [forallb map chunks3 snd] in *. apply andb_prop in K as [K1 K2].
    rewrite (L cs Hc (fun c Hi => H pre cs v c (or_introl eq_refl) Hi) K1), IH; [reflexivity|intros; eapply H; [right|]; eassumption|exact K2]. }
  intros c. induction c as [k s|k s|k lab args IH|k cs v IH|k lab args cs pb pe IHa IHc|k v t cs IH] using chunk3_ind'; intros Sh H; cbn [moves_chunk single] in *.
  - reflexivity.
  - reflexivity.
  - inversion Sh; subst. rewrite (A args); auto.
  - inversion Sh; subst. rewrite (L cs); auto.
  - apply andb_prop in H as [H1 H2]. inversion Sh; subst. rewrite (A args), (L cs); auto.
  - destruct v.
    + inversion Sh; subst. rewrite (L cs); auto.
    + inversion Sh as [| | | | | |? ? X T HX HT Hn Hs E]; subst. apply andb_prop in H as [H1 H2]. destruct (filter_parts X T HX HT) as [-> ->].
      rewrite forallb_app in H2. apply andb_prop in H2 as [H2 _]. apply Forall_app in IH as [IH _]. unfold moves. rewrite (L X IH); [|intros c Hc; apply Hs, in_or_app; now left|exact H2].
      destruct (filter_parts X T HX HT) as [F _]. rewrite F in H1. apply Nat.leb_le in H1. destruct T as [|x [|]]; [reflexivity|reflexivity|cbn [length] in H1; lia].
Qed.
Theorem moves_single cs : (forall c, In c cs -> shaped c) -> forallb single cs = true -> moves cs = cs.
Proof.
  unfold moves. induction cs as [|c cs IH]; intros H K; [reflexivity|]. cbn [forallb flat_map] in *. apply andb_prop in K as [K1 K2]. rewrite moves_single_chunk, IH; [reflexivity|intros; apply H; now right|exact K2|apply H; now left|exact K1].
Qed.
Theorem moves_args_single args : (forall pre cs v c, In (pre, mkScope3 cs v) args -> In c cs -> shaped c) -> single_args args = true -> moves_args args = args.
Proof.
  unfold single_args. induction args as [|[pre [cs v]] args IH]; intros H K; [reflexivity|]. cbn [moves_args map forallb] in *. apply andb_prop in K as [K1 K2].
  rewrite moves_single; [|intros c Hc; eapply H; [now left|exact Hc]|exact K1]. f_equal. apply IH; [intros; eapply H; [right|]; eassumption|exact K2].
Qed.
Lemma moves_chunk_some c : (1 <= length (moves_chunk c))%nat.
Proof.
  destruct c as [l [s|b|[[|] t co]|[lab a]|[cs v]|[lab a co pb pe]]]; cbn [moves_chunk length]; try lia. rewrite app_length. cbn [length]. lia.
Qed.
Lemma moves_length cs : (length cs <= length (moves cs))%nat.
Proof. unfold moves. induction cs as [|c cs IH]; [cbn; lia|]. cbn [flat_map length]. rewrite app_length. pose proof (moves_chunk_some c). lia. Qed.
Lemma unnumbered_one l l' v v' : unnumbered3 [mkChunk3 l v] = unnumbered3 [mkChunk3 l' v'] -> unnumbered_variant3 v = unnumbered_variant3 v'.
Proof. intros H. injection H. auto. Qed.
Lemma same_chunks cs : Forall (fun c => unnumbered3 (moves_chunk c) = unnumbered3 [c] -> single c = true) cs -> unnumbered3 (moves cs) = unnumbered3 cs -> forallb single cs = true.
Proof.
  unfold moves. induction 1 as [|c cs Hc _ IH]; intros H; [reflexivity|]. cbn [flat_map forallb] in *.
  assert (L : length (moves_chunk c) = 1%nat).
  { apply (f_equal (@length _)) in H. unfold unnumbered3 in H. rewrite !map_length, app_length in H. cbn [length] in H. pose proof (moves_chunk_some c). pose proof (moves_length cs). unfold moves in *. lia. }
  destruct (moves_chunk c) as [|x [|]]; try discriminate L. cbn [app unnumbered3 map] in H. injection H as H1 H2. rewrite Hc, IH; [reflexivity|exact H2|]. cbn [unnumbered3 map]. now rewrite H1.
Qed.
Lemma same_args args : Forall (fun a => Forall (fun c => unnumbered3 (moves_chunk c) = unnumbered3 [c] -> single c = true) (chunks3 (snd a))) args ->
  map (fun a => match a with (pre, sc) => (pre, unnumbered_scope3 sc) end) (moves_args args) = map (fun a => match a with (pre, sc) => (pre, unnumbered_scope3 sc) end) args ->
  single_args args = true.
Proof.
  unfold single_args. induction 1 as [|[pre [cs v]] args Hc _ IH]; intros H; [reflexivity|]. cbn [moves_args map forallb unnumbered_scope3 chunks3 snd] in *. injection H as H1 H2. rewrite same_chunks, IH; [reflexivity|exact H2|exact Hc|exact H1].
Qed.
Lemma same_single : forall c, shaped c -> unnumbered3 (moves_chunk c) = unnumbered3 [c] -> single c = true.
Proof.
  assert (F : forall cs, Forall (fun c => shaped c -> unnumbered3 (moves_chunk c) = unnumbered3 [c] -> single c = true) cs -> (forall c, In c cs -> shaped c) -> Forall (fun c => unnumbered3 (moves_chunk c) = unnumbered3 [c] -> single c = true) cs).
  { intros cs H K. rewrite Forall_forall in *. auto. }
  assert (A : forall args, Forall (fun a => Forall (fun c => shaped c -> unnumbered3 (moves_chunk c) = unnumbered3 [c] -> single c = true) (chunks3 (snd a))) args ->
    (forall pre cs v c, In (pre, mkScope3 cs v) args -> In c cs -> shaped c) -> Forall (fun a : str * scope3 => Forall (fun c => unnumbered3 (moves_chunk c) = unnumbered3 [c] -> single c = true) (chunks3 (snd a))) args).
  { intros args H K. rewrite Forall_forall in *. intros [pre [cs v]] Hi. apply F; [exact (H _ Hi)|]. intros c Hc. eapply K; eassumption. }
  intros c. induction c as [k s|k s|k lab args IH|k cs v IH|k lab args cs pb pe IHa IHc|k v t cs IH] using chunk3_ind'; intros Sh H; cbn [moves_chunk single] in *.
  - reflexivity.
  - reflexivity.
  - inversion Sh; subst. apply unnumbered_one in H. cbn [unnumbered_variant3 unnumbered_command3] in H. injection H as H. apply same_args; auto.
  - inversion Sh; subst. apply unnumbered_one in H. cbn [unnumbered_variant3 unnumbered_scope3] in H. injection H as H. apply same_chunks; auto.
  - apply unnumbered_one in H. cbn [unnumbered_variant3 unnumbered_env3] in H. injection H as H1 H2. inversion Sh; subst. apply andb_true_intro. split; [apply same_args; auto|apply same_chunks; auto].
  - destruct v.
    + inversion Sh; subst. apply unnumbered_one in H. cbn [unnumbered_variant3 unnumbered_maths3] in H. injection H as H. apply same_chunks; auto.
    + inversion Sh as [| | | | | |? ? X T HX HT Hn Hs E]; subst. destruct (filter_parts X T HX HT) as [FT FX]. rewrite FT, FX in *.
      assert (LT : (length T <= 1)%nat).
      { apply (f_equal (@length _)) in H. unfold unnumbered3 in H. rewrite !map_length, app_length in H. cbn [length] in H. destruct (snoc_cases T) as [->|(T' & x & ->)]; [cbn; lia|].
        rewrite removelast_last in H. rewrite app_length. cbn [length]. lia. }
      apply andb_true_intro. split; [now apply Nat.leb_le|]. assert (E : removelast T = [] /\ last1 T = T) by (destruct T as [|x [|]]; [split; reflexivity|split; reflexivity|cbn [length] in LT; lia]). destruct E as [E1 E2].
      rewrite E1, E2 in H. cbn [app] in H. apply unnumbered_one in H. cbn [unnumbered_variant3 unnumbered_maths3] in H. injection H as H. rewrite !map_app in H. apply app_inv_tail in H.
      apply Forall_app in IH as [IH _]. rewrite forallb_app. apply andb_true_intro. split; [apply same_chunks; [apply F; [exact IH|intros c Hc; apply Hs, in_or_app; now left]|exact H]|].
      clear - HT. induction T as [|[l []] T IH]; try discriminate; [reflexivity| |]; apply IH; exact HT.
Qed.
Theorem moves_same cs : (forall c, In c cs -> shaped c) -> (unnumbered3 (moves cs) = unnumbered3 cs <-> forallb single cs = true).
Proof.
  intros H. split; [|intros K; now rewrite moves_single]. apply same_chunks, Forall_forall. intros c Hc. apply same_single; auto.
Qed.
Theorem moves_args_same args : (forall pre cs v c, In (pre, mkScope3 cs v) args -> In c cs -> shaped c) ->
  (map (fun a => match a with (pre, sc) => (pre, unnumbered_scope3 sc) end) (moves_args args) = map (fun a => match a with (pre, sc) => (pre, unnumbered_scope3 sc) end) args <-> single_args args = true).
Proof.
  intros H. split; [|intros K; now rewrite moves_args_single]. apply same_args, Forall_forall. intros [pre [cs v]] Hi. apply Forall_forall. intros c Hc. apply same_single. eapply H; eassumption.
Qed.
Theorem again_same cls opts d : shaped_document d ->
  (unnumbered_document3 (again cls opts d) = unnumbered_document3 d <-> cls = d_class d /\ opts = d_options d /\ single_document d = true).
Proof.
  intros (Sc & Sa & _ & _). destruct d as [c0 o0 pre bo args bp ep tr]. unfold unnumbered_document3, again, single_document. cbn [d_class d_options d_preamable d_body d_body_args d_begin_prec d_end_prec d_trailing] in *.
  assert (S1 : forall c, In c pre -> shaped c) by (intros; apply Sc, in_or_app; now left).
  assert (S2 : forall c, In c bo -> shaped c) by (intros; apply Sc, in_or_app; right; apply in_or_app; now left).
  assert (S3 : forall c, In c tr -> shaped c) by (intros; apply Sc, in_or_app; right; apply in_or_app; now right).
  split.
  - intros H. injection H as E1 E2 E3 E4 E5 E6. split; [exact E1|]. split; [exact E2|]. rewrite !forallb_app. apply (moves_same pre S1) in E3. apply (moves_same bo S2) in E4. apply (moves_same tr S3) in E6. apply (moves_args_same args Sa) in E5.
    rewrite E3, E4, E6. exact E5.
  - intros (-> & -> & K). rewrite !forallb_app in K. apply andb_prop in K as [K K4]. apply andb_prop in K as [K1 K]. apply andb_prop in K as [K2 K3]. rewrite !moves_single, moves_args_single by assumption. reflexivity.
Qed.
