(** * KeepW: as Keep3, for builds without overflow checks *)
From Verif Require Import Base Ast1 Parse1 Ast2 Ast3 SpecDoc1 SpecDoc2 SpecDoc3 Spec2 SpecMaths3 SpecPar3 SpecReads SpecClass3 SpecRead3 SpecWrap Lines Eqb Tok Refine1 Gram1 Facts1 Valid1 Conv2 Facts2 Valid2 Valid3 Good2 Env2 Par3 Maths3 Reads Read3 MathsBwd Mono MathsRun Keep2 Keep3 ReadsW.
From Coq Require Import Lia.

Section Kept.
  Context (G : char -> Prop) (L E : str -> Prop).
  Notation all3 := (all3 G L E).
  Notation deep3 := (deep3 G L E).
  Notation gtext := (gtext G).
  Notation A2 := (all2 gtext L E).
  Notation D2 := (deep2 gtext L E).
  Lemma wmoved_ok lb a b : Forall2 (moved32 lb) a b -> A2 a -> A2 b.
  Proof.
    induction 1 as [|[l v] [l' v'] a b M _ IH]; intros H; [apply all2_nil|]. apply all2_cons in H as [H H']. cbn in M. destruct M as (-> & _). apply all2_cons. auto.
  Qed.
  Lemma wreads_ok :
    (forall bl cs r, wreads bl cs r -> forall out, r = Good out -> A2 cs -> all3 out) /\
    (forall v r, wreads_variant v r -> forall v3, r = Good v3 -> D2 v -> deep3 v3) /\
    (forall args r, wreads_args args r -> forall args3, r = Good args3 -> (forall pre cs v, In (pre, mkScope2 cs v) args -> A2 cs) ->
       forall pre cs v, In (pre, mkScope3 cs v) args3 -> all3 cs).
  Proof.
    apply wreads_ind'.
    - intros bl out [= <-] _. apply all3_nil.
    - intros bl l s cs pieces r Hs Hp _ IH out E0 H. apply on_good in E0 as (o & -> & ->). apply A2_text in H as [H H']. apply all3_app.
      split; [eapply paragraphs_ok; eassumption|auto].
    - intros bl l v cs rv r Hv _ IHv _ IH out E0 H. apply andthen_good in E0 as (v3 & o & -> & -> & ->). apply all2_cons in H as [H H']. apply all3_cons. auto.
    - intros bl t l args body kept l' args' cs rco r Hn _ IHc _ IH out E0 H. apply andthen_good in E0 as (co & o & -> & -> & ->).
      apply all2_cons in H as [_ H]. apply all2_app in H as [Hb H]. apply all2_cons in H as [_ H]. apply all3_cons. split; [|auto].
      split; [exact I|]. intros i Hi. inversion Hi; subst. apply IHc; [reflexivity|]. eapply nesting_ok; eassumption.
    - intros; discriminate.
    - intros; discriminate.
    - intros bl l u s cs t leaks lb content rest pieces content' rco r Hu Hd Hs Hm _ IHc _ IH out E0 H. apply andthen_good in E0 as (co & o & -> & -> & ->).
      apply A2_text in H as [H H']. apply (gtext_app G L E) in H as [H1 H2]. apply (gtext_cons G) in H2 as [_ H2].
      destruct (block_ok G L E _ _ _ _ _ _ Hd) as (R & C & D); [apply A2_text; split; assumption|].
      apply all3_app. split; [eapply split_ok; [eassumption|]; apply raw_app; [now apply raw_chunk|exact R]|]. apply all3_cons. split; [|auto].
      split; [exact I|]. intros i Hi. inversion Hi; subst. apply IHc; [reflexivity|]. eapply wmoved_ok; eassumption.
    - intros; discriminate.
    - intros cs v r _ IH v3 E0 [_ H]. apply on_good in E0 as (o & -> & ->). split; [exact I|]. intros i Hi. inversion Hi; subst. apply IH; [reflexivity|]. apply H. constructor.
    - intros lab args r _ IH v3 E0 [H0 H]. apply on_good in E0 as (o & -> & ->). split; [exact H0|]. intros i Hi. inversion Hi; subst.
      eapply IH; [reflexivity| |eassumption]. intros pr cs0 v0 Ha. apply H. econstructor; exact Ha.
    - intros lab args content pb pe ra rc _ IHa _ IHc v3 E0 [H0 H]. apply andthen_good in E0 as (a & o & -> & -> & ->). split; [exact H0|].
      intros i Hi. inversion Hi; subst.
      + eapply IHa; [reflexivity| |eassumption]. intros pr cs0 v0 Ha. apply H. econstructor; exact Ha.
      + apply IHc; [reflexivity|]. apply H. constructor.
    - intros args3 [= <-] _ pre cs v [].
    - intros pre cs v args r ra _ IHc _ IHa args3 E0 H pr cs0 v0 Hi. apply andthen_good in E0 as (o & a & -> & -> & ->). destruct Hi as [Hi|Hi].
      + injection Hi as <- <- <-. apply IHc; [reflexivity|]. eapply H. now left.
      + eapply IHa; [reflexivity| |exact Hi]. intros pr1 cs1 v1 Ha. eapply H. right. exact Ha.
  Qed.
  Lemma wbodies_ok envs rb : wreads_bodies envs rb -> forall b, rb = Good (Some b) -> (forall e, In e envs -> D2 (Environment2 e)) -> deep3 b.
  Proof.
    induction 1 as [|e envs re r He _ IH]; intros b E0 H; [discriminate|]. apply andthen_good in E0 as (v & o & -> & -> & E1). destruct o as [x|].
    - injection E1 as ->. apply IH; [reflexivity|]. intros e' He'. apply H. now right.
    - injection E1 as ->. eapply (proj1 (proj2 wreads_ok)); [exact He|reflexivity|]. apply H. now left.
  Qed.
  Theorem wdocument_ok d d3 : wreads_document d (Good d3) -> A2 d ->
    all3 (d_preamable d3) /\ all3 (d_body d3) /\ all3 (d_trailing d3).
  Proof.
    intros H K. remember (Good d3) as R eqn:ER. destruct H as [pr envs trail e HP Hc|pr envs trail cls pss opts rb rp rt HP Hc Ho1 Ho2 HB Hp Ht]; [discriminate|].
    apply andthen_good in ER as (body & f & -> & E1 & ->). apply andthen_good in E1 as (pre & tr & -> & -> & ->).
    destruct HP as (post & -> & HF & _ & HD). apply all2_app in K as [K1 K2]. destruct (divided_ok G L E _ _ _ HD K2) as [K3 K4].
    pose proof (proj1 wreads_ok _ _ _ Hp _ eq_refl K1) as A1. pose proof (proj1 wreads_ok _ _ _ Ht _ eq_refl K3) as A3.
    destruct body as [b|]; cbn [document_of d_preamable d_body d_trailing]; [|repeat split; try assumption; apply all3_nil].
    pose proof (wbodies_ok _ _ HB b eq_refl K4) as A0.
    destruct b as [s|s|m|c|sc|[lab args content pb pe]]; cbn [d_preamable d_body d_trailing]; repeat split; try assumption; try apply all3_nil.
    apply (proj2 A0). constructor.
  Qed.
End Kept.

Lemma wbodies_from envs rb : wreads_bodies envs rb -> forall b, rb = Good (Some b) -> exists e, In e envs /\ wreads_variant (Environment2 e) (Good b).
Proof.
  induction 1 as [|e envs re r He _ IH]; intros b E0; [discriminate|]. apply andthen_good in E0 as (v & o & -> & -> & E1). destruct o as [x|].
  - injection E1 as ->. destruct (IH x eq_refl) as (e' & I & R). exists e'. split; [now right|exact R].
  - injection E1 as ->. exists e. split; [now left|exact He].
Qed.
Lemma wreads_length cs out : fits cs -> nl2 cs < 2147483648 -> wreads 0 cs (Good out) -> (length (show_chunks3 out) <= length (show2 cs))%nat.
Proof. intros R B H. apply (wmaths_reads cs (Good out) R) in H. eapply maths_not_longer; [exact B|exact H]. Qed.
Theorem wdocument_lengths d d3 : fits d -> nl2 d < 2147483648 -> wreads_document d (Good d3) ->
  forall s, (length (show_chunks3 (get_section s d3)) <= length (show2 d))%nat.
Proof.
  intros R B H s. remember (Good d3) as G eqn:ER. destruct H as [pr envs trail e HP Hc|pr envs trail cls pss opts rb rp rt HP Hc Ho1 Ho2 HB Hp Ht]; [discriminate|].
  apply andthen_good in ER as (body & f & -> & E1 & ->). apply andthen_good in E1 as (pre & tr & -> & -> & ->).
  destruct (parts_fits _ _ _ _ HP R) as (R1 & R2 & R3). destruct HP as (post & -> & HF & _ & HD).
  destruct (divided_nl _ _ _ HD) as (N1 & N2 & N3). rewrite nl2_app in B. rewrite show2_app, app_length.
  pose proof (wreads_length pr pre R1 ltac:(lia) Hp). pose proof (wreads_length trail tr R2 ltac:(lia) Ht).
  assert (Z : (length (show_chunks3 []) = 0)%nat) by reflexivity.
  destruct body as [b|]; [|destruct s; cbn [document_of get_section d_preamable d_body d_trailing]; lia].
  destruct (wbodies_from _ _ HB b eq_refl) as (e & He & Hr). destruct (N3 e He) as [M1 M2].
  remember (Good b) as Gb eqn:Eb. inversion Hr as [|?|lab args content pb pe ra rc Ha Hcn Eq]; subst e.
  rewrite <- H2 in Eb. apply andthen_good in Eb as (a & o & -> & -> & ->). cbn [env_content2] in M1, M2.
  pose proof (wreads_length content o (R3 _ He content ltac:(constructor)) ltac:(lia) Hcn).
  destruct s; cbn [document_of get_section d_preamable d_body d_trailing]; lia.
Qed.

Lemma wsections_wf p d d3 : fits d -> nl2 d < 2147483648 -> fits2 d -> wreads_document d (Good d3) ->
  (validate3 p d3 = Ok tt <-> well_formed3 d3).
Proof.
  intros R B F H. unfold fits2 in F.
  assert (Z : forall s, 1 + count_newlines (show_chunks3 (get_section s d3)) < two32).
  { intros s. pose proof (wdocument_lengths d d3 R B H s). pose proof (count_newlines_le (show_chunks3 (get_section s d3))). lia. }
  apply validate3_iff; [exact (Z Preamable)|exact (Z Body)|exact (Z Trailing)].
Qed.
Theorem wvalid_validate3 p d d3 : fits d -> nl2 d < 2147483648 -> fits2 d ->
  (forall cs, within2 d cs -> Forall clean2 cs) -> try_from3 Release d = Ok d3 ->
  (validate3 p d3 = Ok tt <-> forall s, lines_add_up3 (get_section s d3)).
Proof.
  intros R B F C H. apply (wdocument_iff d (Good d3) R) in H. rewrite (wsections_wf p d d3 R B F H), wf_split.
  split; [tauto|]. intros A. split; [exact A|]. apply all2_clean in C.
  assert (C' : all2 (gtext (fun x => special x = false)) fit_label no_specials d).
  { eapply deep2_imp; [|exact (fun s h => h)|exact (fun s h => h)|exact C]. intros s Hs x Hx. destruct (special x) eqn:Ex; [|reflexivity].
    unfold no_specials in Hs. rewrite (proj2 (existsb_exists special s)) in Hs; [discriminate|eauto]. }
  destruct (wdocument_ok _ _ _ _ _ H C') as (A1 & A2 & A3). intros []; assumption.
Qed.
Theorem wparsed_validate3 p s d3 : source_fits s -> count_newlines s < 2147483648 -> from_str3 Release s = Ok d3 ->
  (validate3 p d3 = Ok tt <->
   (forall sec, lines_add_up3 (get_section sec d3)) /\
   (forall sec cs l t, within3 (get_section sec d3) cs -> In (mkChunk3 l (Text3 t)) cs -> existsb is_closing t = false) /\
   (forall sec cs l lab args body pb pe, within3 (get_section sec d3) cs -> In (mkChunk3 l (Environment3 (mkEnv3 lab args body pb pe))) cs ->
      existsb special lab = false)).
Proof.
  intros B Bn H. unfold from_str3 in H. destruct (from_str2 Release s) as [d2|e| |] eqn:E2; cbn [bind] in H; try discriminate.
  pose proof (parsed_fits Release s d2 B Bn E2) as R. pose proof (parsed_all2 Release s d2 B E2) as K.
  destruct (from_str2_split Release s d2 B E2) as (d1 & H1 & _ & H2 & _). pose proof (from_str1_newlines Release s d1 B H1) as Hn. unfold nls in Hn.
  pose proof (Facts1.degrades_length _ _ (from_str1_degrades Release s d1 B H1)) as Dl. rewrite <- (try_from2_show _ _ _ H2) in Hn, Dl.
  apply (wdocument_iff d2 (Good d3) R) in H. unfold source_fits in B.
  rewrite (wsections_wf p d2 d3 R ltac:(unfold nl2; lia) ltac:(unfold fits2; lia) H), wf_split. apply and_iff_compat_l.
  assert (K' : all2 (gtext (fun x => special x = true -> is_closing x = true)) fit_label (fun _ => True) d2) by exact K.
  assert (A : forall sec, all3 (fun x => special x = true -> is_closing x = true) fit_label (fun _ => True) (get_section sec d3)).
  { destruct (wdocument_ok _ _ _ _ _ H K') as (A1 & A2 & A3). intros []; assumption. }
  assert (X : forall t, (forall x, In x t -> special x = false) <-> no_specials t).
  { intros t. unfold no_specials. split.
    - intros Y. apply not_true_iff_false. intros X. apply existsb_exists in X as (x & Hx & Ex). rewrite (Y x Hx) in Ex. discriminate.
    - intros Y x Hx. destruct (special x) eqn:Ex; [|reflexivity]. rewrite (proj2 (existsb_exists special t)) in Y; [discriminate|eauto]. }
  split.
  - intros C. split.
    + intros sec cs l t W I. apply only_closing_clean; [exact (proj1 (A sec cs l _ W I))|]. apply X. exact (proj1 (C sec cs l _ W I)).
    + intros sec cs l lab args body pb pe W I. exact (C sec cs l _ W I).
  - intros [C1 C2] sec cs l v W I. specialize (A sec cs l v W I). destruct v as [t|b|m|[lab args]|sc|[lab args content pb pe]]; cbn in *; try exact A.
    + destruct A as [A1 A2]. split; [|exact A2]. apply X. apply only_closing_clean; [exact A1|exact (C1 sec cs l t W I)].
    + eapply C2; eassumption.
Qed.

Lemma wreads_low bl cs r : wreads bl cs r -> forall out L, r = Good out -> low2 L cs -> low3 L out.
Proof.
  induction 1 as [bl|bl l s cs pieces r Hs Hp _ IH|bl l v cs rv r Hv Hr _ IH|bl t l args body kept l' args' cs rco r Hn Hc _ _ IH| | 
    |bl l u s cs t leaks lb content rest pieces content' rco r Hu Hd Hs Hm Hc _ _ IH| ]; intros out L E0 K; try discriminate.
  - injection E0 as <-. constructor.
  - apply on_good in E0 as (o & -> & ->). inversion K as [|? ? K1 K2]; subst. apply Forall_app. split; [eapply paragraphs_low; eassumption|eapply IH; [reflexivity|assumption]].
  - apply andthen_good in E0 as (a & o & -> & -> & ->). inversion K as [|? ? K1 K2]; subst. constructor; [assumption|eapply IH; [reflexivity|assumption]].
  - apply andthen_good in E0 as (a & o & -> & -> & ->). inversion K as [|? ? K1 K2]; subst. apply Forall_app in K2 as [_ K2]. inversion K2 as [|? ? K3 K4]; subst. constructor; [assumption|eapply IH; [reflexivity|assumption]].
  - apply andthen_good in E0 as (a & o & -> & -> & ->). inversion K as [|? ? K1 K2]; subst. cbn [line_no2] in *.
    destruct (block_low _ _ _ _ _ _ Hd L) as (A & B & C); [constructor; [cbn [line_no2]; lia|assumption]|].
    apply Forall_app. split; [eapply split_low; [eassumption|]; apply Forall_app; split; [now apply low_text|exact A]|]. constructor; [exact B|eapply IH; [reflexivity|assumption]].
Qed.
Theorem wtrailing_line p s pre c post d3 : source_fits s -> count_newlines s < 2147483648 ->
  from_str2 Release s = Ok (pre ++ c :: post) -> is_document c -> Forall (fun c => ~ is_document c) pre ->
  from_str3 Release s = Ok d3 -> d_trailing d3 <> [] -> validate3 p d3 = Ok tt ->
  count_newlines (show2 (pre ++ [c])) = 0.
Proof.
  intros B Bn E2 Hc Fp H3 Ht V. apply (wparsed_validate3 p s d3 B Bn H3) in V as [VL _]. specialize (VL Trailing). cbn [get_section] in VL.
  unfold from_str3 in H3. rewrite E2 in H3. cbn [bind] in H3.
  pose proof (parsed_fits Release s _ B Bn E2) as R. apply (wdocument_iff _ (Good d3) R) in H3.
  remember (Good d3) as G eqn:ER. destruct H3 as [pr envs trail e HP Hcl|pr envs trail cls pss opts rb rp rt HP Hcl Ho1 Ho2 HB Hp Htr]; [discriminate|].
  apply andthen_good in ER as (body & f & -> & E1 & ->). apply andthen_good in E1 as (pr3 & tr & -> & -> & ->).
  assert (Et : d_trailing (document_of cls opts body pr3 tr) = tr) by (destruct body as [[| | | | |[]]|]; reflexivity).
  rewrite Et in *. destruct (parts_head _ _ _ _ _ _ HP Hc Fp) as (-> & envs' & D).
  assert (Lw : low2 (1 + count_newlines (show2 (pre ++ [c]))) trail).
  { destruct c as [lc vc]. inversion D as [|l args content pb pe cs en rest D' |x cs en rest Hx D']; subst; [|contradiction].
    apply Forall_forall. intros x Hx. apply (divided_sub _ _ _ D') in Hx. apply in_split in Hx as (a & b & ->).
    pose proof (other_line2 Release s _ B E2 _ (w2_self _) (pre ++ mkChunk2 lc (Environment2 (mkEnv2 (S! "document") args content pb pe)) :: a) x b) as Z.
    rewrite <- app_assoc in Z. specialize (Z eq_refl). destruct Z as [Z _].
    change (mkChunk2 lc (Environment2 (mkEnv2 (S! "document") args content pb pe)) :: a) with ([mkChunk2 lc (Environment2 (mkEnv2 (S! "document") args content pb pe))] ++ a) in Z.
    rewrite app_assoc, (show2_app _ a), count_newlines_app in Z. lia. }
  pose proof (wreads_low _ _ _ Htr tr _ eq_refl Lw) as L3. destruct tr as [|x tr]; [congruence|]. inversion L3; subst.
  specialize (VL [] x tr eq_refl). change (count_newlines (show_chunks3 [])) with 0 in VL. lia.
Qed.
