(** * Chain: maths blocks directly inside each other are of different kinds *)
From Verif Require Import Base Ast1 Parse1 Ast2 Ast3 SpecDoc1 SpecDoc2 SpecDoc3 Spec2 SpecMaths3 SpecPar3 SpecReads SpecClass3 SpecRead3 SpecWrap SpecChain Lines Tok Refine1 Facts1 Facts2 Env2 Par3 Maths3 MathsRun Mono Reads Read3 Keep3 ReadsW KeepW.
From Coq Require Import Lia.

Lemma chain_app a b ks : chain (a ++ b) ks -> chain a ks \/ chain b ks.
Proof.
  intros H. inversion H as [cs|cs l v t content ks' Hi Hc]; subst; [left; constructor|]. apply in_app_or in Hi as [Hi|Hi]; [left|right]; econstructor; eassumption.
Qed.
Definition plain_chunk (c : chunk3) : Prop := match c with mkChunk3 _ (Maths3 _) => False | _ => True end.
Lemma chain_plain cs ks : Forall plain_chunk cs -> chain cs ks -> ks = [].
Proof. intros F H. inversion H as [|? l v t content ks' Hi Hc]; subst; [reflexivity|]. rewrite Forall_forall in F. destruct (F _ Hi). Qed.
(** chunks without anything inside *)
Definition leaf (c : chunk3) : Prop := match c with mkChunk3 _ (Text3 _) | mkChunk3 _ (ParagraphBreak3 _) => True | _ => False end.

(** everywhere in [out] *)
Definition okl (out : list chunk3) : Prop := forall es ks, within3 out es -> chain es ks -> NoDup ks.
Lemma okl_inside out l v inner : okl out -> In (mkChunk3 l v) out -> inside3 v inner -> okl inner.
Proof. intros H Hi Hv es ks W. apply H. eapply within3_inside; eassumption. Qed.
Lemma okl_intro out : (forall ks, chain out ks -> NoDup ks) -> (forall l v inner, In (mkChunk3 l v) out -> inside3 v inner -> okl inner) -> okl out.
Proof.
  intros H1 H2 es ks W C. destruct (within3_cases out es W) as [->|(l & v & inner & A & B & D)]; [now apply H1|]. exact (H2 _ _ _ A B _ _ D C).
Qed.
Lemma okl_app a b : okl a -> okl b -> okl (a ++ b).
Proof.
  intros A B. apply okl_intro.
  - intros ks C. apply chain_app in C as [C|C]; [exact (A _ _ (w3_self _) C)|exact (B _ _ (w3_self _) C)].
  - intros l v inner Hi Hv. apply in_app_or in Hi as [Hi|Hi]; [exact (okl_inside _ _ _ _ A Hi Hv)|exact (okl_inside _ _ _ _ B Hi Hv)].
Qed.
Lemma okl_nil : okl [].
Proof. apply okl_intro; [|intros l v inner []]. intros ks C. apply chain_plain in C; [subst; constructor|constructor]. Qed.
Lemma okl_leaves cs : Forall leaf cs -> okl cs.
Proof.
  intros F. apply okl_intro.
  - intros ks C. apply chain_plain in C; [subst; constructor|]. eapply Forall_impl; [|exact F]. intros [l []]; cbn; tauto.
  - intros l v inner Hi Hv. rewrite Forall_forall in F. specialize (F _ Hi). inversion Hv; subst; destruct F.
Qed.
Lemma leaves_chain cs ks : Forall leaf cs -> chain cs ks -> ks = [].
Proof. intros F. apply chain_plain. eapply Forall_impl; [|exact F]. intros [l []]; cbn; tauto. Qed.
Lemma okl_one l v : (forall m, v <> Maths3 m) -> (forall inner, inside3 v inner -> okl inner) -> okl [mkChunk3 l v].
Proof.
  intros Hv Hi. apply okl_intro.
  - intros ks C. apply chain_plain in C; [subst; constructor|]. constructor; [|constructor]. destruct v; try exact I. now elim (Hv m).
  - intros l0 v0 inner [E|[]] K. injection E as <- <-. now apply Hi.
Qed.
Lemma okl_maths l v t co : okl co -> (forall ks, chain co ks -> ~ In (kind_of v t) ks) -> okl [mkChunk3 l (Maths3 (mkMaths3 v t co))].
Proof.
  intros Hc Hk. apply okl_intro.
  - intros ks C. inversion C as [|? l0 v0 t0 content ks' Hi Hc']; subst; [constructor|]. destruct Hi as [E|[]]. injection E as <- <- <- <-.
    constructor; [now apply Hk|exact (Hc _ _ (w3_self _) Hc')].
  - intros l0 v0 inner [E|[]] K. injection E as <- <-. inversion K; subst. exact Hc.
Qed.

(** ** What starts a block *)
Definition starts (k : maths_kind) (cs : list chunk2) : Prop :=
  match k with
  | ByDollars => exists l s, In (mkChunk2 l (Text2 s)) cs /\ In c_dollar s
  | ByBrackets t => exists l args, In (mkChunk2 l (Command2 (mkCommand2 [opener t] args))) cs
  end.
Lemma starts_sub k a b : (forall c, In c a -> In c b) -> starts k a -> starts k b.
Proof. intros H. destruct k; cbn; [intros (l & s & A & B); exists l, s; auto|intros (l & args & A); exists l, args; auto]. Qed.
Lemma paragraphs_leaf l s cs : paragraphs l s cs -> Forall leaf cs.
Proof.
  assert (T : forall l s, Forall leaf (text_chunk3 l s)) by (intros l0 [|c s0]; cbn; repeat constructor).
  induction 1 as [l s Hb|l t b rest cs Ht Hb Hr _ IH]; [apply T|]. apply Forall_app. split; [apply T|]. constructor; [exact I|exact IH].
Qed.
Lemma split_leaf cs cs' : split_all cs cs' -> Forall leaf cs -> Forall leaf cs'.
Proof.
  induction 1 as [|l s pieces cs cs' Hp _ IH|c cs cs' Hc _ IH]; intros H; [constructor|..]; inversion H; subst.
  - apply Forall_app. split; [eapply paragraphs_leaf; eassumption|auto].
  - constructor; auto.
Qed.
Lemma upto_parts cs leaks inner l p rest : upto cs leaks inner l p rest ->
  Forall leaf leaks /\ no_text inner /\ ~ In c_dollar p /\ (forall c, In c inner -> In c cs) /\
  forall k, starts k rest -> starts k cs.
Proof.
  assert (T : forall l s, Forall leaf (text_chunk3 l s)) by (intros l0 [|c s0]; cbn; repeat constructor).
  induction 1 as [l p r cs Hp|l s cs leaks inner l' p rest Hs _ (I1 & I2 & I3 & I4 & I5)|l v cs leaks inner l' p rest Hv _ (I1 & I2 & I3 & I4 & I5)].
  - split; [constructor|]. split; [intros l0 s0 []|]. split; [exact Hp|]. split; [intros c []|]. intros [|t]; cbn.
    + intros (l0 & s0 & [E|Hi] & Hd); [injection E as <- <-; exists l, (p ++ c_dollar :: r); split; [left; reflexivity|apply in_or_app; right; now left]|exists l0, s0; split; [right; exact Hi|exact Hd]].
    + intros (l0 & args & [E|Hi]); [discriminate|exists l0, args; right; exact Hi].
  - split; [apply Forall_app; split; [apply T|exact I1]|]. split; [exact I2|]. split; [exact I3|]. split; [intros c Hc; right; auto|].
    intros k Hk. eapply starts_sub; [|apply I5, Hk]. intros c Hc. now right.
  - split; [exact I1|]. split; [|split; [exact I3|split]].
    + intros l0 s0 [E|Hi]; [injection E as -> ->; now elim (Hv s0)|exact (I2 l0 s0 Hi)].
    + intros c [<-|Hc]; [now left|right; auto].
    + intros k Hk. eapply starts_sub; [|apply I5, Hk]. intros c Hc. now right.
Qed.
Lemma no_dollars_content lb inner q : no_text inner -> ~ In c_dollar q -> ~ starts ByDollars (inner ++ text_chunk2 lb q).
Proof.
  intros N0 Hq (l & s & Hi & Hd). apply in_app_or in Hi as [Hi|Hi]; [exact (N0 _ _ Hi)|]. destruct q as [|c q]; [destruct Hi|]. destruct Hi as [E|[]]. injection E as <- <-. now apply Hq.
Qed.
Lemma block_parts t cs leaks lb content rest : dollar_block t cs leaks lb content rest ->
  Forall leaf leaks /\ ~ starts ByDollars content /\ (forall b, starts (ByBrackets b) content -> starts (ByBrackets b) cs) /\ forall k, starts k rest -> starts k cs \/ starts ByDollars cs /\ k = ByDollars.
Proof.
  assert (X : forall b cs0 inner lb0 q, (forall c, In c inner -> In c cs0) -> starts (ByBrackets b) (inner ++ text_chunk2 lb0 q) -> starts (ByBrackets b) cs0).
  { intros b cs0 inner lb0 q Hs (l & args & Hi). apply in_app_or in Hi as [Hi|Hi]; [exists l, args; auto|]. destruct q; [destruct Hi|]. destruct Hi as [E|[]]. discriminate. }
  destruct 1 as [cs leaks inner lb p rest U _|cs leaks0 lb0 rest0 leaks1 inner1 lb1 p1 lr r cs1 leaks2 inner2 lb p rest U0 U1 U2].
  - destruct (upto_parts _ _ _ _ _ _ U) as (I1 & I2 & I3 & I4 & I5). split; [exact I1|]. split; [now apply no_dollars_content|]. split; [intros b; now apply X|]. intros k Hk. left. auto.
  - destruct (upto_parts _ _ _ _ _ _ U0) as (A1 & _ & _ & _ & A5). destruct (upto_parts _ _ _ _ _ _ U1) as (B1 & B2 & B3 & B4 & B5).
    destruct (upto_parts _ _ _ _ _ _ U2) as (C1 & C2 & C3 & C4 & C5). split; [apply Forall_app; split; [exact A1|apply Forall_app; split; assumption]|]. rewrite app_assoc.
    assert (K : forall b l args, In (mkChunk2 l (Command2 (mkCommand2 [opener b] args))) (mkChunk2 lb1 (Text2 (p1 ++ r)) :: cs1) -> starts (ByBrackets b) cs).
    { intros b l args [E|Hi]; [discriminate|]. apply A5, B5. exists l, args. right; exact Hi. }
    split; [apply no_dollars_content; [now apply no_text_app|exact C3]|]. split.
    + intros b (l & args & Hi). apply in_app_or in Hi as [Hi|Hi]; [|destruct p; [destruct Hi|destruct Hi as [E|[]]; discriminate]].
      apply in_app_or in Hi as [Hi|Hi]; [apply A5; exists l, args; auto|]. eapply K, C4, Hi.
    + intros k Hk. apply C5 in Hk. destruct k as [|b].
      * right. split; [|reflexivity]. clear - U0. induction U0 as [l p r cs Hp|l s cs leaks inner l' p rest Hs _ IH|l v cs leaks inner l' p rest Hv _ IH].
        -- exists l, (p ++ c_dollar :: r). split; [left; reflexivity|apply in_or_app; right; now left].
        -- eapply starts_sub; [|exact IH]. intros c Hc. now right.
        -- eapply starts_sub; [|exact IH]. intros c Hc. now right.
      * left. destruct Hk as (l & args & Hi). eapply K, Hi.
Qed.
Lemma moved_starts k lb a b : Forall2 (moved32 lb) a b -> starts k b -> starts k a.
Proof.
  intros H. assert (I : forall l v, In (mkChunk2 l v) b -> exists l0, In (mkChunk2 l0 v) a) by (intros l v Hi; destruct (moved32_in _ _ _ _ _ H Hi) as (l0 & A & _); eauto).
  destruct k; cbn.
  - intros (l & s & Hi & Hd). destruct (I _ _ Hi) as [l0 A]. eauto.
  - intros (l & args & Hi). destruct (I _ _ Hi) as [l0 A]. eauto.
Qed.
Lemma kept_starts t d body kept d' : nesting t d body kept d' -> ~ starts (ByBrackets t) kept.
Proof.
  induction 1 as [d|d l v body kept d' Hv _ IH|d l v body kept d' Hv Hd _ IH|d l v body kept d' Ho Hc _ IH]; try exact IH.
  - intros (l & args & []).
  - intros (l0 & args & [E|Hi]); [injection E as -> ->; apply Ho; now exists args|apply IH; exists l0, args; exact Hi].
Qed.

Definition Q1 (bl : N) (cs : list chunk2) (r : result (list chunk3)) : Prop :=
  forall out, r = Good out -> (forall ks, chain out ks -> forall k, In k ks -> starts k cs) /\ okl out.
Lemma reads_chain :
  (forall bl cs r, wreads bl cs r -> Q1 bl cs r) /\
  (forall v r, wreads_variant v r -> forall v3, r = Good v3 -> (forall m, v3 <> Maths3 m) /\ forall inner, inside3 v3 inner -> okl inner) /\
  (forall args r, wreads_args args r -> forall args3, r = Good args3 -> forall pre cs v, In (pre, mkScope3 cs v) args3 -> okl cs).
Proof.
  apply wreads_ind'.
  - intros bl out [= <-]. split; [|apply okl_nil]. intros ks C k Hk. apply chain_plain in C; [subst; destruct Hk|constructor].
  - intros bl l s cs pieces r Hs Hp _ IH out E0. apply on_good in E0 as (o & -> & ->). destruct (IH o eq_refl) as [I1 I2]. pose proof (paragraphs_leaf _ _ _ Hp) as F. split.
    + intros ks C k Hk. apply chain_app in C as [C|C]; [apply leaves_chain in C; [subst; destruct Hk|exact F]|]. eapply starts_sub; [|eapply I1; eassumption]. intros c Hc. now right.
    + apply okl_app; [now apply okl_leaves|exact I2].
  - intros bl l v cs rv r Hv _ IHv _ IH out E0. apply andthen_good in E0 as (v3 & o & -> & -> & ->). destruct (IH o eq_refl) as [I1 I2]. destruct (IHv v3 eq_refl) as [V1 V2]. split.
    + intros ks C k Hk. change (mkChunk3 l v3 :: o) with ([mkChunk3 l v3] ++ o) in C. apply chain_app in C as [C|C].
      * apply chain_plain in C; [subst; destruct Hk|]. constructor; [|constructor]. destruct v3; try exact I. now elim (V1 m).
      * eapply starts_sub; [|eapply I1; eassumption]. intros c Hc. now right.
    + change (mkChunk3 l v3 :: o) with ([mkChunk3 l v3] ++ o). apply okl_app; [now apply okl_one|exact I2].
  - intros bl t l args body kept l' args' cs rco r Hn _ IHc _ IH out E0. apply andthen_good in E0 as (co & o & -> & -> & ->).
    destruct (IHc co eq_refl) as [C1 C2]. destruct (IH o eq_refl) as [I1 I2]. change (mkChunk3 l (Maths3 (mkMaths3 Brackets t co)) :: o) with ([mkChunk3 l (Maths3 (mkMaths3 Brackets t co))] ++ o).
    pose proof (nesting_sub _ _ _ _ _ Hn) as (S1 & _). split.
    + intros ks C k Hk. apply chain_app in C as [C|C].
      * inversion C as [|? l0 v0 t0 content ks' Hi Hc']; subst; [destruct Hk|]. destruct Hi as [E|[]]. injection E as <- <- <- <-.
        destruct Hk as [<-|Hk]; [exists l, args; left; reflexivity|]. eapply starts_sub; [|eapply C1; eassumption]. intros c Hc. right. apply in_or_app. left. auto.
      * eapply starts_sub; [|eapply I1; eassumption]. intros c Hc. right. apply in_or_app. right. now right.
    + apply okl_app; [|exact I2]. apply okl_maths; [exact C2|]. intros ks C Hk. apply (kept_starts _ _ _ _ _ Hn). eapply C1; eassumption.
  - intros; discriminate.
  - intros; discriminate.
  - intros bl l u s cs t leaks lb content rest pieces content' rco r Hu Hd Hs Hm _ IHc _ IH out E0. apply andthen_good in E0 as (co & o & -> & -> & ->).
    destruct (IHc co eq_refl) as [C1 C2]. destruct (IH o eq_refl) as [I1 I2]. destruct (block_parts _ _ _ _ _ _ Hd) as (B1 & B2 & B3 & B4).
    assert (F : Forall leaf pieces). { eapply split_leaf; [exact Hs|]. apply Forall_app. split; [|exact B1]. destruct u; cbn; repeat constructor. }
    assert (D : starts ByDollars (mkChunk2 l (Text2 (u ++ c_dollar :: s)) :: cs)) by (exists l, (u ++ c_dollar :: s); split; [left; reflexivity|apply in_or_app; right; now left]).
    assert (Z : forall k, starts k (mkChunk2 (l + count_newlines u) (Text2 s) :: cs) -> starts k (mkChunk2 l (Text2 (u ++ c_dollar :: s)) :: cs)).
    { intros [|b] K; [exact D|]. destruct K as (l0 & args & [E|Hi]); [discriminate|]. exists l0, args. right; exact Hi. }
    change (pieces ++ mkChunk3 lb (Maths3 (mkMaths3 Dollars t co)) :: o) with (pieces ++ [mkChunk3 lb (Maths3 (mkMaths3 Dollars t co))] ++ o). split.
    + intros ks C k Hk. apply chain_app in C as [C|C]; [apply leaves_chain in C; [subst; destruct Hk|exact F]|]. apply chain_app in C as [C|C].
      * inversion C as [|? l0 v0 t0 ct ks' Hi Hc']; subst; [destruct Hk|]. destruct Hi as [E|[]]. injection E as <- <- <- <-.
        destruct Hk as [<-|Hk]; [exact D|]. destruct k as [|b]; [exact D|]. apply Z, B3. eapply moved_starts; [exact Hm|]. eapply C1; eassumption.
      * destruct (B4 k) as [K|[_ ->]]; [eapply I1; eassumption|exact (Z k K)|exact D].
    + apply okl_app; [now apply okl_leaves|]. apply okl_app; [|exact I2]. apply okl_maths; [exact C2|]. intros ks C Hk. apply B2. eapply moved_starts; [exact Hm|]. eapply C1; eassumption.
  - intros; discriminate.
  - intros cs v r _ IH v3 E0. apply on_good in E0 as (o & -> & ->). split; [discriminate|]. intros inner Hi. inversion Hi; subst. now apply IH.
  - intros lab args r _ IH v3 E0. apply on_good in E0 as (o & -> & ->). split; [discriminate|]. intros inner Hi. inversion Hi; subst. eapply IH; [reflexivity|eassumption].
  - intros lab args content pb pe ra rc _ IHa _ IHc v3 E0. apply andthen_good in E0 as (a & o & -> & -> & ->). split; [discriminate|].
    intros inner Hi. inversion Hi; subst; [eapply IHa; [reflexivity|eassumption]|now apply IHc].
  - intros args3 [= <-] pre cs v [].
  - intros pre cs v args r ra _ IHc _ IHa args3 E0 pr cs0 v0 Hi. apply andthen_good in E0 as (o & a & -> & -> & ->). destruct Hi as [Hi|Hi].
    + injection Hi as <- <- <-. now apply IHc.
    + eapply IHa; [reflexivity|exact Hi].
Qed.
Theorem maths_chain cs out es ks : fits cs -> maths_from_chunks Release cs = Ok out -> within3 out es -> chain es ks -> NoDup ks.
Proof. intros F H. apply (wmaths_reads cs (Good out) F) in H. exact (proj2 (proj1 reads_chain _ _ _ H out eq_refl) es ks). Qed.
Theorem document_chain d d3 : fits d -> try_from3 Release d = Ok d3 ->
  (forall sec, okl (get_section sec d3)) /\ forall pre cs v, In (pre, mkScope3 cs v) (d_body_args d3) -> okl cs.
Proof.
  intros F H. apply (wdocument_iff d (Good d3) F) in H. remember (Good d3) as R eqn:ER.
  destruct H as [pr envs trail e HP Hc|pr envs trail cls pss opts rb rp rt HP Hc Ho1 Ho2 HB Hp Ht]; [discriminate|].
  apply andthen_good in ER as (body & f & -> & E1 & ->). apply andthen_good in E1 as (pre & tr & -> & -> & ->).
  pose proof (proj2 (proj1 reads_chain _ _ _ Hp _ eq_refl)) as A1. pose proof (proj2 (proj1 reads_chain _ _ _ Ht _ eq_refl)) as A3.
  destruct body as [b|].
  - destruct (wbodies_from _ _ HB b eq_refl) as (e & He & Hr). destruct (proj1 (proj2 reads_chain) _ _ Hr b eq_refl) as [_ V].
    destruct b as [s|s|m|c|sc|[lab args content pb pe]]; cbn [document_of d_preamable d_body d_trailing d_body_args get_section]; (split; [intros []; cbn [get_section d_preamable d_body d_trailing]; try assumption; try exact okl_nil|]); try (match goal with |- okl _ => fail 1 | _ => intros ? ? ? [] end).
    + apply V. apply in3_env.
    + intros pre0 cs0 v0 Hi. apply V. eapply in3_env_arg. exact Hi.
  - cbn [document_of d_body_args]. split; [intros []; cbn [document_of get_section d_preamable d_body d_trailing]; try assumption; apply okl_nil|intros ? ? ? []].
Qed.
Lemma kinds_three (ks : list maths_kind) : NoDup ks -> (length ks <= 3)%nat.
Proof.
  intros H. assert (I : incl ks [ByDollars; ByBrackets Inline; ByBrackets Outline]) by (intros [|[]] _; cbn; tauto). exact (NoDup_incl_length H I).
Qed.
