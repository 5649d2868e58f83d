(** * Keep3: what the conversion to stage 3 keeps of validity (C68) *)
From Verif Require Import Base Ast1 Parse1 Ast2 Ast3 SpecDoc1 SpecDoc2 SpecDoc3 Spec2 SpecMaths3 SpecPar3 SpecReads SpecClass3 SpecRead3 Lines Eqb Tok Refine1 Gram1 Facts1 Valid1 Conv2 Facts2 Valid2 Valid3 Good2 Env2 Par3 Maths3 Reads Read3 MathsBwd Keep2.
From Coq Require Import Lia.

Inductive inside3 : variant3 -> list chunk3 -> Prop :=
| in3_scope cs v : inside3 (Scope3 (mkScope3 cs v)) cs
| in3_arg lab args pre cs v : In (pre, mkScope3 cs v) args -> inside3 (Command3 (mkCommand3 lab args)) cs
| in3_env_arg lab args content pb pe pre cs v : In (pre, mkScope3 cs v) args -> inside3 (Environment3 (mkEnv3 lab args content pb pe)) cs
| in3_env lab args content pb pe : inside3 (Environment3 (mkEnv3 lab args content pb pe)) content
| in3_maths mv mt content : inside3 (Maths3 (mkMaths3 mv mt content)) content.

Section Kept.
  Context (G : char -> Prop) (L E : str -> Prop).
  Definition okv3 (v : variant3) : Prop :=
    match v with
    | Text3 s => (forall x, In x s -> G x) /\ ~ has_break s
    | ParagraphBreak3 b => forallb is_whitespace b = true /\ 2 <= count_newlines b
    | Command3 (mkCommand3 lab _) => L lab
    | Environment3 (mkEnv3 lab _ _ _ _) => E lab
    | Scope3 _ | Maths3 _ => True
    end.
  Definition all3 (d : list chunk3) : Prop := forall cs l v, within3 d cs -> In (mkChunk3 l v) cs -> okv3 v.
  Lemma within3_cases d cs : within3 d cs -> cs = d \/ exists l v inner, In (mkChunk3 l v) d /\ inside3 v inner /\ within3 inner cs.
  Proof.
    induction 1 as [|cs l inner v Hw [->|(l0 & v0 & i0 & A & B & C)] Hi|cs l lab args pre inner v Hw [->|(l0 & v0 & i0 & A & B & C)] Hi Hi2
      |cs l lab args content pb pe pre inner v Hw [->|(l0 & v0 & i0 & A & B & C)] Hi Hi2|cs l lab args content pb pe Hw [->|(l0 & v0 & i0 & A & B & C)] Hi
      |cs l mv mt content Hw [->|(l0 & v0 & i0 & A & B & C)] Hi]; [now left|right..].
    - exists l, (Scope3 (mkScope3 inner v)), inner. split; [exact Hi|]. split; constructor.
    - exists l0, v0, i0. split; [exact A|]. split; [exact B|]. eapply w3_scope; eassumption.
    - exists l, (Command3 (mkCommand3 lab args)), inner. split; [exact Hi|]. split; [econstructor; exact Hi2|constructor].
    - exists l0, v0, i0. split; [exact A|]. split; [exact B|]. eapply w3_arg; eassumption.
    - exists l, (Environment3 (mkEnv3 lab args content pb pe)), inner. split; [exact Hi|]. split; [econstructor; exact Hi2|constructor].
    - exists l0, v0, i0. split; [exact A|]. split; [exact B|]. eapply w3_env_arg; eassumption.
    - exists l, (Environment3 (mkEnv3 lab args content pb pe)), content. split; [exact Hi|]. split; constructor.
    - exists l0, v0, i0. split; [exact A|]. split; [exact B|]. eapply w3_env; eassumption.
    - exists l, (Maths3 (mkMaths3 mv mt content)), content. split; [exact Hi|]. split; constructor.
    - exists l0, v0, i0. split; [exact A|]. split; [exact B|]. eapply w3_maths; eassumption.
  Qed.
  Lemma within3_inside d l v inner cs : In (mkChunk3 l v) d -> inside3 v inner -> within3 inner cs -> within3 d cs.
  Proof.
    intros Hi Hv. induction 1.
    - destruct Hv; [eapply w3_scope|eapply w3_arg|eapply w3_env_arg|eapply w3_env|eapply w3_maths]; (apply w3_self || eassumption).
    - eapply w3_scope; eassumption.
    - eapply w3_arg; eassumption.
    - eapply w3_env_arg; eassumption.
    - eapply w3_env; eassumption.
    - eapply w3_maths; eassumption.
  Qed.
  Definition deep3 (v : variant3) : Prop := okv3 v /\ forall inner, inside3 v inner -> all3 inner.
  Lemma all3_iff d : all3 d <-> forall l v, In (mkChunk3 l v) d -> deep3 v.
  Proof.
    split.
    - intros H l v Hi. split; [eapply H; [constructor|exact Hi]|]. intros inner Hv cs l' v' Hw Hi'.
      eapply H; [|exact Hi']. eapply within3_inside; eassumption.
    - intros H cs l v Hw Hi. destruct (within3_cases d cs Hw) as [->|(l0 & v0 & i0 & A & B & C)]; [now apply (H l v)|].
      exact (proj2 (H l0 v0 A) i0 B cs l v C Hi).
  Qed.
  Lemma all3_cons l v d : all3 (mkChunk3 l v :: d) <-> deep3 v /\ all3 d.
  Proof.
    rewrite !all3_iff. split.
    - intros H. split; [apply (H l v); now left|]. intros l' v' Hi. apply (H l' v'). now right.
    - intros [A B] l' v' [Hi|Hi]; [injection Hi as <- <-; exact A|eauto].
  Qed.
  Lemma all3_nil : all3 [].
  Proof. rewrite all3_iff. intros l v []. Qed.
  Lemma all3_app a b : all3 (a ++ b) <-> all3 a /\ all3 b.
  Proof.
    induction a as [|[l v] a IH]; cbn [app]; [split; [intros H; split; [apply all3_nil|exact H]|tauto]|].
    rewrite !all3_cons, IH. tauto.
  Qed.

  Definition gtext (s : str) : Prop := forall x, In x s -> G x.
  Lemma gtext_app a b : gtext (a ++ b) <-> gtext a /\ gtext b.
  Proof. unfold gtext. split; [intros H; split; intros x Hx; apply H, in_or_app; tauto|]. intros [A B] x Hx. apply in_app_or in Hx as [Hx|Hx]; auto. Qed.
  Lemma gtext_cons c b : gtext (c :: b) <-> G c /\ gtext b.
  Proof. unfold gtext. split; [intros H; split; [|intros x Hx]; apply H; [now left|now right]|]. intros [A B] x [<-|Hx]; auto. Qed.
  (** texts with good characters, not yet split *)
  Definition raw (cs : list chunk3) : Prop := forall l v, In (mkChunk3 l v) cs -> exists s, v = Text3 s /\ gtext s.
  Lemma raw_chunk l s : gtext s -> raw (text_chunk3 l s).
  Proof. intros H l' v Hi. unfold text_chunk3 in Hi. destruct s; [destruct Hi|]. destruct Hi as [Hi|[]]. injection Hi as <- <-. eauto. Qed.
  Lemma raw_app a b : raw a -> raw b -> raw (a ++ b).
  Proof. intros A B l v Hi. apply in_app_or in Hi as [Hi|Hi]; eauto. Qed.
  Lemma raw_nil : raw []. Proof. intros l v []. Qed.
  Lemma paragraphs_ok l s cs : paragraphs l s cs -> gtext s -> all3 cs.
  Proof.
    induction 1 as [l s Hb|l t b rest cs Ht Hb Hr _ IH]; intros Hs.
    - destruct s; [apply all3_nil|]. cbn [text_chunk3]. apply all3_cons. split; [|apply all3_nil]. split; [split; assumption|]. intros i Hi. inversion Hi.
    - apply gtext_app in Hs as [Hst Hs]. apply gtext_app in Hs as [_ Hs]. apply all3_app. split.
      + destruct t as [|c t]; [apply all3_nil|]. cbn [text_chunk3]. apply all3_cons. split; [|apply all3_nil].
        split; [split; [exact Hst|]|intros i Hi; inversion Hi]. intros (a & w & r & Eq & W). apply Ht. exists a, w, (r ++ [c_newline]).
        rewrite Eq. split; [|exact W]. repeat (rewrite <- app_assoc; cbn [app]). reflexivity.
      + apply all3_cons. split; [|apply IH; exact Hs]. split; [exact (proj2 Hb)|intros i Hi; inversion Hi].
  Qed.
  Lemma split_ok cs cs' : split_all cs cs' -> raw cs -> all3 cs'.
  Proof.
    induction 1 as [|l s pieces cs cs' Hp _ IH|c cs cs' Hc _ IH]; intros R; [apply all3_nil|..].
    - apply all3_app. split.
      + destruct (R l (Text3 s) (or_introl eq_refl)) as (s' & Es & Hs). injection Es as <-. eapply paragraphs_ok; eassumption.
      + apply IH. intros l' v Hi. apply (R l' v). now right.
    - destruct c as [l v]. destruct (R l v (or_introl eq_refl)) as (s & -> & _). now destruct (Hc s).
  Qed.

  Notation A2 := (all2 gtext L E).
  Notation D2 := (deep2 gtext L E).
  Lemma A2_text l s cs : A2 (mkChunk2 l (Text2 s) :: cs) <-> gtext s /\ A2 cs.
  Proof. rewrite all2_cons. unfold deep2. cbn [okv2]. split; [tauto|]. intros [A B]. split; [|exact B]. split; [exact A|]. intros i Hi. inversion Hi. Qed.
  Lemma A2_text_chunk l s : gtext s -> A2 (text_chunk2 l s).
  Proof. intros H. unfold text_chunk2. destruct s; [apply all2_nil|]. apply A2_text. split; [exact H|apply all2_nil]. Qed.
  Lemma upto_ok cs leaks inner l p rest : upto cs leaks inner l p rest -> A2 cs -> raw leaks /\ A2 inner /\ gtext p /\ A2 rest.
  Proof.
    induction 1 as [l p r cs Hp|l s cs leaks inner l' p rest Hs _ IH|l v cs leaks inner l' p rest Hv _ IH]; intros H.
    - apply A2_text in H as [H H']. apply gtext_app in H as [H1 H2]. apply gtext_cons in H2 as [_ H2].
      split; [apply raw_nil|]. split; [apply all2_nil|]. split; [exact H1|]. apply A2_text. split; assumption.
    - apply A2_text in H as [H H']. destruct (IH H') as (A & B & C & D). split; [|auto]. apply raw_app; [now apply raw_chunk|exact A].
    - apply all2_cons in H as [H H']. destruct (IH H') as (A & B & C & D). split; [exact A|]. split; [apply all2_cons; split; assumption|auto].
  Qed.
  Lemma block_ok t cs leaks lb content rest : dollar_block t cs leaks lb content rest -> A2 cs -> raw leaks /\ A2 content /\ A2 rest.
  Proof.
    destruct 1 as [cs leaks inner lb p rest U _|cs leaks0 lb0 rest0 leaks1 inner1 lb1 p1 lr r cs1 leaks2 inner2 lb p rest U0 U1 U2]; intros H.
    - destruct (upto_ok _ _ _ _ _ _ U H) as (A & B & C & D). split; [exact A|]. split; [|exact D]. apply all2_app. split; [exact B|now apply A2_text_chunk].
    - destruct (upto_ok _ _ _ _ _ _ U0 H) as (A0 & _ & _ & D0). destruct (upto_ok _ _ _ _ _ _ U1 D0) as (A1 & B1 & C1 & D1).
      apply A2_text in D1 as [Dr D1]. assert (D1' : A2 (mkChunk2 lb1 (Text2 (p1 ++ r)) :: cs1)) by (apply A2_text; split; [apply gtext_app; split; assumption|exact D1]).
      destruct (upto_ok _ _ _ _ _ _ U2 D1') as (A' & B' & C' & D'). split; [repeat apply raw_app; assumption|]. split; [|exact D'].
      apply all2_app. split; [exact B1|]. apply all2_app. split; [exact B'|now apply A2_text_chunk].
  Qed.
  Lemma moved_ok lb a b : Forall2 (moved lb) a b -> A2 a -> A2 b.
  Proof.
    induction 1 as [|[l v] [l' v'] a b M _ IH]; intros H; [apply all2_nil|]. apply all2_cons in H as [H H']. cbn in M. destruct M as (-> & _). apply all2_cons. auto.
  Qed.
  Lemma nesting_ok t d body kept d' : nesting t d body kept d' -> A2 body -> A2 kept.
  Proof.
    induction 1 as [d|d l v body kept d' _ _ IH|d l v body kept d' _ _ _ IH|d l v body kept d' _ _ _ IH]; intros H; [apply all2_nil|..];
      apply all2_cons in H as [H H']; auto. apply all2_cons. auto.
  Qed.
  Lemma on_good {A B} (f : A -> B) r x : on f r = Good x -> exists a, r = Good a /\ x = f a.
  Proof. destruct r; cbn; try discriminate. intros [= <-]. eauto. Qed.
  Lemma andthen_good {A B C} (f : A -> B -> C) r1 r2 x : andthen f r1 r2 = Good x -> exists a b, r1 = Good a /\ r2 = Good b /\ x = f a b.
  Proof. destruct r1; cbn; try discriminate. intros H. apply on_good in H as (b & -> & ->). eauto. Qed.
  Lemma reads_ok :
    (forall bl cs r, reads bl cs r -> forall out, r = Good out -> A2 cs -> all3 out) /\
    (forall v r, reads_variant v r -> forall v3, r = Good v3 -> D2 v -> deep3 v3) /\
    (forall args r, reads_args args r -> forall args3, r = Good args3 -> (forall pre cs v, In (pre, mkScope2 cs v) args -> A2 cs) ->
       forall pre cs v, In (pre, mkScope3 cs v) args3 -> all3 cs).
  Proof.
    apply reads_ind'.
    - intros bl out [= <-] _. apply all3_nil.
    - intros bl l s cs pieces r Hs Hp _ IH out E0 H. apply on_good in E0 as (o & -> & ->). apply A2_text in H as [H H']. apply all3_app.
      split; [eapply paragraphs_ok; eassumption|auto].
    - intros bl l v cs rv r Hv _ IHv _ IH out E0 H. apply andthen_good in E0 as (v3 & o & -> & -> & ->). apply all2_cons in H as [H H']. apply all3_cons. auto.
    - intros bl t l args body kept l' args' cs rco r Hn _ IHc _ IH out E0 H. apply andthen_good in E0 as (co & o & -> & -> & ->).
      apply all2_cons in H as [_ H]. apply all2_app in H as [Hb H]. apply all2_cons in H as [_ H]. apply all3_cons. split; [|auto].
      split; [exact I|]. intros i Hi. inversion Hi; subst. apply IHc; [reflexivity|]. eapply nesting_ok; eassumption.
    - intros; discriminate.
    - intros; discriminate.
    - intros bl l u s cs t leaks lb content rest pieces content' rco r Hu Hd Hs Hm _ IHc _ IH out E0 H. apply andthen_good in E0 as (co & o & -> & -> & ->).
      apply A2_text in H as [H H']. apply gtext_app in H as [H1 H2]. apply gtext_cons in H2 as [_ H2].
      destruct (block_ok _ _ _ _ _ _ Hd) as (R & C & D); [apply A2_text; split; assumption|].
      apply all3_app. split; [eapply split_ok; [eassumption|]; apply raw_app; [now apply raw_chunk|exact R]|]. apply all3_cons. split; [|auto].
      split; [exact I|]. intros i Hi. inversion Hi; subst. apply IHc; [reflexivity|]. eapply moved_ok; eassumption.
    - intros; discriminate.
    - intros; discriminate.
    - intros cs v r _ IH v3 E0 [_ H]. apply on_good in E0 as (o & -> & ->). split; [exact I|]. intros i Hi. inversion Hi; subst. apply IH; [reflexivity|]. apply H. constructor.
    - intros lab args r _ IH v3 E0 [H0 H]. apply on_good in E0 as (o & -> & ->). split; [exact H0|]. intros i Hi. inversion Hi; subst.
      eapply IH; [reflexivity| |eassumption]. intros pr cs0 v0 Ha. apply H. econstructor; exact Ha.
    - intros lab args content pb pe ra rc _ IHa _ IHc v3 E0 [H0 H]. apply andthen_good in E0 as (a & o & -> & -> & ->). split; [exact H0|].
      intros i Hi. inversion Hi; subst.
      + eapply IHa; [reflexivity| |eassumption]. intros pr cs0 v0 Ha. apply H. econstructor; exact Ha.
      + apply IHc; [reflexivity|]. apply H. constructor.
    - intros args3 [= <-] _ pre cs v [].
    - intros pre cs v args r ra _ IHc _ IHa args3 E0 H pr cs0 v0 Hi. apply andthen_good in E0 as (o & a & -> & -> & ->). destruct Hi as [Hi|Hi].
      + injection Hi as <- <- <-. apply IHc; [reflexivity|]. eapply H. now left.
      + eapply IHa; [reflexivity| |exact Hi]. intros pr1 cs1 v1 Ha. eapply H. right. exact Ha.
  Qed.
  Lemma divided_ok post envs trail : divided post envs trail -> A2 post -> A2 trail /\ forall e, In e envs -> D2 (Environment2 e).
  Proof.
    induction 1 as [|l args content pb pe cs envs rest _ IH|[l v] cs envs rest _ _ IH]; intros H; [split; [exact H|intros e []]|..];
      apply all2_cons in H as [H H']; destruct (IH H') as [A B].
    - split; [exact A|]. intros e [<-|He]; auto.
    - split; [apply all2_cons; auto|exact B].
  Qed.
  Lemma bodies_ok envs rb : reads_bodies envs rb -> forall b, rb = Good (Some b) -> (forall e, In e envs -> D2 (Environment2 e)) -> deep3 b.
  Proof.
    induction 1 as [|e envs re r He _ IH]; intros b E0 H; [discriminate|]. apply andthen_good in E0 as (v & o & -> & -> & E1). destruct o as [x|].
    - injection E1 as ->. apply IH; [reflexivity|]. intros e' He'. apply H. now right.
    - injection E1 as ->. eapply (proj1 (proj2 reads_ok)); [exact He|reflexivity|]. apply H. now left.
  Qed.
  Theorem document_ok d d3 : reads_document d (Good d3) -> A2 d ->
    all3 (d_preamable d3) /\ all3 (d_body d3) /\ all3 (d_trailing d3).
  Proof.
    intros H K. remember (Good d3) as R eqn:ER. destruct H as [pr envs trail e HP Hc|pr envs trail cls pss opts rb rp rt HP Hc Ho1 Ho2 HB Hp Ht]; [discriminate|].
    apply andthen_good in ER as (body & f & -> & E1 & ->). apply andthen_good in E1 as (pre & tr & -> & -> & ->).
    destruct HP as (post & -> & HF & _ & HD). apply all2_app in K as [K1 K2]. destruct (divided_ok _ _ _ HD K2) as [K3 K4].
    pose proof (proj1 reads_ok _ _ _ Hp _ eq_refl K1) as A1. pose proof (proj1 reads_ok _ _ _ Ht _ eq_refl K3) as A3.
    destruct body as [b|]; cbn [document_of d_preamable d_body d_trailing]; [|repeat split; try assumption; apply all3_nil].
    pose proof (bodies_ok _ _ HB b eq_refl K4) as A0.
    destruct b as [s|s|m|c|sc|[lab args content pb pe]]; cbn [d_preamable d_body d_trailing]; repeat split; try assumption; try apply all3_nil.
    apply (proj2 A0). constructor.
  Qed.
End Kept.

Lemma all3_clean d : all3 (fun x => special x = false) fit_label no_specials d <-> forall cs, within3 d cs -> Forall clean3 cs.
Proof.
  assert (X : forall s, (forall x, In x s -> special x = false) <-> existsb special s = false).
  { intros s. split.
    - intros H. apply not_true_iff_false. intros X. apply existsb_exists in X as (x & Hx & Ex). rewrite (H x Hx) in Ex. discriminate.
    - intros H x Hx. destruct (special x) eqn:Ex; [|reflexivity]. rewrite (proj2 (existsb_exists special s)) in H; [discriminate|eauto]. }
  split.
  - intros H cs Hw. apply Forall_forall. intros [l v] Hi. specialize (H cs l v Hw Hi).
    destruct v as [s|b|m|[lab args]|sc|[lab args content pb pe]]; cbn in *; try exact H. rewrite <- X. exact H.
  - intros H cs l v Hw Hi. specialize (H cs Hw). rewrite Forall_forall in H. specialize (H _ Hi).
    destruct v as [s|b|m|[lab args]|sc|[lab args content pb pe]]; cbn in *; try exact H. rewrite X. exact H.
Qed.

(** ** The number of newlines of the sections *)
Definition env_content2 (e : environment2) : list chunk2 := match e with mkEnv2 _ _ content _ _ => content end.
Definition nl2 (d : list chunk2) : N := count_newlines (show2 d).
Lemma nl2_app a b : nl2 (a ++ b) = nl2 a + nl2 b.
Proof. unfold nl2. now rewrite show2_app, count_newlines_app. Qed.
Lemma nl2_cons c b : nl2 (c :: b) = count_newlines (show_chunk2 c) + nl2 b.
Proof. unfold nl2. now rewrite show2_cons, count_newlines_app. Qed.
Lemma divided_nl post envs trail : divided post envs trail -> nl2 trail <= nl2 post /\
  (length (show2 trail) <= length (show2 post))%nat /\
  forall e, In e envs -> nl2 (env_content2 e) <= nl2 post /\ (length (show2 (env_content2 e)) <= length (show2 post))%nat.
Proof.
  induction 1 as [|l args content pb pe cs envs rest _ (IH1 & IH2 & IH3)|c cs envs rest _ _ (IH1 & IH2 & IH3)].
  - split; [lia|]. split; [lia|]. intros e [].
  - rewrite nl2_cons, show2_cons, app_length. split; [lia|]. split; [lia|]. intros e [<-|He]; [|destruct (IH3 e He); lia].
    cbn [env_content2 show_chunk2 show_variant2 show_env2]. fold (show2 content). unfold nl2. repeat rewrite ?app_length, ?count_newlines_app. cbn [app length]. repeat rewrite ?app_length, ?count_newlines_app. lia.
  - rewrite !nl2_cons, !show2_cons, !app_length. split; [lia|]. split; [lia|]. intros e He. destruct (IH3 e He). lia.
Qed.
Lemma bodies_from envs rb : reads_bodies envs rb -> forall b, rb = Good (Some b) -> exists e, In e envs /\ reads_variant (Environment2 e) (Good b).
Proof.
  induction 1 as [|e envs re r He _ IH]; intros b E0; [discriminate|]. apply andthen_good in E0 as (v & o & -> & -> & E1). destruct o as [x|].
  - injection E1 as ->. destruct (IH x eq_refl) as (e' & I & R). exists e'. split; [now right|exact R].
  - injection E1 as ->. exists e. split; [now left|exact He].
Qed.
Lemma reads_length cs out : in_range cs -> nl2 cs < 2147483648 -> reads 0 cs (Good out) -> (length (show_chunks3 out) <= length (show2 cs))%nat.
Proof. intros R B H. apply (maths_reads_debug cs (Good out) R) in H. eapply maths_not_longer; [exact B|exact H]. Qed.
Theorem document_lengths d d3 : in_range d -> nl2 d < 2147483648 -> reads_document d (Good d3) ->
  forall s, (length (show_chunks3 (get_section s d3)) <= length (show2 d))%nat.
Proof.
  intros R B H s. remember (Good d3) as G eqn:ER. destruct H as [pr envs trail e HP Hc|pr envs trail cls pss opts rb rp rt HP Hc Ho1 Ho2 HB Hp Ht]; [discriminate|].
  apply andthen_good in ER as (body & f & -> & E1 & ->). apply andthen_good in E1 as (pre & tr & -> & -> & ->).
  destruct (parts_range _ _ _ _ HP R) as (R1 & R2 & R3). destruct HP as (post & -> & HF & _ & HD).
  destruct (divided_nl _ _ _ HD) as (N1 & N2 & N3). rewrite nl2_app in B. rewrite show2_app, app_length.
  pose proof (reads_length pr pre R1 ltac:(lia) Hp). pose proof (reads_length trail tr R2 ltac:(lia) Ht).
  assert (Z : (length (show_chunks3 []) = 0)%nat) by reflexivity.
  destruct body as [b|]; [|destruct s; cbn [document_of get_section d_preamable d_body d_trailing]; lia].
  destruct (bodies_from _ _ HB b eq_refl) as (e & He & Hr). destruct (N3 e He) as [M1 M2].
  remember (Good b) as Gb eqn:Eb. inversion Hr as [|?|lab args content pb pe ra rc Ha Hcn Eq]; subst e.
  rewrite <- H2 in Eb. apply andthen_good in Eb as (a & o & -> & -> & ->). cbn [env_content2] in M1, M2.
  pose proof (reads_length content o (R3 _ He content ltac:(constructor)) ltac:(lia) Hcn).
  destruct s; cbn [document_of get_section d_preamable d_body d_trailing]; lia.
Qed.

Definition fits2 (d : list chunk2) : Prop := N.of_nat (length (show2 d)) + 1 < two32.
Lemma sections_wf p d d3 : in_range d -> nl2 d < 2147483648 -> fits2 d -> reads_document d (Good d3) ->
  (validate3 p d3 = Ok tt <-> well_formed3 d3).
Proof.
  intros R B F H. unfold fits2 in F.
  assert (Z : forall s, 1 + count_newlines (show_chunks3 (get_section s d3)) < two32).
  { intros s. pose proof (document_lengths d d3 R B H s). pose proof (count_newlines_le (show_chunks3 (get_section s d3))). lia. }
  apply validate3_iff; [exact (Z Preamable)|exact (Z Body)|exact (Z Trailing)].
Qed.
Definition lines_add_up_sections (d3 : document3) : Prop := forall s, lines_add_up3 (get_section s d3).
Lemma wf_split d3 : well_formed3 d3 <-> (forall s, lines_add_up3 (get_section s d3)) /\
  forall s, all3 (fun x => special x = false) fit_label no_specials (get_section s d3).
Proof.
  rewrite <- wf_sections_iff. unfold wf_sections, well_formed_vec3. split.
  - intros H. split; intros s; [apply H|]. apply all3_clean. apply H.
  - intros [A B] s. split; [apply A|]. apply all3_clean. apply B.
Qed.
Theorem valid_validate3 p d d3 : in_range d -> nl2 d < 2147483648 -> fits2 d ->
  (forall cs, within2 d cs -> Forall clean2 cs) -> try_from3 Debug d = Ok d3 ->
  (validate3 p d3 = Ok tt <-> forall s, lines_add_up3 (get_section s d3)).
Proof.
  intros R B F C H. apply (document_iff d (Good d3) R) in H. rewrite (sections_wf p d d3 R B F H), wf_split.
  split; [tauto|]. intros A. split; [exact A|]. apply all2_clean in C.
  assert (C' : all2 (gtext (fun x => special x = false)) fit_label no_specials d).
  { eapply deep2_imp; [|exact (fun s h => h)|exact (fun s h => h)|exact C]. intros s Hs x Hx. destruct (special x) eqn:Ex; [|reflexivity].
    unfold no_specials in Hs. rewrite (proj2 (existsb_exists special s)) in Hs; [discriminate|eauto]. }
  destruct (document_ok _ _ _ _ _ H C') as (A1 & A2 & A3). intros []; assumption.
Qed.
Theorem parsed_validate3 p s d3 : source_fits s -> count_newlines s < 2147483648 -> from_str3 Debug s = Ok d3 ->
  (validate3 p d3 = Ok tt <->
   (forall sec, lines_add_up3 (get_section sec d3)) /\
   (forall sec cs l t, within3 (get_section sec d3) cs -> In (mkChunk3 l (Text3 t)) cs -> existsb is_closing t = false) /\
   (forall sec cs l lab args body pb pe, within3 (get_section sec d3) cs -> In (mkChunk3 l (Environment3 (mkEnv3 lab args body pb pe))) cs ->
      existsb special lab = false)).
Proof.
  intros B Bn H. unfold from_str3 in H. destruct (from_str2 Debug s) as [d2|e| |] eqn:E2; cbn [bind] in H; try discriminate.
  pose proof (parsed_in_range Debug s d2 B Bn E2) as R. pose proof (parsed_all2 Debug s d2 B E2) as K.
  destruct (from_str2_split Debug s d2 B E2) as (d1 & H1 & _ & H2 & _). pose proof (from_str1_newlines Debug s d1 B H1) as Hn. unfold nls in Hn.
  pose proof (Facts1.degrades_length _ _ (from_str1_degrades Debug s d1 B H1)) as Dl. rewrite <- (try_from2_show _ _ _ H2) in Hn, Dl.
  apply (document_iff d2 (Good d3) R) in H. unfold source_fits in B.
  rewrite (sections_wf p d2 d3 R ltac:(unfold nl2; lia) ltac:(unfold fits2; lia) H), wf_split. apply and_iff_compat_l.
  assert (K' : all2 (gtext (fun x => special x = true -> is_closing x = true)) fit_label (fun _ => True) d2) by exact K.
  assert (A : forall sec, all3 (fun x => special x = true -> is_closing x = true) fit_label (fun _ => True) (get_section sec d3)).
  { destruct (document_ok _ _ _ _ _ H K') as (A1 & A2 & A3). intros []; assumption. }
  assert (X : forall t, (forall x, In x t -> special x = false) <-> no_specials t).
  { intros t. unfold no_specials. split.
    - intros Y. apply not_true_iff_false. intros X. apply existsb_exists in X as (x & Hx & Ex). rewrite (Y x Hx) in Ex. discriminate.
    - intros Y x Hx. destruct (special x) eqn:Ex; [|reflexivity]. rewrite (proj2 (existsb_exists special t)) in Y; [discriminate|eauto]. }
  split.
  - intros C. split.
    + intros sec cs l t W I. apply only_closing_clean; [exact (proj1 (A sec cs l _ W I))|]. apply X. exact (proj1 (C sec cs l _ W I)).
    + intros sec cs l lab args body pb pe W I. exact (C sec cs l _ W I).
  - intros [C1 C2] sec cs l v W I. specialize (A sec cs l v W I). destruct v as [t|b|m|[lab args]|sc|[lab args content pb pe]]; cbn in *; try exact A.
    + destruct A as [A1 A2]. split; [|exact A2]. apply X. apply only_closing_clean; [exact A1|exact (C1 sec cs l t W I)].
    + eapply C2; eassumption.
Qed.

(** ** The trailing part *)
Definition low2 (L : N) (cs : list chunk2) : Prop := Forall (fun c => L <= line_no2 c) cs.
Definition low3 (L : N) (cs : list chunk3) : Prop := Forall (fun c => L <= line_no3 c) cs.
Lemma low_text L l s : L <= l -> low3 L (text_chunk3 l s).
Proof. intros H. destruct s; [constructor|]. constructor; [exact H|constructor]. Qed.
Lemma paragraphs_low l s cs : paragraphs l s cs -> forall L, L <= l -> low3 L cs.
Proof.
  induction 1 as [l s Hb|l t b rest cs Ht Hb Hr _ IH]; intros L HL; [now apply low_text|].
  apply Forall_app. split; [now apply low_text|]. constructor; [|apply IH; lia].
  cbn [line_no3]. unfold break_line. destruct (_ =? _); lia.
Qed.
Lemma split_low cs cs' : split_all cs cs' -> forall L, low3 L cs -> low3 L cs'.
Proof.
  induction 1 as [|l s pieces cs cs' Hp _ IH|c cs cs' Hc _ IH]; intros L H; [constructor|..]; inversion H; subst.
  - apply Forall_app. split; [eapply paragraphs_low; eassumption|apply IH; assumption].
  - constructor; [assumption|apply IH; assumption].
Qed.
Lemma upto_low cs leaks inner l p rest : upto cs leaks inner l p rest -> forall L, low2 L cs -> low3 L leaks /\ L <= l /\ low2 L rest.
Proof.
  induction 1 as [l p r cs Hp|l s cs leaks inner l' p rest Hs _ IH|l v cs leaks inner l' p rest Hv _ IH]; intros L H; inversion H; subst; cbn [line_no2] in *.
  - split; [constructor|]. split; [assumption|]. constructor; [cbn [line_no2]; lia|assumption].
  - destruct (IH L) as (A & B & C); [assumption|]. split; [|auto]. apply Forall_app. split; [now apply low_text|exact A].
  - apply IH. assumption.
Qed.
Lemma block_low t cs leaks lb content rest : dollar_block t cs leaks lb content rest -> forall L, low2 L cs -> low3 L leaks /\ L <= lb /\ low2 L rest.
Proof.
  destruct 1 as [cs leaks inner lb p rest U _|cs leaks0 lb0 rest0 leaks1 inner1 lb1 p1 lr r cs1 leaks2 inner2 lb p rest U0 U1 U2]; intros L H.
  - exact (upto_low _ _ _ _ _ _ U L H).
  - destruct (upto_low _ _ _ _ _ _ U0 L H) as (A0 & _ & H1). destruct (upto_low _ _ _ _ _ _ U1 L H1) as (A1 & B1 & H2). inversion H2; subst.
    destruct (upto_low _ _ _ _ _ _ U2 L) as (A2 & B2 & HH); [constructor; assumption|]. split; [|auto]. apply Forall_app. split; [exact A0|]. apply Forall_app. auto.
Qed.
Lemma reads_low bl cs r : reads bl cs r -> forall out L, r = Good out -> low2 L cs -> low3 L out.
Proof.
  induction 1 as [bl|bl l s cs pieces r Hs Hp _ IH|bl l v cs rv r Hv Hr _ IH|bl t l args body kept l' args' cs rco r Hn Hc _ _ IH| | 
    |bl l u s cs t leaks lb content rest pieces content' rco r Hu Hd Hs Hm Hc _ _ IH| | ]; intros out L E0 K; try discriminate.
  - injection E0 as <-. constructor.
  - apply on_good in E0 as (o & -> & ->). inversion K as [|? ? K1 K2]; subst. apply Forall_app. split; [eapply paragraphs_low; eassumption|eapply IH; [reflexivity|assumption]].
  - apply andthen_good in E0 as (a & o & -> & -> & ->). inversion K as [|? ? K1 K2]; subst. constructor; [assumption|eapply IH; [reflexivity|assumption]].
  - apply andthen_good in E0 as (a & o & -> & -> & ->). inversion K as [|? ? K1 K2]; subst. apply Forall_app in K2 as [_ K2]. inversion K2 as [|? ? K3 K4]; subst. constructor; [assumption|eapply IH; [reflexivity|assumption]].
  - apply andthen_good in E0 as (a & o & -> & -> & ->). inversion K as [|? ? K1 K2]; subst. cbn [line_no2] in *.
    destruct (block_low _ _ _ _ _ _ Hd L) as (A & B & C); [constructor; [cbn [line_no2]; lia|assumption]|].
    apply Forall_app. split; [eapply split_low; [eassumption|]; apply Forall_app; split; [now apply low_text|exact A]|]. constructor; [exact B|eapply IH; [reflexivity|assumption]].
Qed.
Lemma divided_sub post envs trail : divided post envs trail -> forall c, In c trail -> In c post.
Proof. induction 1; intros x Hx; [exact Hx|right; auto|]. destruct Hx as [->|Hx]; [now left|right; auto]. Qed.
Lemma parts_head pr envs trail c pre post : parts (pre ++ c :: post) pr envs trail -> is_document c -> Forall (fun c => ~ is_document c) pre ->
  pr = pre /\ exists envs', divided (c :: post) envs' trail.
Proof.
  intros (post' & Eq & F & Hh & D) Hc Fp.
  assert (pre = pr /\ c :: post = post') as [<- <-].
  { clear D. revert pr Eq F. induction pre as [|x pre IH]; intros pr Eq F.
    - destruct pr as [|y pr]; [auto|]. injection Eq as <- _. inversion F; subst. contradiction.
    - destruct pr as [|y pr]; [cbn [app] in Eq; subst post'; inversion Fp; subst; destruct (H1 (Hh x _ eq_refl))|].
      injection Eq as <- Eq. inversion F; inversion Fp; subst. destruct (IH ltac:(assumption) pr Eq ltac:(assumption)) as [<- <-]. auto. }
  split; [reflexivity|]. exists envs. exact D.
Qed.
Theorem trailing_line p s pre c post d3 : source_fits s -> count_newlines s < 2147483648 ->
  from_str2 Debug s = Ok (pre ++ c :: post) -> is_document c -> Forall (fun c => ~ is_document c) pre ->
  from_str3 Debug s = Ok d3 -> d_trailing d3 <> [] -> validate3 p d3 = Ok tt ->
  count_newlines (show2 (pre ++ [c])) = 0.
Proof.
  intros B Bn E2 Hc Fp H3 Ht V. apply (parsed_validate3 p s d3 B Bn H3) in V as [VL _]. specialize (VL Trailing). cbn [get_section] in VL.
  unfold from_str3 in H3. rewrite E2 in H3. cbn [bind] in H3.
  pose proof (parsed_in_range Debug s _ B Bn E2) as R. apply (document_iff _ (Good d3) R) in H3.
  remember (Good d3) as G eqn:ER. destruct H3 as [pr envs trail e HP Hcl|pr envs trail cls pss opts rb rp rt HP Hcl Ho1 Ho2 HB Hp Htr]; [discriminate|].
  apply andthen_good in ER as (body & f & -> & E1 & ->). apply andthen_good in E1 as (pr3 & tr & -> & -> & ->).
  assert (Et : d_trailing (document_of cls opts body pr3 tr) = tr) by (destruct body as [[| | | | |[]]|]; reflexivity).
  rewrite Et in *. destruct (parts_head _ _ _ _ _ _ HP Hc Fp) as (-> & envs' & D).
  assert (Lw : low2 (1 + count_newlines (show2 (pre ++ [c]))) trail).
  { destruct c as [lc vc]. inversion D as [|l args content pb pe cs en rest D' |x cs en rest Hx D']; subst; [|contradiction].
    apply Forall_forall. intros x Hx. apply (divided_sub _ _ _ D') in Hx. apply in_split in Hx as (a & b & ->).
    pose proof (other_line2 Debug s _ B E2 _ (w2_self _) (pre ++ mkChunk2 lc (Environment2 (mkEnv2 (S! "document") args content pb pe)) :: a) x b) as Z.
    rewrite <- app_assoc in Z. specialize (Z eq_refl). destruct Z as [Z _].
    change (mkChunk2 lc (Environment2 (mkEnv2 (S! "document") args content pb pe)) :: a) with ([mkChunk2 lc (Environment2 (mkEnv2 (S! "document") args content pb pe))] ++ a) in Z.
    rewrite app_assoc, (show2_app _ a), count_newlines_app in Z. lia. }
  pose proof (reads_low _ _ _ Htr tr _ eq_refl Lw) as L3. destruct tr as [|x tr]; [congruence|]. inversion L3; subst.
  specialize (VL [] x tr eq_refl). change (count_newlines (show_chunks3 [])) with 0 in VL. lia.
Qed.
