(** * Again3c: the documents that maths recognition produces are of the shape that survives the way down and up *)
From Verif Require Import Base Ast1 Parse1 Ast2 Ast3 SpecDoc1 SpecDoc2 SpecUnnum SpecDoc3 SpecMaths3 SpecPar3 SpecReads SpecClass3 SpecRead3 SpecWrap SpecBack3 SpecAgain3 Ind Lines Eqb Tok Facts2 Valid2 Valid3 Env2 Par3 Maths3 Reads Read3 ReadsW Keep2 Keep3 KeepW Unnum Unnum3 Again3 Again3b.
From Coq Require Import Lia.

(** ** Dollar blocks *)
Definition dfree (s : str) : Prop := ~ In c_dollar s.
Lemma upto_facts cs leaks inner lb q rest : upto cs leaks inner lb q rest ->
  no_text inner /\ dfree q /\ (forall c, In c inner -> In c cs) /\ (forall c, In c rest -> is_text2 c = false -> In c cs) /\
  (forall l v, In (mkChunk3 l v) leaks -> exists s, v = Text3 s /\ dfree s) /\ class_commands cs = class_commands inner ++ class_commands rest.
Proof.
  induction 1 as [l q r cs Hq|l s cs leaks inner l' q rest Hs H IH|l v cs leaks inner l' q rest Hv H IH].
  - split; [intros l0 s0 []|]. split; [exact Hq|]. split; [intros c []|]. split; [intros c [<-|Hc] K; [discriminate|now right]|]. split; [intros l0 v []|]. reflexivity.
  - destruct IH as (I1 & I2 & I3 & I4 & I5 & I6). split; [exact I1|]. split; [exact I2|]. split; [intros; right; auto|]. split; [intros; right; auto|]. split; [|exact I6].
    intros l0 v Hi. apply in_app_or in Hi as [Hi|Hi]; [apply text_chunk_in in Hi as [E _]; injection E as -> ->; eauto|eauto].
  - destruct IH as (I1 & I2 & I3 & I4 & I5 & I6). split; [|split; [exact I2|split; [intros c [<-|Hc]; [now left|right; auto]|split; [intros; right; auto|split; [exact I5|]]]]].
    + intros l0 s0 [E|E]; [injection E as -> ->; now elim (Hv s0)|exact (I1 l0 s0 E)].
    + change (mkChunk2 l v :: cs) with ([mkChunk2 l v] ++ cs). change (mkChunk2 l v :: inner) with ([mkChunk2 l v] ++ inner). rewrite !class_commands_app, I6. apply app_assoc.
Qed.
Lemma text_chunk2_class l s : class_commands (text_chunk2 l s) = []. Proof. now destruct s. Qed.
Lemma block_facts t cs leaks lb content rest : dollar_block t cs leaks lb content rest ->
  (exists inner q, content = inner ++ text_chunk2 lb q /\ no_text inner /\ dfree q /\ (t = Inline -> inner <> [] \/ q <> [])) /\
  (forall c, In c content -> is_text2 c = false -> In c cs) /\ (forall c, In c rest -> is_text2 c = false -> In c cs) /\
  (forall l v, In (mkChunk3 l v) leaks -> exists s, v = Text3 s /\ dfree s) /\ class_commands cs = class_commands content ++ class_commands rest.
Proof.
  intros H. destruct H as [cs leaks inner lb q rest H Hne|cs leaks0 lb0 rest0 leaks1 inner1 lb1 p1 lr r1 cs1 leaks2 inner2 lb q rest H0 H1 H2].
  - apply upto_facts in H as (I1 & I2 & I3 & I4 & I5 & I6). split; [exists inner, q; auto|]. split; [|split; [exact I4|split; [exact I5|]]].
    + intros c Hc K. apply in_app_or in Hc as [Hc|Hc]; [auto|]. destruct q; [destruct Hc|]. destruct Hc as [<-|[]]. discriminate.
    + now rewrite class_commands_app, text_chunk2_class, app_nil_r.
  - apply upto_facts in H0 as (_ & _ & _ & I4 & I5 & I6). apply upto_facts in H1 as (J1 & _ & J3 & J4 & J5 & J6). apply upto_facts in H2 as (K1 & K2 & K3 & K4 & K5 & K6).
    assert (NT : forall c, In c inner1 -> is_text2 c = false) by (intros [l []] Hc; [elim (J1 _ _ Hc)|reflexivity|reflexivity|reflexivity]).
    assert (NT2 : forall c, In c inner2 -> is_text2 c = false) by (intros [l []] Hc; [elim (K1 _ _ Hc)|reflexivity|reflexivity|reflexivity]).
    assert (T : forall c, In c (mkChunk2 lb1 (Text2 (p1 ++ r1)) :: cs1) -> is_text2 c = false -> In c cs).
    { intros c [<-|Hc] N; [discriminate|]. apply I4; [|exact N]. apply J4; [now right|exact N]. }
    split; [exists (inner1 ++ inner2), q; rewrite <- app_assoc; split; [reflexivity|split; [now apply no_text_app|split; [exact K2|discriminate]]]|].
    split; [|split; [|split]].
    + intros c Hc N. apply in_app_or in Hc as [Hc|Hc]; [apply I4; auto|]. apply in_app_or in Hc as [Hc|Hc]; [apply T; auto|]. destruct q; [destruct Hc|]. destruct Hc as [<-|[]]. discriminate.
    + intros c Hc N. apply T; auto.
    + intros l v Hi. apply in_app_or in Hi as [Hi|Hi]; [eauto|]. apply in_app_or in Hi as [Hi|Hi]; eauto.
    + rewrite !class_commands_app, text_chunk2_class, app_nil_r, I6, J6. cbn [class_commands app]. change (class_commands (mkChunk2 lb1 (Text2 (p1 ++ r1)) :: cs1)) with (class_commands cs1) in K6.
      rewrite K6, app_assoc. assert (E : class_commands (@nil chunk2) = []) by reflexivity. now rewrite <- app_assoc, app_assoc.
Qed.
(** ** Texts *)
Lemma pieces_shaped leaks pieces : split_all leaks pieces -> (forall l v, In (mkChunk3 l v) leaks -> exists s, v = Text3 s /\ dfree s) ->
  Forall shaped pieces /\ forallb textual pieces = true.
Proof.
  assert (P : forall L s cs, paragraphs L s cs -> dfree s -> Forall shaped cs /\ forallb textual cs = true).
  { assert (C : forall L s, dfree s -> ~ has_break s -> Forall shaped (text_chunk3 L s) /\ forallb textual (text_chunk3 L s) = true).
    { intros L [|x s] D B; [split; [constructor|reflexivity]|]. split; [constructor; [constructor; [discriminate|exact D|exact B]|constructor]|reflexivity]. }
    induction 1 as [L s H|L t b rest cs Ht Hb Hr _ IH]; intros D; [now apply C|].
    assert (D1 : dfree t /\ dfree rest) by (split; intros Hi; apply D; [apply in_or_app; now left|apply in_or_app; right; apply in_or_app; now right]). destruct D1 as [D1 D2].
    destruct (IH D2) as [I1 I2]. destruct (C L t D1) as [C1 C2]; [intros (a & w & b' & -> & Hw); apply Ht; exists a, w, (b' ++ [c_newline]); split; [now rewrite <- !app_assoc|exact Hw]|].
    split; [apply Forall_app; split; [exact C1|constructor; [now constructor|exact I1]]|]. rewrite forallb_app, C2. exact I2. }
  induction 1 as [|L s pieces cs cs' Hp _ IH|c cs cs' Hv _ IH]; intros H; [split; [constructor|reflexivity]| |].
  - destruct (H L (Text3 s) (or_introl eq_refl)) as (s0 & E & D). injection E as <-. destruct (P _ _ _ Hp D) as [P1 P2]. destruct IH as [I1 I2]; [intros; eapply H; right; eassumption|].
    split; [now apply Forall_app|]. now rewrite forallb_app, P2.
  - destruct c as [l v]. destruct (H l v (or_introl eq_refl)) as (s0 & -> & _). now elim (Hv s0).
Qed.
Lemma paragraphs_nonempty l s cs : paragraphs l s cs -> s <> [] -> cs <> [].
Proof. intros H N. destruct H; [destruct s; [congruence|discriminate]|]. destruct (text_chunk3 L t); discriminate. Qed.
Lemma textual_no t c : textual c = true -> without t c = true /\ no_document c = true /\ class_args c = [].
Proof. destruct c as [l []]; try discriminate; repeat split. Qed.
Lemma textual_all t cs : forallb textual cs = true -> forallb (without t) cs = true /\ forallb no_document cs = true /\ flat_map class_args cs = [].
Proof.
  induction cs as [|c cs IH]; [repeat split|]. cbn [forallb flat_map]. intros H. apply andb_prop in H as [H1 H2]. destruct (IH H2) as (-> & -> & ->). destruct (textual_no t c H1) as (-> & -> & ->). repeat split.
Qed.

(** ** The shape of what is read *)
Definition bracket (t : maths_type) (c : chunk2) : Prop := exists l args, c = mkChunk2 l (Command2 (mkCommand2 [opener t] args)) \/ c = mkChunk2 l (Command2 (mkCommand2 [closer t] args)).
Fixpoint tlast (cs : list chunk2) : Prop :=
  match cs with
  | [] => True
  | mkChunk2 _ (Text2 s) :: r => dfree s /\ r = []
  | _ :: r => tlast r
  end.
Lemma tlast_block inner lb q : no_text inner -> dfree q -> tlast (inner ++ text_chunk2 lb q).
Proof.
  intros H D. induction inner as [|[l v] inner IH]; [destruct q; [exact I|split; [exact D|reflexivity]]|]. assert (T : tlast (inner ++ text_chunk2 lb q)) by (apply IH; intros l0 s0 Hi; apply (H l0 s0); now right).
  destruct v; cbn [app tlast]; try exact T. elim (H l s). now left.
Qed.
Lemma tlast_app body c rest : is_text2 c = false -> tlast (body ++ c :: rest) -> no_text body /\ tlast rest.
Proof.
  intros Hc. induction body as [|[l v] body IH]; cbn [app].
  - intros H. split; [intros l s []|]. destruct c as [l []]; try discriminate; exact H.
  - destruct v as [s|a|a|a]; cbn [tlast]; intros H; [destruct H as [_ H]; now destruct body| | |]; destruct (IH H) as [I1 I2]; (split; [|exact I2]); intros l0 s0 [E|Hi]; try discriminate; exact (I1 _ _ Hi).
Qed.
Definition conv (a2 : list (str * scope2)) (a3 : list (str * scope3)) : Prop := wreads_args a2 (Good a3).
Definition Sh1 (cs : list chunk2) (out : list chunk3) : Prop :=
  Forall shaped out /\
  (forall t, (forall c, In c cs -> ~ bracket t c) -> forallb (without t) out = true) /\
  (no_text cs -> forallb textless out = true) /\
  (tlast cs -> exists X T, out = X ++ T /\ forallb textless X = true /\ forallb textual T = true) /\
  ((exists c, In c cs /\ forall l, c <> mkChunk2 l (Text2 [])) -> out <> []) /\
  ((forall c, In c cs -> ~ is_document c) -> forallb no_document out = true) /\
  Forall2 conv (map snd (class_commands cs)) (flat_map class_args out).
Definition Sh2 (v : variant2) (v3 : variant3) : Prop :=
  plain v -> forall l, shaped (mkChunk3 l v3) /\ (forall t, without t (mkChunk3 l v3) = true) /\ textless (mkChunk3 l v3) = true /\
    (~ is_document (mkChunk2 l v) -> no_document (mkChunk3 l v3) = true) /\ Forall2 conv (map snd (class_commands [mkChunk2 l v])) (class_args (mkChunk3 l v3)).
Definition Sh3 (args : list (str * scope3)) : Prop := forall pre cs v c, In (pre, mkScope3 cs v) args -> In c cs -> shaped c.
Lemma wreads_text_none bl o : wreads bl [] (Good o) -> o = [].
Proof. intros H. inversion H; try reflexivity; match goal with K : _ ++ _ = [] |- _ => destruct body; discriminate K | _ => idtac end. Qed.
Lemma nesting_class t d body kept d' : nesting t d body kept d' -> class_commands kept = class_commands body /\ (forall c, In c kept -> ~ bracket t c).
Proof.
  induction 1 as [d|d l v body kept d' Hv _ [IH1 IH2]|d l v body kept d' Hv _ _ [IH1 IH2]|d l v body kept d' Ho Hc _ [IH1 IH2]].
  - split; [reflexivity|intros c []].
  - split; [|exact IH2]. destruct Hv as (args & ->). cbn [class_commands]. destruct t; cbn [opener]; change (str_eqb [_] (S! "documentclass")) with false; exact IH1.
  - split; [|exact IH2]. destruct Hv as (args & ->). cbn [class_commands]. destruct t; cbn [closer]; change (str_eqb [_] (S! "documentclass")) with false; exact IH1.
  - split; [change (mkChunk2 l v :: kept) with ([mkChunk2 l v] ++ kept); change (mkChunk2 l v :: body) with ([mkChunk2 l v] ++ body); now rewrite !class_commands_app, IH1|].
    intros c [<-|Hi]; [|now apply IH2]. intros (k & args & [E|E]); injection E as _ ->; [apply Ho|apply Hc]; now exists args.
Qed.
Lemma moved_in lb a b l' v : Forall2 (moved32 lb) a b -> In (mkChunk2 l' v) b -> exists l, In (mkChunk2 l v) a.
Proof. induction 1 as [|[l w] [k w'] a b M _ IH]; intros Hi; [destruct Hi|]. destruct M as (-> & _). destruct Hi as [E|Hi]; [injection E as _ <-; exists l; now left|]. destruct (IH Hi) as [m Hm]. exists m. now right. Qed.
Lemma moved_class lb a b : Forall2 (moved32 lb) a b -> map snd (class_commands b) = map snd (class_commands a).
Proof.
  induction 1 as [|[l w] [k w'] a b M _ IH]; [reflexivity|]. destruct M as (-> & _). destruct w as [s|[lab args]| |]; cbn [class_commands]; try exact IH. destruct (str_eqb lab _); [cbn [map snd]; now rewrite IH|exact IH].
Qed.
Lemma moved_tlast lb a b : Forall2 (moved32 lb) a b -> tlast a -> tlast b.
Proof.
  induction 1 as [|[l w] [k w'] a b M R IH]; [auto|]. destruct M as (-> & _). destruct w as [s|x|x|x]; cbn [tlast]; auto. intros [D ->]. split; [exact D|]. now inversion R.
Qed.
Lemma bracket_label t l v : bracket t (mkChunk2 l v) -> exists args, v = Command2 (mkCommand2 [opener t] args) \/ v = Command2 (mkCommand2 [closer t] args).
Proof. intros (k & args & [E|E]); injection E as _ ->; eauto. Qed.
Lemma bracket_any t l k v : bracket t (mkChunk2 l v) -> bracket t (mkChunk2 k v).
Proof. intros H. apply bracket_label in H as (args & [->| ->]); exists k, args; auto. Qed.
Lemma plain_nontext v r : wreads_variant v r -> forall s, v <> Text2 s. Proof. intros H s. inversion H; discriminate. Qed.
Lemma forallb_textual_X T : forallb textual T = true -> exists X0 T0, T = X0 ++ T0 /\ forallb textless X0 = true /\ forallb textual T0 = true.
Proof. intros H. exists [], T. auto. Qed.
Theorem wreads_shaped :
  (forall bl cs r, wreads bl cs r -> forall out, r = Good out -> Sh1 cs out) /\
  (forall v r, wreads_variant v r -> forall v3, r = Good v3 -> Sh2 v v3) /\
  (forall args r, wreads_args args r -> forall args3, r = Good args3 -> Sh3 args3).
Proof.
  apply wreads_ind'.
  - intros bl out [= <-]. split; [constructor|]. split; [reflexivity|]. split; [reflexivity|]. split; [exists [], []; repeat split|]. split; [intros (c & [] & _)|]. split; [reflexivity|constructor].
  - intros bl l s cs pieces r Hs Hp Hr IH out E0. apply on_good in E0 as (o & -> & ->). destruct (IH o eq_refl) as (I1 & I2 & I3 & I4 & I5 & I6 & I7).
    destruct (pieces_shaped [mkChunk3 l (Text3 s)] (pieces ++ [])) as [P1 P2]; [constructor; [exact Hp|constructor]|intros k v [E|[]]; injection E as _ <-; eauto|]. rewrite app_nil_r in P1, P2.
    split; [apply Forall_app; auto|]. split; [intros t H; rewrite forallb_app, (proj1 (textual_all t _ P2)); apply I2; intros c Hc; apply H; now right|].
    split; [intros H; elim (H l s); now left|]. split; [|split; [|split]].
    + intros [_ ->]. apply wreads_text_none in Hr as ->. exists [], pieces. rewrite app_nil_r. auto.
    + intros (c & [<-|Hc] & K); [|destruct pieces; [apply I5; eauto|discriminate]]. assert (N : s <> []) by (intros ->; now apply (K l)). pose proof (paragraphs_nonempty _ _ _ Hp N). destruct pieces; [congruence|discriminate].
    + intros H. rewrite forallb_app, (proj1 (proj2 (textual_all Inline _ P2))). apply I6. intros c Hc. apply H. now right.
    + cbn [class_commands]. rewrite flat_map_app, (proj2 (proj2 (textual_all Inline _ P2))). exact I7.
  - intros bl l v cs rv r Hv Wv IHv _ IH out E0. apply andthen_good in E0 as (v3 & o & -> & -> & ->). destruct (IH o eq_refl) as (I1 & I2 & I3 & I4 & I5 & I6 & I7).
    destruct (IHv v3 eq_refl Hv l) as (V1 & V2 & V3 & V4 & V5). split; [constructor; assumption|]. split; [intros t H; cbn [forallb]; rewrite V2; apply I2; intros c Hc; apply H; now right|].
    split; [intros H; cbn [forallb]; rewrite V3; apply I3; intros k s Hi; apply (H k s); now right|]. split; [|split; [discriminate|split]].
    + intros H. assert (H' : tlast cs) by (pose proof (plain_nontext _ _ Wv) as N; destruct v; [now elim (N s)|exact H|exact H|exact H]). destruct (I4 H') as (X & T & -> & HX & HT). exists (mkChunk3 l v3 :: X), T.
      split; [reflexivity|]. split; [cbn [forallb]; now rewrite V3|exact HT].
    + intros H. cbn [forallb]. rewrite V4 by (apply H; now left). apply I6. intros c Hc. apply H. now right.
    + change (mkChunk2 l v :: cs) with ([mkChunk2 l v] ++ cs). rewrite class_commands_app, map_app. cbn [flat_map]. apply Forall2_app; assumption.
  - intros bl t l args body kept l' args' cs rco r Hn _ IHc _ IH out E0. apply andthen_good in E0 as (co & o & -> & -> & ->). destruct (IH o eq_refl) as (I1 & I2 & I3 & I4 & I5 & I6 & I7).
    destruct (IHc co eq_refl) as (C1 & C2 & C3 & C4 & C5 & C6 & C7). destruct (nesting_class _ _ _ _ _ Hn) as [N1 N2]. destruct (nesting_sub _ _ _ _ _ Hn) as (N3 & _).
    assert (In1 : forall c, In c kept -> In c (mkChunk2 l (Command2 (mkCommand2 [opener t] args)) :: body ++ mkChunk2 l' (Command2 (mkCommand2 [closer t] args')) :: cs)) by (intros c Hc; right; apply in_or_app; left; auto).
    assert (In2 : forall c, In c cs -> In c (mkChunk2 l (Command2 (mkCommand2 [opener t] args)) :: body ++ mkChunk2 l' (Command2 (mkCommand2 [closer t] args')) :: cs)) by (intros c Hc; right; apply in_or_app; right; now right).
    split; [constructor; [|exact I1]; constructor; [apply C2, N2|rewrite Forall_forall in C1; exact C1]|].
    split; [|split; [|split; [|split; [discriminate|split]]]].
    + intros t' H. cbn [forallb without]. assert (D : t' <> t) by (intros ->; apply (H _ (or_introl eq_refl)); exists l, args; now left).
      replace (same_type t' t) with false by (destruct t, t'; first [reflexivity|congruence]). cbn [negb andb]. rewrite C2, I2; [reflexivity| |]; intros c Hc; apply H; auto.
    + intros H. cbn [forallb textless]. rewrite C3, I3; [reflexivity| |]; intros k s Hi; apply (H k s); auto.
    + intros H. cbn [tlast] in H. apply tlast_app in H as [Hb Hc]; [|reflexivity]. destruct (I4 Hc) as (X & T & -> & HX & HT). eexists (_ :: X), T. split; [reflexivity|]. split; [|exact HT].
      cbn [forallb textless]. rewrite C3, HX; [reflexivity|]. intros k s Hi. apply (Hb k s). auto.
    + intros H. cbn [forallb no_document]. rewrite C6, I6; [reflexivity| |]; intros c Hc; apply H; auto.
    + cbn [flat_map class_args]. replace (class_commands (mkChunk2 l (Command2 (mkCommand2 [opener t] args)) :: body ++ mkChunk2 l' (Command2 (mkCommand2 [closer t] args')) :: cs)) with (class_commands kept ++ class_commands cs).
      * rewrite map_app. apply Forall2_app; assumption.
      * rewrite N1. change (mkChunk2 l (Command2 (mkCommand2 [opener t] args)) :: body ++ mkChunk2 l' (Command2 (mkCommand2 [closer t] args')) :: cs)
          with ([mkChunk2 l (Command2 (mkCommand2 [opener t] args))] ++ body ++ [mkChunk2 l' (Command2 (mkCommand2 [closer t] args'))] ++ cs). rewrite !class_commands_app.
        destruct t; reflexivity.
  - intros; discriminate.
  - intros; discriminate.
  - intros bl l u s cs t leaks lb content rest pieces content' rco r Hu Hd Hs Hm _ IHc _ IH out E0. apply andthen_good in E0 as (co & o & -> & -> & ->).
    destruct (IH o eq_refl) as (I1 & I2 & I3 & I4 & I5 & I6 & I7). destruct (IHc co eq_refl) as (C1 & C2 & C3 & C4 & C5 & C6 & C7).
    destruct (block_facts _ _ _ _ _ _ Hd) as ((inner & q & Ec & B1 & B2 & B3) & B4 & B5 & B6 & B7).
    destruct (pieces_shaped _ _ Hs) as [P1 P2].
    { intros k v Hi. apply in_app_or in Hi as [Hi|Hi]; [apply text_chunk_in in Hi as [E _]; injection E as -> ->; eauto|eauto]. }
    assert (TL : tlast content') by (eapply moved_tlast; [exact Hm|]; rewrite Ec; now apply tlast_block). destruct (C4 TL) as (X & T & Eco & HX & HT).
    assert (InC : forall c, In c content' -> is_text2 c = false -> exists k, In (mkChunk2 k (variant_of2 c)) cs).
    { intros [k v] Hc N. destruct (moved_in _ _ _ _ _ Hm Hc) as [m Hi]. exists m. destruct (B4 _ Hi N) as [E|Hi']; [injection E as _ <-; discriminate|exact Hi']. }
    assert (InR : forall c, In c rest -> is_text2 c = false -> In c cs) by (intros c Hc N; destruct (B5 _ Hc N) as [<-|Hi]; [discriminate|exact Hi]).
    split; [|split; [|split; [|split; [|split; [|split]]]]].
    + apply Forall_app. split; [exact P1|]. constructor; [|exact I1]. rewrite Eco. apply sh_dollars; [exact HX|exact HT| |rewrite <- Eco; rewrite Forall_forall in C1; exact C1].
      intros ->. rewrite <- Eco. apply C5. destruct (B3 eq_refl) as [Hn|Hn].
      * destruct inner as [|[k v] inner]; [congruence|]. rewrite Ec in Hm. inversion Hm as [|? [k' v'] ? ? M ? E1 E2]; subst. destruct M as (-> & _). eexists. split; [now left|].
        intros m E. injection E as _ ->. apply (B1 k []). now left.
      * destruct q as [|x q]; [congruence|]. rewrite Ec in Hm. apply Forall2_app_inv_l in Hm as (c1 & c2 & _ & M & ->). inversion M as [|? [k' v'] ? ? M' ? E1 E2]; subst. destruct M' as (-> & _).
        eexists. split; [apply in_or_app; right; now left|]. intros m E. discriminate.
    + intros t' H. rewrite forallb_app, (proj1 (textual_all t' _ P2)). cbn [forallb without andb]. rewrite C2, I2; [reflexivity| |].
      * intros c Hc Hb. destruct (is_text2 c) eqn:Et; [destruct c as [k []]; try discriminate; apply bracket_label in Hb as (a & [E|E]); discriminate|]. apply (H c); [right; auto|exact Hb].
      * intros [k v] Hc Hb. destruct (is_text2 (mkChunk2 k v)) eqn:Et; [destruct v; try discriminate; apply bracket_label in Hb as (a & [E|E]); discriminate|].
        destruct (InC _ Hc Et) as [m Hi]. apply (H _ (or_intror Hi)). exact (bracket_any _ _ _ _ Hb).
    + intros H. elim (H l (u ++ c_dollar :: s)). now left.
    + intros [D _]. elim D. apply in_or_app. right. now left.
    + intros _. destruct pieces; discriminate.
    + intros H. rewrite forallb_app, (proj1 (proj2 (textual_all Inline _ P2))). cbn [forallb no_document andb]. rewrite C6, I6; [reflexivity| |].
      * intros c Hc Hb. destruct (is_text2 c) eqn:Et; [destruct Hb as (? & ? & ? & ? & ? & ->); discriminate|]. apply (H c); [right; auto|exact Hb].
      * intros [k v] Hc Hb. destruct (is_text2 (mkChunk2 k v)) eqn:Et; [destruct Hb as (? & ? & ? & ? & ? & E); injection E as _ ->; discriminate|].
        destruct (InC _ Hc Et) as [m Hi]. apply (H _ (or_intror Hi)). destruct Hb as (? & a & b & c0 & e & E). injection E as _ ->. cbn [variant_of2]. exists m, a, b, c0, e. reflexivity.
    + rewrite flat_map_app, (proj2 (proj2 (textual_all Inline _ P2))). cbn [app flat_map class_args].
      change (class_commands (mkChunk2 l (Text2 (u ++ c_dollar :: s)) :: cs)) with (class_commands (mkChunk2 (l + count_newlines u) (Text2 s) :: cs)). rewrite B7, map_app, <- (moved_class _ _ _ Hm). apply Forall2_app; assumption.
  - intros; discriminate.
  - intros cs v r _ IH v3 E0. apply on_good in E0 as (o & -> & ->). destruct (IH o eq_refl) as (I1 & _). intros _ l. split; [constructor; rewrite Forall_forall in I1; exact I1|]. repeat split; constructor.
  - intros lab args r W IH v3 E0. apply on_good in E0 as (o & -> & ->). specialize (IH o eq_refl). intros Hp l. split; [constructor; [|exact IH]|].
    + intros t. split; intros ->; [apply (proj1 (Hp t))|apply (proj2 (Hp t))]; eexists; reflexivity.
    + repeat split. cbn [class_commands class_args]. destruct (str_eqb lab _); [repeat constructor; exact W|constructor].
  - intros lab args content pb pe ra rc _ IHa _ IHc v3 E0. apply andthen_good in E0 as (a & o & -> & -> & ->). specialize (IHa a eq_refl). destruct (IHc o eq_refl) as (I1 & _). intros _ l.
    split; [constructor; [exact IHa|rewrite Forall_forall in I1; exact I1]|]. split; [reflexivity|]. split; [reflexivity|]. split; [|constructor].
    intros H. cbn [no_document]. destruct (str_eqb lab (S! "document")) eqn:E; [|reflexivity]. apply str_eqb_eq in E as ->. elim H. repeat eexists.
  - intros args3 [= <-] pre cs v c [].
  - intros pre cs v args r ra _ IHc _ IHa args3 E0 pr cs0 v0 c Hi Hc. apply andthen_good in E0 as (o & a & -> & -> & ->). destruct (IHc o eq_refl) as (I1 & _). specialize (IHa a eq_refl). destruct Hi as [Hi|Hi].
    + injection Hi as <- <- <-. rewrite Forall_forall in I1. auto.
    + eapply IHa; eassumption.
Qed.
