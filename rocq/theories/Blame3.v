(** * Blame3: what an error of the conversion to stage 3 points at *)
From Verif Require Import Base Ast1 Parse1 Ast2 Ast3 SpecDoc1 SpecDoc2 SpecMaths3 SpecPar3 SpecReads SpecClass3 SpecRead3 SpecWrap SpecBlame3 Facts2 Env2 Back2 Keep2 Tok Ind Lines Refine1 Facts1 Valid2 MathsRun MathsRec Reads Doc3 Read3 ReadsW Mono.
From Coq Require Import Lia.

Lemma on_bad {A B} (f : A -> B) r e : on f r = Bad e -> r = Bad e.
Proof. destruct r; cbn; congruence. Qed.
Lemma andthen_bad {A B C} (f : A -> B -> C) r1 r2 e : andthen f r1 r2 = Bad e -> r1 = Bad e \/ r2 = Bad e.
Proof. destruct r1; cbn; [right; eapply on_bad; eassumption|left; congruence|discriminate]. Qed.
Lemma F2_in {A B} (R : A -> B -> Prop) a b : Forall2 R a b -> forall y, In y b -> exists x, In x a /\ R x y.
Proof. induction 1 as [|x y a b Hr _ IH]; intros z []; [subst; exists x; split; [now left|exact Hr]|]. destruct (IH z H) as (w & K1 & K2). exists w. split; [now right|exact K2]. Qed.

(** ** Smaller lists *)
Definition holds (cs : list chunk2) : Prop := exists l s, In (mkChunk2 l (Text2 s)) cs /\ In c_dollar s.
Definition thinner (a b : list chunk2) : Prop :=
  forall c, In c a -> In c b \/ exists l s, c = mkChunk2 l (Text2 s) /\ (In c_dollar s -> holds b).
Lemma thin_incl a b : incl a b -> thinner a b. Proof. intros H c Hc. left. now apply H. Qed.
Lemma thin_tl c cs : thinner cs (c :: cs). Proof. apply thin_incl. intros x Hx. now right. Qed.
Lemma thin_holds a b : thinner a b -> holds a -> holds b.
Proof. intros H (l & s & Hi & Hd). destruct (H _ Hi) as [K|(l' & s' & E & K)]; [now exists l, s|]. injection E as <- <-. auto. Qed.
Lemma thin_trans a b c : thinner a b -> thinner b c -> thinner a c.
Proof.
  intros H1 H2 x Hx. destruct (H1 x Hx) as [K|(l & s & -> & K)]; [now apply H2|]. right. exists l, s. split; [reflexivity|]. intros D. eapply thin_holds; eauto.
Qed.
Lemma thin_blames low a b e : thinner a b -> blames low a e -> blames low b e.
Proof.
  intros T H. destruct H as [a l t args Hi|a l t args Hi|a l s k Hi Hd Hk|a l v inner e Hi Hin H|a lb content e (l & s & Hi & Hd) Hc H].
  - destruct (T _ Hi) as [K|(? & ? & E & _)]; [|discriminate]. eapply bm_closer; eassumption.
  - destruct (T _ Hi) as [K|(? & ? & E & _)]; [|discriminate]. eapply bm_opener; eassumption.
  - destruct (thin_holds _ _ T (ex_intro _ l (ex_intro _ s (conj Hi Hd)))) as (l' & s' & Hi' & Hd'). eapply bm_dollar; [exact Hi'|exact Hd'|].
    destruct Hk as [->|(t & args & Hk)]; [now left|]. right. exists t, args. destruct (T _ Hk) as [K|(? & ? & E & _)]; [exact K|discriminate].
  - destruct (T _ Hi) as [K|(? & ? & E & _)]; [|injection E as -> ->; inversion Hin]. eapply bm_inside; eassumption.
  - apply (bm_dollars _ _ lb content); [exact (thin_holds _ _ T (ex_intro _ l (ex_intro _ s (conj Hi Hd))))| |exact H].
    intros c' Hc'. destruct (Hc c' Hc') as [K|(k & v & K1 & K2 & K3)]; [now left|]. right. exists k, v. split; [|split; assumption].
    destruct (T _ K1) as [K|(? & ? & E & _)]; [exact K|]. injection E as -> ->. exfalso; exact (K2 _ eq_refl).
Qed.
Lemma nesting_incl t d body kept d' : nesting t d body kept d' -> incl kept body.
Proof. induction 1; intros c Hc; cbn in *; auto. destruct Hc as [<-|Hc]; auto. Qed.
Lemma upto_thin cs leaks inner lb q rest : SpecReads.upto cs leaks inner lb q rest ->
  holds cs /\ thinner rest cs /\ ~ In c_dollar q /\ forall l v, In (mkChunk2 l v) inner -> In (mkChunk2 l v) cs /\ forall s, v <> Text2 s.
Proof.
  induction 1 as [l p r cs Hp|l s cs leaks inner l' p rest Hs H (I1 & I2 & I3 & I4)|l v cs leaks inner l' p rest Hv H (I1 & I2 & I3 & I4)].
  - assert (HD : holds (mkChunk2 l (Text2 (p ++ c_dollar :: r)) :: cs)) by (exists l, (p ++ c_dollar :: r); split; [now left|apply in_or_app; right; now left]).
    split; [exact HD|]. split; [|split; [exact Hp|intros ? ? []]]. intros c [<-|Hc]; [|left; now right]. right. do 2 eexists. split; [reflexivity|]. intros _. exact HD.
  - split; [eapply thin_holds; [apply thin_tl|exact I1]|]. split; [eapply thin_trans; [exact I2|apply thin_tl]|]. split; [exact I3|].
    intros k w Hi. destruct (I4 k w Hi) as [K1 K2]. split; [now right|exact K2].
  - split; [eapply thin_holds; [apply thin_tl|exact I1]|]. split; [eapply thin_trans; [exact I2|apply thin_tl]|]. split; [exact I3|].
    intros k w [E|Hi]; [injection E as <- <-; split; [now left|exact Hv]|]. destruct (I4 k w Hi) as [K1 K2]. split; [now right|exact K2].
Qed.
Lemma in_text2 l s c : In c (text_chunk2 l s) -> c = mkChunk2 l (Text2 s).
Proof. destruct s; [intros []|]. intros [<-|[]]. reflexivity. Qed.
Lemma thin_non a b l v : thinner a b -> In (mkChunk2 l v) a -> (forall s, v <> Text2 s) -> In (mkChunk2 l v) b.
Proof. intros T Hi Hv. destruct (T _ Hi) as [K|(? & ? & E & _)]; [exact K|]. injection E as -> ->. exfalso; exact (Hv _ eq_refl). Qed.
Lemma block_thin t cs leaks lb content rest : dollar_block t cs leaks lb content rest ->
  thinner rest cs /\ forall l v, In (mkChunk2 l v) content -> (exists l' s, mkChunk2 l v = mkChunk2 l' (Text2 s) /\ ~ In c_dollar s) \/ (In (mkChunk2 l v) cs /\ forall s, v <> Text2 s).
Proof.
  intros H. destruct H as [cs leaks inner lb p rest H _|cs leaks0 lb0 rest0 leaks1 inner1 lb1 p1 lr r cs1 leaks2 inner2 lb p rest H0 H1 H2].
  - destruct (upto_thin _ _ _ _ _ _ H) as (_ & U2 & U3 & U4). split; [exact U2|]. intros l v Hi. apply in_app_or in Hi as [Hi|Hi]; [right; now apply U4|].
    left. apply in_text2 in Hi. do 2 eexists. split; [exact Hi|exact U3].
  - destruct (upto_thin _ _ _ _ _ _ H0) as (A1 & A2 & _ & _). destruct (upto_thin _ _ _ _ _ _ H1) as (B1 & B2 & _ & B4). destruct (upto_thin _ _ _ _ _ _ H2) as (_ & C2 & C3 & C4).
    assert (T : thinner (mkChunk2 lb1 (Text2 (p1 ++ r)) :: cs1) cs).
    { intros c [<-|Hc]; [right; do 2 eexists; split; [reflexivity|]; intros _; exact A1|]. apply (thin_trans _ _ _ B2 A2). now right. }
    split; [eapply thin_trans; eassumption|]. intros l v Hi. apply in_app_or in Hi as [Hi|Hi]; [|apply in_app_or in Hi as [Hi|Hi]].
    + right. destruct (B4 l v Hi) as [K1 K2]. split; [exact (thin_non _ _ _ _ A2 K1 K2)|exact K2].
    + right. destruct (C4 l v Hi) as [K1 K2]. split; [exact (thin_non _ _ _ _ T K1 K2)|exact K2].
    + left. apply in_text2 in Hi. do 2 eexists. split; [exact Hi|exact C3].
Qed.

Lemma reads_blames :
  (forall bl cs r, reads bl cs r -> forall e, r = Bad e -> blames moved cs e \/ (e = mkError bl UnclosedMaths /\ holds cs)) /\
  (forall v r, reads_variant v r -> forall e, r = Bad e -> exists inner, inside v inner /\ blames moved inner e) /\
  (forall args r, reads_args args r -> forall e, r = Bad e -> exists pre inner v, In (pre, mkScope2 inner v) args /\ blames moved inner e).
Proof.
  assert (Z : forall cs e, blames moved cs e \/ (e = mkError 0 UnclosedMaths /\ holds cs) -> blames moved cs e).
  { intros cs e [K|[-> (l & s & K1 & K2)]]; [exact K|]. eapply bm_dollar; [exact K1|exact K2|now left]. }
  apply reads_ind'.
  - intros; discriminate.
  - intros bl l s cs pieces r Hs _ _ IH e E. apply on_bad in E. destruct (IH e E) as [K|[-> K]].
    + left. eapply thin_blames; [|exact K]. apply thin_tl.
    + right. split; [reflexivity|]. eapply thin_holds; [apply thin_tl|exact K].
  - intros bl l v cs rv r _ _ IHv _ IH e E. apply andthen_bad in E as [E|E].
    + left. destruct (IHv e E) as (inner & K1 & K2). eapply bm_inside; [now left|exact K1|exact K2].
    + destruct (IH e E) as [K|[-> K]].
      * left. eapply thin_blames; [|exact K]. apply thin_tl.
      * right. split; [reflexivity|]. eapply thin_holds; [apply thin_tl|exact K].
  - intros bl t l args body kept l' args' cs rco r Hn _ IHc _ IH e E. left. apply andthen_bad in E as [E|E].
    + specialize (IHc e E). apply Z in IHc. eapply thin_blames; [|exact IHc]. apply thin_incl. intros c Hc. right. apply in_or_app. left. eapply nesting_incl; eassumption.
    + assert (T : thinner cs (mkChunk2 l (Command2 (mkCommand2 [opener t] args)) :: body ++ mkChunk2 l' (Command2 (mkCommand2 [closer t] args')) :: cs)) by (apply thin_incl; intros c Hc; right; apply in_or_app; right; now right).
      destruct (IH e E) as [K|[-> K]]; [eapply thin_blames; [exact T|exact K]|]. eapply bm_opener. now left.
  - intros bl t l args body kept d _ e [= <-]. left. eapply bm_opener. now left.
  - intros bl t l args cs e [= <-]. left. eapply bm_closer. now left.
  - intros bl l u s cs t leaks lb content rest pieces content' rco r Hu Hd Hs Hm _ IHc _ IH e E.
    assert (HD : holds (mkChunk2 l (Text2 (u ++ c_dollar :: s)) :: cs)) by (exists l, (u ++ c_dollar :: s); split; [now left|apply in_or_app; right; now left]).
    destruct (block_thin _ _ _ _ _ _ Hd) as [B1 B2].
    assert (T : thinner (mkChunk2 (l + count_newlines u) (Text2 s) :: cs) (mkChunk2 l (Text2 (u ++ c_dollar :: s)) :: cs)).
    { intros c [<-|Hc]; [|left; now right]. right. do 2 eexists. split; [reflexivity|]. intros _. exact HD. }
    apply andthen_bad in E as [E|E].
    + left. specialize (IHc e E). apply Z in IHc. apply (bm_dollars _ _ lb content'); [exact HD| |exact IHc]. intros c' Hc'. destruct (F2_in _ _ _ Hm c' Hc') as ([lc vc] & Hc & M). destruct c' as [lc' vc'].
      destruct (B2 _ _ Hc) as [(a & b & E1 & E2)|[K1 K2]].
      * left. injection E1 as -> ->. destruct M as (-> & _). now do 2 eexists.
      * right. exists lc, vc. split; [|split; [exact K2|exact M]]. destruct K1 as [K1|K1]; [injection K1 as <- <-; exfalso; exact (K2 _ eq_refl)|now right].
    + destruct (IH e E) as [K|[-> K]].
      * left. eapply thin_blames; [|exact K]. eapply thin_trans; eassumption.
      * right. split; [reflexivity|exact HD].
  - intros; discriminate.
  - intros bl l u s cs Hu _ e [= <-]. right. split; [reflexivity|]. exists l, (u ++ c_dollar :: s). split; [now left|apply in_or_app; right; now left].
  - intros cs v r _ IH e E. apply on_bad in E. exists cs. split; [constructor|]. now apply Z, IH.
  - intros lab args r _ IH e E. apply on_bad in E. destruct (IH e E) as (pre & inner & v & K1 & K2). exists inner. split; [eapply in_arg; eassumption|exact K2].
  - intros lab args content pb pe ra rc _ IHa _ IHc e E. apply andthen_bad in E as [E|E].
    + destruct (IHa e E) as (pre & inner & v & K1 & K2). exists inner. split; [eapply in_env_arg; eassumption|exact K2].
    + exists content. split; [constructor|]. now apply Z, IHc.
  - intros; discriminate.
  - intros pre cs v args r ra _ IH _ IHa e E. apply andthen_bad in E as [E|E].
    + exists pre, cs, v. split; [now left|]. now apply Z, IH.
    + destruct (IHa e E) as (pre' & inner & v' & K1 & K2). exists pre', inner, v'. split; [now right|exact K2].
Qed.
Lemma reads_blames0 cs e : reads 0 cs (Bad e) -> blames moved cs e.
Proof.
  intros H. destruct (proj1 reads_blames _ _ _ H e eq_refl) as [K|[-> (l & s & K1 & K2)]]; [exact K|]. eapply bm_dollar; [exact K1|exact K2|now left].
Qed.

Lemma wreads_blames :
  (forall bl cs r, wreads bl cs r -> forall e, r = Bad e -> blames moved32 cs e \/ (e = mkError bl UnclosedMaths /\ holds cs)) /\
  (forall v r, wreads_variant v r -> forall e, r = Bad e -> exists inner, inside v inner /\ blames moved32 inner e) /\
  (forall args r, wreads_args args r -> forall e, r = Bad e -> exists pre inner v, In (pre, mkScope2 inner v) args /\ blames moved32 inner e).
Proof.
  assert (Z : forall cs e, blames moved32 cs e \/ (e = mkError 0 UnclosedMaths /\ holds cs) -> blames moved32 cs e).
  { intros cs e [K|[-> (l & s & K1 & K2)]]; [exact K|]. eapply bm_dollar; [exact K1|exact K2|now left]. }
  apply wreads_ind'.
  - intros; discriminate.
  - intros bl l s cs pieces r Hs _ _ IH e E. apply on_bad in E. destruct (IH e E) as [K|[-> K]].
    + left. eapply thin_blames; [|exact K]. apply thin_tl.
    + right. split; [reflexivity|]. eapply thin_holds; [apply thin_tl|exact K].
  - intros bl l v cs rv r _ _ IHv _ IH e E. apply andthen_bad in E as [E|E].
    + left. destruct (IHv e E) as (inner & K1 & K2). eapply bm_inside; [now left|exact K1|exact K2].
    + destruct (IH e E) as [K|[-> K]].
      * left. eapply thin_blames; [|exact K]. apply thin_tl.
      * right. split; [reflexivity|]. eapply thin_holds; [apply thin_tl|exact K].
  - intros bl t l args body kept l' args' cs rco r Hn _ IHc _ IH e E. left. apply andthen_bad in E as [E|E].
    + specialize (IHc e E). apply Z in IHc. eapply thin_blames; [|exact IHc]. apply thin_incl. intros c Hc. right. apply in_or_app. left. eapply nesting_incl; eassumption.
    + assert (T : thinner cs (mkChunk2 l (Command2 (mkCommand2 [opener t] args)) :: body ++ mkChunk2 l' (Command2 (mkCommand2 [closer t] args')) :: cs)) by (apply thin_incl; intros c Hc; right; apply in_or_app; right; now right).
      destruct (IH e E) as [K|[-> K]]; [eapply thin_blames; [exact T|exact K]|]. eapply bm_opener. now left.
  - intros bl t l args body kept d _ e [= <-]. left. eapply bm_opener. now left.
  - intros bl t l args cs e [= <-]. left. eapply bm_closer. now left.
  - intros bl l u s cs t leaks lb content rest pieces content' rco r Hu Hd Hs Hm _ IHc _ IH e E.
    assert (HD : holds (mkChunk2 l (Text2 (u ++ c_dollar :: s)) :: cs)) by (exists l, (u ++ c_dollar :: s); split; [now left|apply in_or_app; right; now left]).
    destruct (block_thin _ _ _ _ _ _ Hd) as [B1 B2].
    assert (T : thinner (mkChunk2 (l + count_newlines u) (Text2 s) :: cs) (mkChunk2 l (Text2 (u ++ c_dollar :: s)) :: cs)).
    { intros c [<-|Hc]; [|left; now right]. right. do 2 eexists. split; [reflexivity|]. intros _. exact HD. }
    apply andthen_bad in E as [E|E].
    + left. specialize (IHc e E). apply Z in IHc. apply (bm_dollars _ _ lb content'); [exact HD| |exact IHc]. intros c' Hc'. destruct (F2_in _ _ _ Hm c' Hc') as ([lc vc] & Hc & M). destruct c' as [lc' vc'].
      destruct (B2 _ _ Hc) as [(a & b & E1 & E2)|[K1 K2]].
      * left. injection E1 as -> ->. destruct M as (-> & _). now do 2 eexists.
      * right. exists lc, vc. split; [|split; [exact K2|exact M]]. destruct K1 as [K1|K1]; [injection K1 as <- <-; exfalso; exact (K2 _ eq_refl)|now right].
    + destruct (IH e E) as [K|[-> K]].
      * left. eapply thin_blames; [|exact K]. eapply thin_trans; eassumption.
      * right. split; [reflexivity|exact HD].
  - intros bl l u s cs Hu _ e [= <-]. right. split; [reflexivity|]. exists l, (u ++ c_dollar :: s). split; [now left|apply in_or_app; right; now left].
  - intros cs v r _ IH e E. apply on_bad in E. exists cs. split; [constructor|]. now apply Z, IH.
  - intros lab args r _ IH e E. apply on_bad in E. destruct (IH e E) as (pre & inner & v & K1 & K2). exists inner. split; [eapply in_arg; eassumption|exact K2].
  - intros lab args content pb pe ra rc _ IHa _ IHc e E. apply andthen_bad in E as [E|E].
    + destruct (IHa e E) as (pre & inner & v & K1 & K2). exists inner. split; [eapply in_env_arg; eassumption|exact K2].
    + exists content. split; [constructor|]. now apply Z, IHc.
  - intros; discriminate.
  - intros pre cs v args r ra _ IH _ IHa e E. apply andthen_bad in E as [E|E].
    + exists pre, cs, v. split; [now left|]. now apply Z, IH.
    + destruct (IHa e E) as (pre' & inner & v' & K1 & K2). exists pre', inner, v'. split; [now right|exact K2].
Qed.
Lemma wreads_blames0 cs e : wreads 0 cs (Bad e) -> blames moved32 cs e.
Proof.
  intros H. destruct (proj1 wreads_blames _ _ _ H e eq_refl) as [K|[-> (l & s & K1 & K2)]]; [exact K|]. eapply bm_dollar; [exact K1|exact K2|now left].
Qed.

(** ** Documents *)
Lemma divided_incl post envs trail : divided post envs trail -> incl trail post /\ forall e, In e envs -> exists l, In (mkChunk2 l (Environment2 e)) post.
Proof.
  induction 1 as [|l args content pb pe cs envs rest _ [I1 I2]|c cs envs rest _ _ [I1 I2]].
  - split; [intros c []|intros e []].
  - split; [intros c Hc; right; auto|]. intros e [<-|He]; [exists l; now left|]. destruct (I2 e He) as [k K]. exists k. now right.
  - split; [intros x [<-|Hx]; [now left|right; auto]|]. intros e He. destruct (I2 e He) as [k K]. exists k. now right.
Qed.
Lemma class_in cs l args r : class_commands cs = (l, args) :: r ->
  exists a b, cs = a ++ mkChunk2 l (Command2 (mkCommand2 (S! "documentclass") args)) :: b /\ class_commands b = r.
Proof.
  induction cs as [|[k v] cs IH]; [discriminate|]. cbn [class_commands]. destruct v as [s|[lab a]|sc|e]; try (intros H; destruct (IH H) as (x & y & -> & K); eexists (_ :: x), y; split; [reflexivity|exact K]).
  destruct (str_eqb lab (S! "documentclass")) eqn:E.
  - intros H. injection H as <- <- <-. apply Valid2.str_eqb_eq in E. subst lab. exists [], cs. now split.
  - intros H; destruct (IH H) as (x & y & -> & K); eexists (_ :: x), y; split; [reflexivity|exact K].
Qed.
Lemma declared_blames pr rest e : Forall (fun c => ~ is_document c) pr -> declared_class (class_commands pr) = inl e -> blames_class (pr ++ rest) e.
Proof.
  remember (class_commands pr) as cmds eqn:E0. symmetry in E0. revert pr E0. induction cmds as [|[l args] cmds IH]; intros pr E0 F H; [discriminate|].
  destruct (class_in _ _ _ _ E0) as (a & b & -> & Eb). cbn [declared_class] in H. apply Forall_app in F as [F1 F2]. inversion F2 as [|? ? F3 F4]; subst.
  destruct (curly_texts args) as [|x [|y z]] eqn:C.
  - specialize (IH b eq_refl F4 H). assert (F5 : Forall (fun c => ~ is_document c) (a ++ [mkChunk2 l (Command2 (mkCommand2 (S! "documentclass") args))])) by (apply Forall_app; split; [exact F1|constructor; [exact F3|constructor]]).
    destruct IH as [a0 l' args' b0 l0 args0 r x E F X|a0 l0 args0 r x y z E F X].
    + apply (bc_double _ ((a ++ [mkChunk2 l (Command2 (mkCommand2 (S! "documentclass") args))]) ++ a0) l' args' b0 l0 args0 r x); [|rewrite <- app_assoc; apply Forall_app; now split|exact X].
      rewrite <- !app_assoc. cbn [app]. do 2 f_equal. exact E.
    + apply (bc_many _ ((a ++ [mkChunk2 l (Command2 (mkCommand2 (S! "documentclass") args))]) ++ a0) l0 args0 r x y z); [|apply Forall_app; now split|exact X].
      rewrite <- !app_assoc. cbn [app]. do 2 f_equal. exact E.
  - destruct (class_commands b) as [|[l' args'] cmds'] eqn:Eb; [discriminate|]. injection H as <-. destruct (class_in _ _ _ _ Eb) as (a' & b' & -> & _).
    apply Forall_app in F4 as [F4 _]. apply (bc_double _ a l args a' l' args' (b' ++ rest) x); [|apply Forall_app; now split|exact C]. rewrite <- !app_assoc. cbn [app]. rewrite <- !app_assoc. reflexivity.
  - injection H as <-. apply (bc_many _ a l args (b ++ rest) x y z); [|exact F1|exact C]. rewrite <- app_assoc. reflexivity.
Qed.

Lemma reads_document_blames d e : reads_document d (Bad e) -> blames_class d e \/ blames moved d e.
Proof.
  intros H. remember (Bad e) as R eqn:ER. destruct H as [pr envs trail e0 HP Hc|pr envs trail cls pss opts rb rp rt HP Hc _ _ HB Hp Ht].
  - injection ER as ->. destruct HP as (post & -> & HN & _ & _). left. now apply declared_blames.
  - right. destruct HP as (post & -> & _ & _ & HD). destruct (divided_incl _ _ _ HD) as [D1 D2]. apply andthen_bad in ER as [ER|ER]; [|apply andthen_bad in ER as [ER|ER]].
    + clear - HB D2 ER. revert ER. induction HB as [|e0 envs re r He _ IH]; [discriminate|]. intros ER. apply andthen_bad in ER as [ER|ER]; [|apply IH; [intros x Hx; apply D2; now right|exact ER]].
      destruct (D2 e0 ltac:(now left)) as [l K]. destruct (proj1 (proj2 reads_blames) _ _ He e ER) as (inner & K1 & K2). eapply bm_inside; [apply in_or_app; right; exact K|exact K1|exact K2].
    + subst rp. apply reads_blames0 in Hp. eapply thin_blames; [|exact Hp]. apply thin_incl, incl_appl, incl_refl.
    + subst rt. apply reads_blames0 in Ht. eapply thin_blames; [|exact Ht]. apply thin_incl. intros c Hc'. apply in_or_app. right. now apply D1.
Qed.

Lemma wreads_document_blames d e : wreads_document d (Bad e) -> blames_class d e \/ blames moved32 d e.
Proof.
  intros H. remember (Bad e) as R eqn:ER. destruct H as [pr envs trail e0 HP Hc|pr envs trail cls pss opts rb rp rt HP Hc _ _ HB Hp Ht].
  - injection ER as ->. destruct HP as (post & -> & HN & _ & _). left. now apply declared_blames.
  - right. destruct HP as (post & -> & _ & _ & HD). destruct (divided_incl _ _ _ HD) as [D1 D2]. apply andthen_bad in ER as [ER|ER]; [|apply andthen_bad in ER as [ER|ER]].
    + clear - HB D2 ER. revert ER. induction HB as [|e0 envs re r He _ IH]; [discriminate|]. intros ER. apply andthen_bad in ER as [ER|ER]; [|apply IH; [intros x Hx; apply D2; now right|exact ER]].
      destruct (D2 e0 ltac:(now left)) as [l K]. destruct (proj1 (proj2 wreads_blames) _ _ He e ER) as (inner & K1 & K2). eapply bm_inside; [apply in_or_app; right; exact K|exact K1|exact K2].
    + subst rp. apply wreads_blames0 in Hp. eapply thin_blames; [|exact Hp]. apply thin_incl, incl_appl, incl_refl.
    + subst rt. apply wreads_blames0 in Ht. eapply thin_blames; [|exact Ht]. apply thin_incl. intros c Hc'. apply in_or_app. right. now apply D1.
Qed.

Theorem maths_blames cs e : in_range cs -> maths_from_chunks Debug cs = Err e -> blames moved cs e.
Proof. intros R H. apply reads_blames0. now apply (maths_reads_debug cs (Bad e) R). Qed.
Theorem maths_blames32 cs e : fits cs -> maths_from_chunks Release cs = Err e -> blames moved32 cs e.
Proof. intros R H. apply wreads_blames0. now apply (wmaths_reads cs (Bad e) R). Qed.
Theorem document_blames d e : in_range d -> try_from3 Debug d = Err e -> blames_class d e \/ blames moved d e.
Proof. intros R H. apply reads_document_blames. now apply (document_iff d (Bad e) R). Qed.
Theorem document_blames32 d e : fits d -> try_from3 Release d = Err e -> blames_class d e \/ blames moved32 d e.
Proof. intros R H. apply wreads_document_blames. now apply (wdocument_iff d (Bad e) R). Qed.

(** ** Kinds and lines *)
Lemma blames_kind low cs e : blames low cs e -> err_type e = UnexpectedMathsEnd \/ err_type e = UnclosedMaths.
Proof. induction 1; cbn; auto. Qed.
Lemma blames_line k cs e : blames moved cs e -> lines_to k cs -> err_line e <= k.
Proof.
  induction 1 as [cs l t args Hi|cs l t args Hi|cs l s j Hi Hd Hk|cs l v inner e Hi Hin H IH|cs lb content e _ Hc H IH]; intros L; inversion L as [? L1 L2]; subst.
  - apply (L1 _ _ Hi). discriminate.
  - apply (L1 _ _ Hi). discriminate.
  - destruct Hk as [->|(t & args & Hk)]; [cbn; lia|]. apply (L1 _ _ Hk). discriminate.
  - apply IH. eapply L2; eassumption.
  - apply IH. constructor.
    + intros l v Hi Hv. destruct (Hc _ Hi) as [(? & ? & E & _)|(l0 & v0 & K1 & K2 & (E1 & E2 & E3))]; [injection E as -> ->; exfalso; exact (Hv _ eq_refl)|]. pose proof (L1 _ _ K1 K2). lia.
    + intros l v inner Hi Hin. destruct (Hc _ Hi) as [(? & ? & E & _)|(l0 & v0 & K1 & K2 & (E1 & E2 & E3))]; [injection E as -> ->; inversion Hin|]. subst v0. eapply L2; eassumption.
Qed.
Theorem parsed_lines p s d : source_fits s -> from_str2 p s = Ok d -> lines_to (1 + count_newlines s) d.
Proof.
  intros B H. pose proof H as H0. destruct (from_str2_split p s d B H) as (d1 & H1 & _ & H2 & _).
  pose proof (try_from2_show _ _ _ H2) as Hs. pose proof (from_str1_newlines p s d1 B H1) as Hn.
  assert (Hn' : count_newlines (show2 d) = count_newlines s) by (rewrite Hs; exact Hn).
  assert (G : forall n cs, (size2 cs < n)%nat -> within2 d cs -> sub (show2 cs) (show2 d) -> lines_to (1 + count_newlines s) cs).
  { induction n as [|n IH]; intros cs Hz W S; [lia|]. constructor.
    - intros l v Hi _. apply in_split in Hi as (pre & post & E). pose proof (other_line2 p s d B H0 cs W pre _ post E) as [_ L]. cbn [line_no2] in L.
      apply sub_nl in S. replace cs with ((pre ++ [mkChunk2 l v]) ++ post) in S by (rewrite E, <- app_assoc; reflexivity). rewrite Doc3.show2_app, count_newlines_app in S. lia.
    - intros l v inner Hi Hin. pose proof (inside_size _ _ Hin) as Z. apply IH.
      + apply in_split in Hi as (pre & post & ->). rewrite size2_app, size2_cons in Hz. cbn [size_chunk2] in Hz. lia.
      + eapply inside_within; eassumption.
      + eapply sub_trans; [apply inside_show, Hin|]. eapply sub_trans; [exact (show2_in _ _ Hi)|exact S]. }
  apply (G (S (size2 d))); [lia|constructor|apply sub_refl].
Qed.
Lemma class_line k d e : blames_class d e -> lines_to k d -> err_line e <= k.
Proof.
  intros H L. inversion L as [? L1 _]; subst. destruct H as [a l' args' b l args r x -> _ _|a l args r x y z -> _ _]; cbn; (refine (L1 l (Command2 (mkCommand2 (S! "documentclass") args)) _ _); [|discriminate]).
  - apply in_or_app. right. right. apply in_or_app. right. now left.
  - apply in_or_app. right. now left.
Qed.
