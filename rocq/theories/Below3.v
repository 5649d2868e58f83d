(** * Below3: conversion to stage 3 further down in a file (C72) *)
From Verif Require Import Base Ast1 Parse1 Ast2 Ast3 SpecDoc1 SpecDoc2 SpecDoc3 Spec2 SpecMaths3 SpecPar3 SpecReads SpecClass3 SpecRead3 SpecWrap SpecConcat SpecBelow3 Lines Tok Refine1 Facts1 Facts2 Env2 Par3 Maths3 MathsRun Mono MathsRec Dollars Reads Class3 Options3 Doc3 Read3 Keep3 ReadsW KeepW Concat2.
From Coq Require Import Lia.

Section K.
Context (k : N).
Notation dn2 := (map (below2 k)).
Notation dn3 := (map (below3 k)).

Lemma dn_text l s : dn3 (text_chunk3 l s) = text_chunk3 (l + k) s. Proof. now destruct s. Qed.
Lemma dn_text2 l s : dn2 (text_chunk2 l s) = text_chunk2 (l + k) s. Proof. now destruct s. Qed.
Lemma dn_break l b : break_line l b + k = break_line (l + k) b. Proof. unfold break_line. destruct (_ =? _); lia. Qed.
Lemma dn_paragraphs l s cs : paragraphs l s cs -> paragraphs (l + k) s (dn3 cs).
Proof.
  induction 1 as [l s Hb|l t b rest cs Ht Hb Hr _ IH]; [rewrite dn_text; now constructor|].
  rewrite map_app. cbn [map below3 below_variant3]. rewrite dn_text, dn_break. replace (l + count_newlines t + k) with (l + k + count_newlines t) by lia. constructor; [assumption..|].
  replace (l + k + count_newlines t + count_newlines b) with (l + count_newlines t + count_newlines b + k) by lia. exact IH.
Qed.
Lemma below_text c s : variant_of3 (below3 k c) = Text3 s -> variant_of3 c = Text3 s.
Proof. destruct c as [l v]. cbn. destruct v as [| |m| | |]; cbn; try congruence. Qed.
Lemma dn_split a b : split_all a b -> split_all (dn3 a) (dn3 b).
Proof.
  induction 1 as [|l s pieces cs cs' Hp _ IH|c cs cs' Hc _ IH]; cbn [map].
  - constructor.
  - rewrite map_app. cbn [below3 below_variant3]. constructor; [now apply dn_paragraphs|exact IH].
  - constructor; [|exact IH]. intros s K. apply below_text in K. exact (Hc s K).
Qed.
Lemma dn_nesting t d body kept d' : nesting t d body kept d' -> nesting t d (dn2 body) (dn2 kept) d'.
Proof. induction 1; cbn [map below2]; [apply ne_nil|apply ne_open|apply ne_close|apply ne_other]; assumption. Qed.
Lemma dn_upto cs leaks inner l q rest : upto cs leaks inner l q rest -> upto (dn2 cs) (dn3 leaks) (dn2 inner) (l + k) q (dn2 rest).
Proof.
  induction 1 as [l q r cs Hq|l s cs leaks inner l' q rest Hs _ IH|l v cs leaks inner l' q rest Hv _ IH]; cbn [map below2].
  - replace (l + count_newlines q + k) with (l + k + count_newlines q) by lia. now constructor.
  - rewrite map_app, dn_text. now constructor.
  - now constructor.
Qed.
Lemma up_upto cs' leaks' inner' l' q rest' : upto cs' leaks' inner' l' q rest' -> forall cs, cs' = dn2 cs ->
  exists leaks inner l rest, upto cs leaks inner l q rest /\ leaks' = dn3 leaks /\ inner' = dn2 inner /\ l' = l + k /\ rest' = dn2 rest.
Proof.
  induction 1 as [l q r cs' Hq|l s cs' leaks inner l' q rest Hs _ IH|l v cs' leaks inner l' q rest Hv _ IH]; intros [|[l0 v0] cs] E; try discriminate.
  - injection E as -> <- ->. exists [], [], l0, (mkChunk2 (l0 + count_newlines q) (Text2 r) :: cs). split; [now constructor|]. split; [reflexivity|]. split; [reflexivity|]. split; [reflexivity|].
    cbn [map below2]. do 2 f_equal. lia.
  - injection E as -> <- ->. destruct (IH cs eq_refl) as (lk & inn & l1 & re & U & -> & -> & -> & ->). exists (text_chunk3 l0 s ++ lk), inn, l1, re. split; [now constructor|].
    rewrite map_app, dn_text. auto.
  - injection E as -> -> ->. destruct (IH cs eq_refl) as (lk & inn & l1 & re & U & -> & -> & -> & ->). exists lk, (mkChunk2 l0 v0 :: inn), l1, re. split; [now constructor|]. auto.
Qed.
Lemma dn_block t cs leaks lb content rest : dollar_block t cs leaks lb content rest -> dollar_block t (dn2 cs) (dn3 leaks) (lb + k) (dn2 content) (dn2 rest).
Proof.
  destruct 1 as [cs leaks inner lb q rest U Hne|cs leaks0 lb0 rest0 leaks1 inner1 lb1 p1 lr r cs1 leaks2 inner2 lb q rest U0 U1 U2].
  - rewrite map_app, dn_text2. apply db_inline; [now apply dn_upto|]. destruct Hne as [K|K]; [left; intros E; apply map_eq_nil in E; congruence|now right].
  - rewrite !map_app, dn_text2. apply dn_upto in U0, U1, U2. cbn [map below2] in *. eapply db_display; eassumption.
Qed.
Lemma up_block t cs leaks' lb' content' rest' : dollar_block t (dn2 cs) leaks' lb' content' rest' ->
  exists leaks lb content rest, dollar_block t cs leaks lb content rest.
Proof.
  intros H. remember (dn2 cs) as cs' eqn:E. destruct H as [cs' leaks inner lb q rest U Hne|cs' leaks0 lb0 rest0 leaks1 inner1 lb1 p1 lr r cs1 leaks2 inner2 lb q rest U0 U1 U2]; subst cs'.
  - destruct (up_upto _ _ _ _ _ _ U cs eq_refl) as (lk & inn & l1 & re & U' & -> & -> & -> & ->). do 4 eexists. eapply db_inline; [exact U'|].
    destruct Hne as [K|K]; [left; intros ->; now apply K|now right].
  - destruct (up_upto _ _ _ _ _ _ U0 cs eq_refl) as (lk0 & inn0 & l0 & re0 & V0 & -> & E0 & -> & ->). destruct inn0; [clear E0|discriminate].
    destruct (up_upto _ _ _ _ _ _ U1 re0 eq_refl) as (lk1 & inn1 & l1 & re1 & V1 & -> & -> & -> & E1). destruct re1 as [|[lr' vr] cs1']; [discriminate|]. injection E1 as -> <- ->.
    destruct (up_upto _ _ _ _ _ _ U2 (mkChunk2 l1 (Text2 (p1 ++ r)) :: cs1') eq_refl) as (lk2 & inn2 & l2 & re2 & V2 & -> & -> & -> & ->).
    do 4 eexists. eapply db_display; eassumption.
Qed.
Lemma dn_app (a b : list chunk2) : dn2 (a ++ b) = dn2 a ++ dn2 b. Proof. apply map_app. Qed.

Definition moves (r r' : result (list chunk3)) : Prop :=
  match r, r' with
  | Good o, Good o' => o' = dn3 o
  | Bad e, Bad e' => err_type e' = err_type e /\ (err_line e' = err_line e \/ err_line e' = err_line e + k)
  | Overflow, Overflow => True
  | _, _ => False
  end.
Lemma moves_on f g r r' : moves r r' -> (forall o, dn3 (f o) = g (dn3 o)) -> moves (on f r) (on g r').
Proof. intros H E. destruct r, r'; cbn [moves on] in *; try easy. subst. symmetry. apply E. Qed.
Lemma moves_andthen f g rc rc' r r' : moves rc rc' -> moves r r' -> (forall c o, dn3 (f c o) = g (dn3 c) (dn3 o)) -> moves (andthen f rc r) (andthen g rc' r').
Proof. intros Hc H E. destruct rc, rc'; cbn [moves andthen] in Hc |- *; try easy. subst. apply moves_on; [exact H|]. intros o. apply E. Qed.
Lemma moves_then {A} (f g : A -> list chunk3 -> list chunk3) rv r r' : moves r r' -> (forall c o, dn3 (f c o) = g c (dn3 o)) -> moves (andthen f rv r) (andthen g rv r').
Proof. intros H E. destruct rv; cbn [andthen moves]; try easy; [apply moves_on; [exact H|intros o; apply E]|split; [reflexivity|now left]]. Qed.

Lemma dn_moved lb a b : Forall2 (moved lb) a b -> Forall2 (moved (lb + k)) (dn2 a) b.
Proof. induction 1 as [|[l v] [l' v'] a b H _ IH]; constructor; [|exact IH]. destruct H as (H1 & H2 & H3). cbn [below2 moved]. split; [exact H1|lia]. Qed.
Lemma up_moved lb a b : 1 <= lb -> Forall2 (moved (lb + k)) (dn2 a) b -> Forall2 (moved lb) a b.
Proof.
  intros L. revert b. induction a as [|[l v] a IH]; intros b H; inversion H as [|? [l' v'] ? ? Hm HF]; subst; constructor; [|now apply IH]. destruct Hm as (H1 & H2 & H3). split; [exact H1|lia].
Qed.
Lemma reads_below bl cs r : reads bl cs r -> low2 1 cs -> forall bl', bl' = bl \/ bl' = bl + k -> exists r', reads bl' (dn2 cs) r' /\ moves r r'.
Proof.
  induction 1 as [bl|bl l s cs pieces r Hs Hp _ IH|bl l v cs rv r Hv Hr _ IH|bl t l args body kept l' args' cs rco r Hn _ IHc _ IH|bl t l args body kept d Hn|bl t l args cs
    |bl l u s cs t leaks lb content rest pieces content' rco r Hu Hd Hs Hm Hc _ _ IH|bl l u s cs t leaks lb content rest Hu Hd Ho|bl l u s cs Hu Hno]; intros LOW bl' Hbl; cbn [map below2].
  - eexists. split; [constructor|reflexivity].
  - destruct (IH (Forall_inv_tail LOW) bl' Hbl) as (r' & R & M). eexists. split; [eapply rd_text; [exact Hs|apply dn_paragraphs, Hp|exact R]|]. apply moves_on; [exact M|]. intros o. apply map_app.
  - destruct (IH (Forall_inv_tail LOW) bl' Hbl) as (r' & R & M). eexists. split; [eapply rd_plain; eassumption|]. destruct rv as [v3|e|]; cbn [andthen moves]; try easy; [|split; [reflexivity|now left]].
    apply moves_on; [exact M|]. intros o. cbn [map below3]. f_equal. f_equal.
    clear - Hr. inversion Hr as [cs0 v0 r0 H0|lab args r0 H0|lab args content pb pe ra rc Ha Hc]; subst.
    + match goal with H : on _ ?x = _ |- _ => destruct x; try discriminate; injection H as <- end. reflexivity.
    + match goal with H : on _ ?x = _ |- _ => destruct x; try discriminate; injection H as <- end. reflexivity.
    + match goal with H : andthen _ ?x ?y = _ |- _ => destruct x; try discriminate; destruct y; try discriminate; injection H as <- end. reflexivity.
  - assert (LK : low2 1 kept /\ low2 1 cs).
    { apply Forall_inv_tail in LOW. apply Forall_app in LOW as [L1 L2]. split; [|exact (Forall_inv_tail L2)]. apply nesting_sub in Hn as (S1 & _). unfold low2 in *. rewrite Forall_forall in *. auto. }
    destruct (IHc (proj1 LK) 0 (or_introl eq_refl)) as (rc' & Rc & Mc). destruct (IH (proj2 LK) (l + k) (or_intror eq_refl)) as (r' & R & M). rewrite map_app. cbn [map below2]. eexists. split; [eapply rd_brackets; [apply dn_nesting, Hn|exact Rc|exact R]|].
    apply moves_andthen; [exact Mc|exact M|]. reflexivity.
  - eexists. split; [eapply rd_unclosed_brackets, dn_nesting, Hn|]. split; [reflexivity|now right].
  - eexists. split; [apply rd_stray|]. split; [reflexivity|now right].
  - assert (LB : low2 1 (mkChunk2 (l + count_newlines u) (Text2 s) :: cs)) by (constructor; [pose proof (Forall_inv LOW) as X; cbn [line_no2] in *; lia|exact (Forall_inv_tail LOW)]).
    destruct (block_low _ _ _ _ _ _ Hd 1 LB) as (_ & B1 & B2). destruct (IH B2 bl' Hbl) as (r' & R & M). apply dn_block in Hd. cbn [map below2] in Hd. eexists. split.
    + eapply rd_dollars; [exact Hu| | | |exact Hc|exact R]; [replace (l + k + count_newlines u) with (l + count_newlines u + k) by lia; exact Hd| |apply dn_moved, Hm].
      rewrite <- dn_text, <- map_app. apply dn_split, Hs.
    + apply moves_then; [exact M|]. intros c o. rewrite map_app. reflexivity.
  - assert (LB : low2 1 (mkChunk2 (l + count_newlines u) (Text2 s) :: cs)) by (constructor; [pose proof (Forall_inv LOW) as X; cbn [line_no2] in *; lia|exact (Forall_inv_tail LOW)]).
    destruct (block_low _ _ _ _ _ _ Hd 1 LB) as (_ & B1 & B2). apply dn_block in Hd. cbn [map below2] in Hd. exists Overflow. split; [|exact I].
    eapply rd_overflow; [exact Hu|replace (l + k + count_newlines u) with (l + count_newlines u + k) by lia; exact Hd|]. intros [c' Hc']. apply Ho. exists c'. now apply up_moved.
  - eexists. split; [apply rd_unclosed_dollar; [exact Hu|]|split; [reflexivity|cbn [err_line]; tauto]].
    intros t leaks lb content rest K. replace (l + k + count_newlines u) with (l + count_newlines u + k) in K by lia.
    destruct (up_block t (mkChunk2 (l + count_newlines u) (Text2 s) :: cs) _ _ _ _ K) as (lk & l1 & co & re & K'). exact (Hno _ _ _ _ _ K').
Qed.

Lemma dn_moved32 lb a b : Forall2 (moved32 lb) a b -> Forall2 (moved32 (lb + k)) (dn2 a) b.
Proof.
  induction 1 as [|[l v] [l' v'] a b H _ IH]; constructor; [|exact IH]. destruct H as (H1 & H2 & H3). cbn [below2 moved32]. split; [exact H1|]. split; [exact H2|].
  replace (l' + (lb + k)) with ((l' + lb) + k) by lia. replace (l + k + 1) with ((l + 1) + k) by lia. rewrite N.add_mod, H3, <- N.add_mod by discriminate. reflexivity.
Qed.
Lemma wreads_below bl cs r : wreads bl cs r -> low2 1 cs -> forall bl', bl' = bl \/ bl' = bl + k -> exists r', wreads bl' (dn2 cs) r' /\ moves r r'.
Proof.
  induction 1 as [bl|bl l s cs pieces r Hs Hp _ IH|bl l v cs rv r Hv Hr _ IH|bl t l args body kept l' args' cs rco r Hn _ IHc _ IH|bl t l args body kept d Hn|bl t l args cs
    |bl l u s cs t leaks lb content rest pieces content' rco r Hu Hd Hs Hm Hc _ _ IH|bl l u s cs Hu Hno]; intros LOW bl' Hbl; cbn [map below2].
  - eexists. split; [constructor|reflexivity].
  - destruct (IH (Forall_inv_tail LOW) bl' Hbl) as (r' & R & M). eexists. split; [eapply wd_text; [exact Hs|apply dn_paragraphs, Hp|exact R]|]. apply moves_on; [exact M|]. intros o. apply map_app.
  - destruct (IH (Forall_inv_tail LOW) bl' Hbl) as (r' & R & M). eexists. split; [eapply wd_plain; eassumption|]. destruct rv as [v3|e|]; cbn [andthen moves]; try easy; [|split; [reflexivity|now left]].
    apply moves_on; [exact M|]. intros o. cbn [map below3]. f_equal. f_equal.
    clear - Hr. inversion Hr as [cs0 v0 r0 H0|lab args r0 H0|lab args content pb pe ra rc Ha Hc]; subst.
    + match goal with H : on _ ?x = _ |- _ => destruct x; try discriminate; injection H as <- end. reflexivity.
    + match goal with H : on _ ?x = _ |- _ => destruct x; try discriminate; injection H as <- end. reflexivity.
    + match goal with H : andthen _ ?x ?y = _ |- _ => destruct x; try discriminate; destruct y; try discriminate; injection H as <- end. reflexivity.
  - assert (LK : low2 1 kept /\ low2 1 cs).
    { apply Forall_inv_tail in LOW. apply Forall_app in LOW as [L1 L2]. split; [|exact (Forall_inv_tail L2)]. apply nesting_sub in Hn as (S1 & _). unfold low2 in *. rewrite Forall_forall in *. auto. }
    destruct (IHc (proj1 LK) 0 (or_introl eq_refl)) as (rc' & Rc & Mc). destruct (IH (proj2 LK) (l + k) (or_intror eq_refl)) as (r' & R & M). rewrite map_app. cbn [map below2]. eexists. split; [eapply wd_brackets; [apply dn_nesting, Hn|exact Rc|exact R]|].
    apply moves_andthen; [exact Mc|exact M|]. reflexivity.
  - eexists. split; [eapply wd_unclosed_brackets, dn_nesting, Hn|]. split; [reflexivity|now right].
  - eexists. split; [apply wd_stray|]. split; [reflexivity|now right].
  - assert (LB : low2 1 (mkChunk2 (l + count_newlines u) (Text2 s) :: cs)) by (constructor; [pose proof (Forall_inv LOW) as X; cbn [line_no2] in *; lia|exact (Forall_inv_tail LOW)]).
    destruct (block_low _ _ _ _ _ _ Hd 1 LB) as (_ & B1 & B2). destruct (IH B2 bl' Hbl) as (r' & R & M). apply dn_block in Hd. cbn [map below2] in Hd. eexists. split.
    + eapply wd_dollars; [exact Hu| | | |exact Hc|exact R]; [replace (l + k + count_newlines u) with (l + count_newlines u + k) by lia; exact Hd| |apply dn_moved32, Hm].
      rewrite <- dn_text, <- map_app. apply dn_split, Hs.
    + apply moves_then; [exact M|]. intros c o. rewrite map_app. reflexivity.
  - eexists. split; [apply wd_unclosed_dollar; [exact Hu|]|split; [reflexivity|cbn [err_line]; tauto]].
    intros t leaks lb content rest K. replace (l + k + count_newlines u) with (l + count_newlines u + k) in K by lia.
    destruct (up_block t (mkChunk2 (l + count_newlines u) (Text2 s) :: cs) _ _ _ _ K) as (lk & l1 & co & re & K'). exact (Hno _ _ _ _ _ K').
Qed.

(** ** Ranges *)
Lemma up_range cs : in_range (dn2 cs) -> in_range cs.
Proof.
  intros H. inversion H as [x H1 H2 H3]; subst. constructor.
  - fold (ncmd cs). fold (ncmd (dn2 cs)) in H1. replace (ncmd cs) with (ncmd (dn2 cs)); [exact H1|]. clear. induction cs as [|[l v] cs IH]; [reflexivity|]. cbn [map below2]. now rewrite !ncmd_cons, IH.
  - intros l s Hi. apply (in_map (below2 k)) in Hi. destruct (H2 _ _ Hi). split; [assumption|lia].
  - intros l v inner Hi. apply (in_map (below2 k)) in Hi. exact (H3 _ _ inner Hi).
Qed.
Lemma up_u32 cs : u32_lines (dn2 cs) -> u32_lines cs.
Proof.
  intros H. inversion H as [x H1 H2]; subst. constructor.
  - intros l v Hi. apply (in_map (below2 k)) in Hi. specialize (H1 _ _ Hi). lia.
  - intros l v inner Hi. apply (in_map (below2 k)) in Hi. exact (H2 _ _ inner Hi).
Qed.
(** ** Lists *)
Theorem lists_below p cs : in_range (dn2 cs) -> u32_lines (dn2 cs) -> (forall c, In c cs -> 1 <= line_no2 c) ->
  match maths_from_chunks p cs with
  | Ok out => maths_from_chunks p (dn2 cs) = Ok (dn3 out)
  | Err e => exists e', maths_from_chunks p (dn2 cs) = Err e' /\ err_type e' = err_type e /\ (err_line e' = err_line e \/ err_line e' = err_line e + k)
  | Panic => maths_from_chunks p (dn2 cs) = Panic
  | OutOfFuel => False
  end.
Proof.
  intros R' U' L. pose proof (up_range _ R') as R. pose proof (up_u32 _ U') as U. apply Forall_forall in L.
  assert (X : exists r r', maths_from_chunks p cs = to_outcome r /\ maths_from_chunks p (dn2 cs) = to_outcome r' /\ moves r r').
  { destruct p.
    - destruct (maths_reads_exists cs R) as [r H]. destruct (reads_below 0 cs r H L 0 (or_introl eq_refl)) as (r' & H' & M). exists r, r'. split; [now apply maths_reads_debug|]. split; [now apply maths_reads_debug|exact M].
    - destruct (wmaths_reads_exists cs (conj R U)) as [r H]. destruct (wreads_below 0 cs r H L 0 (or_introl eq_refl)) as (r' & H' & M). exists r, r'. split; [now apply wmaths_reads|]. split; [now apply wmaths_reads|exact M]. }
  destruct X as (r & r' & -> & E & M). destruct r, r'; cbn [moves to_outcome] in *; try easy; [now subst|]. exists e0. split; [exact E|exact M].
Qed.
End K.
