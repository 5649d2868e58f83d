(** * Again2: parsing the Display of a stage-2 document

    The conversion is one-to-one on documents that the stage-1 parser gives. *)
From Verif Require Import Base Ast1 Parse1 Ast2 Spec1 SpecDoc1 SpecDoc2 Tok Pure1 Refine1 Gram1 Ind Lines
  Facts1 Valid1 Valid2 Spec2 Eqb Conv2 Fail2 Facts2 Good2 Env2 SpecCanon1 Canon1 SpecBack2 Back2.
Open Scope N_scope.

Lemma canonical_inj a b : canonical 1 a -> canonical 1 b -> show1 a = show1 b -> a = b.
Proof.
  intros A B E. destruct (proj1 canonical_toks _ _ A) as [WA EA]. destruct (proj1 canonical_toks _ _ B) as [WB EB].
  assert (K : dtoks a = dtoks b) by (apply untoks_inj; congruence).
  pose proof (proj1 canonical_parses _ _ A) as PA. pose proof (proj1 canonical_parses _ _ B) as PB.
  apply parse_toks_iff in PA. apply parse_toks_iff in PB. rewrite K in PA. congruence.
Qed.

Lemma rebase_inj start a : forall b, Forall (fun c => start <= line_no1 c) a -> Forall (fun c => start <= line_no1 c) b ->
  map (rebase start) a = map (rebase start) b -> a = b.
Proof.
  induction a as [|[l v] a IH]; intros [|[l' v'] b] A B E; try discriminate; [reflexivity|].
  cbn [map rebase] in E. injection E as E1 E2 E3. inversion A; subst. inversion B; subst. cbn [line_no1] in *.
  f_equal; [f_equal; lia|auto].
Qed.
Lemma sv2_inj v w : sv2_of_sv1 v = sv2_of_sv1 w -> v = w.
Proof. destruct v, w; try reflexivity; discriminate. Qed.

Lemma converts_inj :
  (forall a d2, converts a d2 -> forall b L, converts b d2 -> good L a -> good L b ->
     everywhere args_stable a -> everywhere args_stable b -> a = b) /\
  (forall a d2, converts_args a d2 -> forall b, converts_args b d2 -> good_args a -> good_args b ->
     Forall (fun a => everywhere args_stable (chunks1 (snd a))) a ->
     Forall (fun a => everywhere args_stable (chunks1 (snd a))) b -> a = b).
Proof.
  apply converts_both_ind.
  - intros b L H _ _ _ _. now inversion H.
  - intros l s d d' _ IH b L H Ga Gb Sa Sb. inversion H; subst.
    inversion Ga; subst. inversion Gb; subst.
    apply everywhere_cons in Sa as (_ & _ & Sa). apply everywhere_cons in Sb as (_ & _ & Sb).
    f_equal. eapply IH; eauto.
  - intros l cs v cs' d d' _ IHc _ IH b L H Ga Gb Sa Sb. inversion H as [| |? cs0 v0 ? d0 ? Hc Hd E1 E2| |]; subst.
    match goal with K : sv2_of_sv1 _ = sv2_of_sv1 _ |- _ => apply sv2_inj in K; subst end.
    inversion Ga; subst. inversion Gb; subst.
    apply everywhere_cons in Sa as (_ & Sa1 & Sa). apply everywhere_cons in Sb as (_ & Sb1 & Sb). cbn in Sa1, Sb1.
    assert (cs = cs0) by (eapply IHc; eauto). subst cs0. f_equal. eapply IH; eauto.
  - intros l lab args args' d d' N1 N2 _ IHa _ IH b L H Ga Gb Sa Sb. inversion H as [| | |? ? args0 ? d0 ? M1 M2 Hc Hd E1 E2|]; subst.
    inversion Ga; subst. inversion Gb; subst.
    apply everywhere_cons in Sa as (_ & Sa1 & Sa). apply everywhere_cons in Sb as (_ & Sb1 & Sb). cbn in Sa1, Sb1.
    assert (args = args0) by (eapply IHa; eauto). subst args0. f_equal. eapply IH; eauto.
  - intros l pb lab args args' body content l' pe d d' start Es Hargs IHa Hb IHb _ IH b L H Ga Gb Sa Sb.
    inversion H as [| | | |l0 pb0 lab0 args0 ? body0 ? l0' pe0 d0 ? start0 Es0 Hargs0 Hb0 Hd0 E1 E2]; subst start0 pb0 pe0. subst.
    match goal with K : show1 _ = show1 _ |- _ => rename K into El end.
    apply everywhere_cons in Sa as (Sa0 & Sa1 & Sa). cbn in Sa0, Sa1. apply everywhere_app in Sa as [Sab Sa].
    apply everywhere_cons in Sa as (_ & _ & Sa).
    inversion Sa0 as [|? ? Sa0' _]; subst. specialize (Sa0' eq_refl). cbn [snd chunks1] in Sa0'.
    inversion Sa1 as [|? ? _ Sa1']; subst.
    apply everywhere_cons in Sb as (Sb0 & Sb1 & Sb). cbn in Sb0, Sb1. apply everywhere_app in Sb as [Sbb Sb].
    apply everywhere_cons in Sb as (_ & _ & Sb).
    inversion Sb0 as [|? ? Sb0' _]; subst. specialize (Sb0' eq_refl). cbn [snd chunks1] in Sb0'.
    inversion Sb1 as [|? ? _ Sb1']; subst.
    pose proof (good_env L [] l pb lab args body _ Ga) as (Ela & _ & Gaa & Gab & Gar & Eba).
    pose proof (good_env L [] l0 pb lab0 args0 body0 _ Gb) as (Elb & _ & Gba & Gbb & Gbr & Ebb).
    assert (lab0 = lab) by now apply canonical_inj. subst lab0.
    assert (args = args0) by (eapply IHa; eauto). subst args0.
    assert (K0 : l0 = l) by congruence. clear Elb Ela. subst l0.
    fold (begin_end_line l pb lab args) in *. set (st := begin_end_line l pb lab args) in *.
    assert (body = body0).
    { apply (rebase_inj st); [now apply good_ge|now apply good_ge|].
      eapply IHb; eauto; try (now apply rebase_good0); now apply args_stable_rebase. }
    subst body0.
    assert (E' : l0' = l').
    { pose proof Gar as G1. inversion G1 as [| | |? ? ? ? ? _ A _ _]; subst. pose proof Gbr as G2. inversion G2 as [| | |? ? ? ? ? _ B _ _]; subst.
      rewrite (A (or_intror eq_refl)), (B (or_intror eq_refl)). reflexivity. }
    subst l0'.
    apply (good_mid _ []) in Gar as (_ & _ & _ & Gar). apply (good_mid _ []) in Gbr as (_ & _ & _ & Gbr).
    do 3 f_equal. eapply IH; eauto.
  - intros b H _ _ _ _. now inversion H.
  - intros pre cs v cs' args args' _ IHc _ IHa b H Ga Gb Sa Sb. inversion H as [|? cs0 v0 ? args0 ? Hc Ha]; subst.
    match goal with K : sv2_of_sv1 _ = sv2_of_sv1 _ |- _ => apply sv2_inj in K; subst end.
    inversion Ga; subst. inversion Gb; subst. inversion Sa; subst. inversion Sb; subst. cbn [snd chunks1] in *.
    assert (cs = cs0) by (eapply IHc; eauto). subst cs0. f_equal. eapply IHa; eauto.
Qed.

Lemma parsed_converts_inj a b d2 : parsed a -> parsed b -> converts a d2 -> converts b d2 -> a = b.
Proof.
  intros Pa Pb Ha Hb. eapply (proj1 converts_inj); eauto; try (now apply parsed_good); now apply parsed_args_stable.
Qed.
Theorem try_from2_inj p q a b d2 : parsed a -> parsed b -> try_from2 p a = Ok d2 -> try_from2 q b = Ok d2 -> a = b.
Proof.
  intros Pa Pb Ha Hb. apply (try_from2_converts p a d2 Pa) in Ha. apply (try_from2_converts q b d2 Pb) in Hb.
  eapply parsed_converts_inj; eauto.
Qed.

Theorem from_str2_show_iff p d2 : source_fits (show2 d2) ->
  (from_str2 p (show2 d2) = Ok d2 <-> exists d1, canonical 1 d1 /\ converts d1 d2).
Proof.
  intros B. unfold from_str2. split.
  - intros H. destruct (from_str1 p (show2 d2)) as [d1|e| |] eqn:E; cbn [bind] in H; try discriminate.
    assert (P : parsed d1) by (exists p, (show2 d2); auto).
    apply (try_from2_converts p d1 d2 P) in H. exists d1. split; [|exact H].
    rewrite (proj1 converts_show _ _ H) in E, B. now apply (from_str1_show_iff p).
  - intros (d1 & C & H). rewrite (proj1 converts_show _ _ H) in *. rewrite (canonical_from_str1 p d1 B C). cbn [bind].
    apply (try_from2_converts p d1 d2); [|exact H]. exists p, (show1 d1). split; [exact B|now apply canonical_from_str1].
Qed.
Theorem reparse2_iff p q s d1 d2 : source_fits s -> from_str1 p s = Ok d1 -> try_from2 p d1 = Ok d2 ->
  (from_str2 q (show2 d2) = Ok d2 <-> everywhere reparse_safe d1).
Proof.
  intros B H1 H2. assert (P : parsed d1) by (exists p, s; auto).
  pose proof (proj1 (try_from2_converts p d1 d2 P) H2) as C.
  pose proof (proj1 converts_show _ _ C) as Es.
  assert (B' : source_fits (show2 d2)).
  { rewrite Es. unfold source_fits in *. pose proof (degrades_length _ _ (from_str1_degrades p s d1 B H1)). lia. }
  rewrite <- (reparse_iff p q s d1 B H1). split.
  - intros H. unfold from_str2 in H. destruct (from_str1 q (show2 d2)) as [d|e| |] eqn:E; cbn [bind] in H; try discriminate.
    assert (P' : parsed d) by (exists q, (show2 d2); auto).
    assert (d = d1) by (eapply try_from2_inj; eauto). subst d. rewrite <- Es. exact E.
  - intros H. unfold from_str2. rewrite Es, H. cbn [bind]. now apply (try_from2_converts q d1 d2 P).
Qed.
