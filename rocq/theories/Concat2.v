(** * Concat2: stage 2 of a source written below another one *)
From Verif Require Import Base Ast1 Parse1 Ast2 Spec1 SpecDoc1 Tok Pure1 Refine1 Gram1 Facts1 Spec2 Conv2 Fail2 Facts2 Good2 Env2 SpecConcat Concat1.
Open Scope N_scope.

Lemma rebase_below start k b : map (rebase (start + k)) (map (below1 k) b) = map (rebase start) b.
Proof. rewrite map_map. apply map_ext. intros [l v]. cbn. f_equal. lia. Qed.

Lemma converts_below_both k :
  (forall d d2, converts d d2 -> converts (map (below1 k) d) (map (below2 k) d2)) /\
  (forall args args', converts_args args args' -> True).
Proof.
  apply converts_both_ind; try (intros; exact I).
  - constructor.
  - intros l s d d' _ IH. cbn [map below1 below2]. now constructor.
  - intros l cs v cs' d d' Hc _ _ IH. cbn [map below1 below2]. now constructor.
  - intros l lab args args' d d' H1 H2 Ha _ _ IH. cbn [map below1 below2]. now constructor.
  - intros l pb lab args args' body content l' pe d d' start Es Ha _ Hb _ _ IH.
    cbn [map below1 below2 begin_cmd]. rewrite map_app. cbn [map below1 end_cmd].
    eapply cs_env; eauto; [rewrite Es; lia|]. now rewrite rebase_below.
Qed.
Lemma converts_app a a' : converts a a' -> forall b b', converts b b' -> converts (a ++ b) (a' ++ b').
Proof.
  induction 1; intros b b' Hb; cbn [app]; try (constructor; auto; fail); [exact Hb|].
  rewrite <- app_assoc. cbn [app]. eapply cs_env; eauto.
Qed.
(** a last text stays a last text *)
Lemma converts_last d d2 : converts d d2 ->
  (forall d0 l s, d = d0 ++ [mkChunk1 l (Text1 s)] -> exists d2', d2 = d2' ++ [mkChunk2 l (Text2 s)] /\ converts d0 d2') /\
  (forall d2' l s, d2 = d2' ++ [mkChunk2 l (Text2 s)] -> exists d0, d = d0 ++ [mkChunk1 l (Text1 s)] /\ converts d0 d2').
Proof.
  induction 1 as [|l s d d' H IH|l cs v cs' d d' Hc _ H IH|l lab args args' d d' N1 N2 Ha H IH
    |l pb lab args args' body content l' pe d d' start Es Ha Hb _ H IH].
  - split; intros [|? ?] ? ? E; discriminate.
  - destruct IH as [IH1 IH2]. split; intros d0 l0 s0 E.
    + destruct d0 as [|c0 d0]; cbn [app] in E.
      * injection E as -> -> ->. inversion H; subst. exists []. split; [reflexivity|constructor].
      * injection E as <- E. destruct (IH1 _ _ _ E) as (x & -> & K). exists (mkChunk2 l (Text2 s) :: x). split; [reflexivity|now constructor].
    + destruct d0 as [|c0 d0]; cbn [app] in E.
      * injection E as -> -> ->. inversion H; subst. exists []. split; [reflexivity|constructor].
      * injection E as <- E. destruct (IH2 _ _ _ E) as (x & -> & K). exists (mkChunk1 l (Text1 s) :: x). split; [reflexivity|now constructor].
  - destruct IH as [IH1 IH2]. split; intros d0 l0 s0 E; (destruct d0 as [|c0 d0]; cbn [app] in E; [discriminate|]); injection E as <- E.
    + destruct (IH1 _ _ _ E) as (x & -> & K). eexists (_ :: x). split; [reflexivity|now constructor].
    + destruct (IH2 _ _ _ E) as (x & -> & K). eexists (_ :: x). split; [reflexivity|now constructor].
  - destruct IH as [IH1 IH2]. split; intros d0 l0 s0 E; (destruct d0 as [|c0 d0]; cbn [app] in E; [discriminate|]); injection E as <- E.
    + destruct (IH1 _ _ _ E) as (x & -> & K). eexists (_ :: x). split; [reflexivity|now constructor].
    + destruct (IH2 _ _ _ E) as (x & -> & K). eexists (_ :: x). split; [reflexivity|now constructor].
  - destruct IH as [IH1 IH2]. split; intros d0 l0 s0 E.
    + destruct (exists_last (l := d)) as (y & c & E').
      { intros ->. change (begin_cmd l pb lab args :: body ++ [end_cmd l' pe lab]) with ((begin_cmd l pb lab args :: body) ++ [end_cmd l' pe lab]) in E.
        apply app_inj_tail in E as [_ E]. discriminate. }
      subst d. assert (E2 : (begin_cmd l pb lab args :: body ++ end_cmd l' pe lab :: y) ++ [c] = d0 ++ [mkChunk1 l0 (Text1 s0)]).
      { rewrite <- E. cbn [app]. now rewrite <- app_assoc. }
      apply app_inj_tail in E2 as [E2 ->]. destruct (IH1 y _ _ eq_refl) as (x & -> & K).
      eexists (_ :: x). split; [reflexivity|]. rewrite <- E2. eapply cs_env; eauto.
    + destruct d0 as [|c0 d0]; cbn [app] in E; [discriminate|]. injection E as <- E.
      destruct (IH2 _ _ _ E) as (x & -> & K). exists (begin_cmd l pb lab args :: body ++ end_cmd l' pe lab :: x).
      split; [cbn [app]; now rewrite <- app_assoc|]. eapply cs_env; eauto.
Qed.
Lemma converts_first d d2 : converts d d2 ->
  (forall l s e, d = mkChunk1 l (Text1 s) :: e -> exists e2, d2 = mkChunk2 l (Text2 s) :: e2 /\ converts e e2) /\
  (forall l s e2, d2 = mkChunk2 l (Text2 s) :: e2 -> exists e, d = mkChunk1 l (Text1 s) :: e /\ converts e e2).
Proof.
  intros H. inversion H; subst; split; intros; try discriminate.
  - match goal with K : _ :: _ = _ :: _ |- _ => injection K as -> -> -> end. eauto.
  - match goal with K : _ :: _ = _ :: _ |- _ => injection K as -> -> -> end. eauto.
Qed.
Lemma glued_converts d e x d2 e2 : glued1 d e x -> converts d d2 -> converts e e2 ->
  exists x2, glued2 d2 e2 x2 /\ converts x x2.
Proof.
  intros G Hd He. inversion G as [d0 l s l' s' e0|? ? K]; subst.
  - destruct (proj1 (converts_last _ _ Hd) _ _ _ eq_refl) as (d2' & -> & Hd').
    destruct (proj1 (converts_first _ _ He) _ _ _ eq_refl) as (e2' & -> & He').
    eexists. split; [apply glued_text2|]. apply converts_app; [exact Hd'|]. now constructor.
  - exists (d2 ++ e2). split; [|now apply converts_app]. apply glued_other2. intros (d0 & l & s & l' & s' & e0 & -> & ->).
    apply K. destruct (proj2 (converts_last _ _ Hd) _ _ _ eq_refl) as (y & -> & _).
    destruct (proj2 (converts_first _ _ He) _ _ _ eq_refl) as (z & -> & _). repeat eexists.
Qed.

Theorem concat_ok2 p q r s t d1 d e : source_fits (s ++ t) -> clean_end s -> settled d1 ->
  from_str1 p s = Ok d1 -> try_from2 p d1 = Ok d -> from_str2 q t = Ok e ->
  exists x, glued2 d (map (below2 (count_newlines s)) e) x /\ from_str2 r (s ++ t) = Ok x.
Proof.
  intros B C S Hd Hd2 He. destruct (fits_app _ _ B) as [Bs Bt].
  unfold from_str2 in He. destruct (from_str1 q t) as [e1|?| |] eqn:E1; cbn [bind] in He; try discriminate.
  destruct (concat_ok p q r s t d1 e1 B C S Hd E1) as (x1 & G & Hx1).
  apply (try_from2_converts p d1 d) in Hd2; [|exists p, s; auto].
  apply (try_from2_converts q e1 e) in He; [|exists q, t; auto].
  apply (proj1 (converts_below_both (count_newlines s))) in He.
  destruct (glued_converts _ _ _ _ _ G Hd2 He) as (x & Gx & Hx).
  exists x. split; [exact Gx|]. unfold from_str2. rewrite Hx1. cbn [bind]. apply (try_from2_converts r x1 x); [exists r, (s ++ t); auto|exact Hx].
Qed.

(** ** errors *)
Lemma bad_below k open c e : bad_here open c e -> bad_here open (below1 k c) (below_error k e).
Proof. intros H. inversion H; subst; cbn [below1 below_error err_line err_type]; constructor; auto. Qed.
Lemma opens_below k st b : opens st b -> opens st (map (below1 k) b).
Proof.
  induction 1 as [|st b c H IH Hc|st b l pb lab args H IH|st b l pe lab H IH]; cbn [map]; rewrite ?map_app; cbn [map].
  - constructor.
  - apply op_plain; [exact IH|]. destruct c as [l [s|[lab args]|sc]]; exact Hc.
  - cbn [below1 begin_cmd]. now apply op_begin.
  - cbn [below1 end_cmd]. eapply op_end. exact IH.
Qed.
Definition near (k : N) (e e' : error) : Prop :=
  err_type e' = err_type e /\ (err_line e' = err_line e \/ err_line e' = err_line e + k).
Lemma near_below k e : near k e (below_error k e).
Proof. split; [reflexivity|now right]. Qed.
Lemma near_same k e : near k e e. Proof. split; [reflexivity|now left]. Qed.
Lemma begin_end_below k l pb lab args : begin_end_line (l + k) pb lab args = begin_end_line l pb lab args + k.
Proof. unfold begin_end_line. lia. Qed.
Lemma rejects_below k d e : rejects d e -> exists e', rejects (map (below1 k) d) e' /\ near k e e'.
Proof.
  intros H. inversion H; subst; rewrite ?map_app; cbn [map]; rewrite ?map_app; cbn [map];
    match goal with K : converts ?a ?b |- _ => apply (proj1 (converts_below_both k)) in K end.
  - eexists. split; [eapply rj_here; eauto; apply bad_below; eassumption|apply near_below].
  - eexists. cbn [below1]. split; [eapply rj_scope; eauto|]. split; [reflexivity|right; cbn; lia].
  - eexists. cbn [below1]. split; [eapply rj_cmd; eauto|apply near_same].
  - eexists. cbn [below1 begin_cmd]. split; [eapply rj_open; eauto; [apply opens_below; eassumption|apply bad_below; eassumption]|apply near_below].
  - eexists. cbn [below1 begin_cmd]. split; [eapply rj_unclosed; eauto; apply opens_below; eassumption|].
    split; [reflexivity|right; cbn [err_line]; apply begin_end_below].
  - eexists. cbn [below1 begin_cmd end_cmd]. split; [eapply rj_env_arg; eauto; apply opens_below; eassumption|apply near_same].
  - eexists. cbn [below1 begin_cmd end_cmd]. split; [eapply rj_env_body; [eassumption|apply opens_below; eassumption|eassumption|rewrite begin_end_below, rebase_below; eassumption]|].
    split; [reflexivity|right; cbn [err_line]; rewrite begin_end_below; lia].
Qed.
Lemma rejects_after d d2 b e : converts d d2 -> rejects b e -> rejects (d ++ b) e.
Proof.
  intros Hd H. inversion H; subst; rewrite app_assoc;
    match goal with K : converts ?a ?b |- _ => pose proof (converts_app _ _ Hd _ _ K) end;
    [eapply rj_here|eapply rj_scope|eapply rj_cmd|eapply rj_open|eapply rj_unclosed|eapply rj_env_arg|eapply rj_env_body]; eauto.
Qed.
Lemma rejects_text l s b e l' s' : rejects (mkChunk1 l (Text1 s) :: b) e -> rejects (mkChunk1 l' (Text1 s') :: b) e.
Proof.
  intros H. remember (mkChunk1 l (Text1 s) :: b) as x eqn:E.
  inversion H; subst; destruct pre as [|c0 pre]; cbn [app] in *;
    try (match goal with K : _ :: _ = mkChunk1 _ _ :: _ |- _ => injection K as -> <- end);
    try (match goal with K : bad_here _ _ _ |- _ => inversion K; fail end);
    try discriminate;
    match goal with K : converts (_ :: _) _ |- _ => inversion K; subst end;
    change (mkChunk1 l' (Text1 s') :: ?a ++ ?b) with ((mkChunk1 l' (Text1 s') :: a) ++ b);
    [eapply rj_here|eapply rj_scope|eapply rj_cmd|eapply rj_open|eapply rj_unclosed|eapply rj_env_arg|eapply rj_env_body]; eauto; constructor; eauto.
Qed.
Lemma glued_rejects d e x d2 er : glued1 d e x -> converts d d2 -> rejects e er -> rejects x er.
Proof.
  intros G Hd He. inversion G as [d0 l s l' s' e0|? ? K]; subst.
  - destruct (proj1 (converts_last _ _ Hd) _ _ _ eq_refl) as (d2' & -> & Hd').
    eapply rejects_after; [exact Hd'|]. eapply rejects_text. exact He.
  - eapply rejects_after; eauto.
Qed.
Theorem concat_error2 p q r s t d1 d e : source_fits (s ++ t) -> clean_end s -> settled d1 ->
  from_str1 p s = Ok d1 -> try_from2 p d1 = Ok d -> from_str2 q t = Err e ->
  exists e', from_str2 r (s ++ t) = Err e' /\ near (count_newlines s) e e'.
Proof.
  intros B C S Hd Hd2 He. destruct (fits_app _ _ B) as [Bs Bt].
  unfold from_str2 in He. destruct (from_str1 q t) as [e1|er| |] eqn:E1; cbn [bind] in He; try discriminate.
  - destruct (concat_ok p q r s t d1 e1 B C S Hd E1) as (x1 & G & Hx1).
    apply (try_from2_converts p d1 d) in Hd2; [|exists p, s; auto].
    apply (try_from2_rejects q e1 e) in He; [|exists q, t; auto].
    destruct (rejects_below (count_newlines s) _ _ He) as (e' & He' & Hn).
    exists e'. split; [|exact Hn]. unfold from_str2. rewrite Hx1. cbn [bind]. apply (try_from2_rejects r x1 e'); [exists r, (s ++ t); auto|].
    eapply glued_rejects; eauto.
  - injection He as ->. pose proof (concat_error p q r s t d1 e B C S Hd E1) as K.
    eexists. unfold from_str2. rewrite K. split; [reflexivity|apply near_below].
Qed.
