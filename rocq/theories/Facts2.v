(** * Facts2: consequences of the description of the stage-1 to stage-2 conversion *)
From Verif Require Import Base Ast1 Parse1 Ast2 Ast3 Spec1 SpecDoc1 SpecDoc2 SpecDoc3 Tok Pure1 Refine1 Gram1 Ind Lines Facts1
  Valid1 Valid2 Spec2 Eqb Conv2 Fail2.
Open Scope N_scope.

(** ** C16: Display *)
Lemma show_args_text args : show_args1 args = args_text args.
Proof. reflexivity. Qed.
Lemma rebaseM_show p start c c' : rebaseM p start c = Ok c' -> show_chunk1 c' = show_chunk1 c.
Proof.
  destruct c as [l v]. cbn [rebaseM]. destruct (sub32 p l start); cbn [bind]; try discriminate.
  destruct (add32 p a 1); cbn [bind]; try discriminate. intros H. injection H as <-. reflexivity.
Qed.
Lemma mapM_rebase_show p start b : forall b1, mapM (rebaseM p start) b = Ok b1 -> show1 b1 = show1 b.
Proof.
  induction b as [|c b IH]; cbn [mapM]; intros b1 H.
  - injection H as <-. reflexivity.
  - destruct (rebaseM p start c) as [c'|e| |] eqn:E; cbn [bind] in H; try discriminate.
    destruct (mapM (rebaseM p start) b) as [b'|e| |]; cbn [bind] in H; try discriminate.
    injection H as <-. rewrite !show1_cons, (IH b' eq_refl). now rewrite (rebaseM_show _ _ _ _ E).
Qed.
Lemma show_begin l pb lab args : show_chunk1 (begin_cmd l pb lab args) =
  (c_bslash :: S! "begin") ++ pb ++ [c_lcurly] ++ show1 lab ++ [c_rcurly] ++ args_text args.
Proof.
  unfold begin_cmd, args_text. cbn [show_chunk1 show_variant1 show_command1 map concat show_scope1 open1 close1]. fold (show1 lab).
  repeat (rewrite <- ?app_assoc; cbn [app]). reflexivity.
Qed.
Lemma show_end l pe lab : show_chunk1 (end_cmd l pe lab) =
  (c_bslash :: S! "end") ++ pe ++ [c_lcurly] ++ show1 lab ++ [c_rcurly].
Proof.
  unfold end_cmd. cbn [show_chunk1 show_variant1 show_command1 map concat show_scope1 open1 close1]. fold (show1 lab).
  repeat (rewrite <- ?app_assoc, ?app_nil_r; cbn [app]). reflexivity.
Qed.
Lemma open2_of v : open2 (sv2_of_sv1 v) = open1 v.
Proof. now destruct v. Qed.
Lemma close2_of v : close2 (sv2_of_sv1 v) = close1 v.
Proof. now destruct v. Qed.

Lemma conv_show p :
  (forall d d2, conv p d d2 -> show2 d2 = show1 d) /\
  (forall args args', conv_args p args args' -> show_args2 args' = args_text args).
Proof.
  apply conv_conv_args_ind; intros; rewrite ?show2_cons, ?show1_cons; auto.
  - cbn [show_chunk1 show_chunk2 show_variant1 show_variant2]. now f_equal.
  - cbn [show_chunk1 show_chunk2 show_variant1 show_variant2 show_scope1 show_scope2].
    fold (show2 cs') (show1 cs). now rewrite H, H0, open2_of, close2_of.
  - cbn [show_chunk1 show_chunk2 show_variant1 show_variant2 show_command1 show_command2].
    fold (show_args2 args') (args_text args). now rewrite H, H0.
  - rewrite show1_app, show1_cons, show_begin, show_end, H1.
    cbn [show_chunk2 show_variant2 show_env2]. fold (show_args2 args') (show2 content). rewrite H, H0.
    rewrite (mapM_rebase_show _ _ _ _ e0). change s_begin with (S! "begin"). change s_end with (S! "end"). repeat (rewrite <- ?app_assoc; cbn [app]). reflexivity.
  - unfold show_args2, args_text. cbn [map concat show_scope1 show_scope2]. fold (show2 cs') (show1 cs) (show_args2 args') (args_text args).
    now rewrite H, H0, open2_of, close2_of.
Qed.

Theorem try_from2_show p d d2 : try_from2 p d = Ok d2 -> show2 d2 = show1 d.
Proof. intros H. apply (proj1 (conv_show p)). now apply try_from2_iff. Qed.

(** ** C17: acceptance *)
Definition same_chunk (a b : chunk1) : Prop := variant_of1 a = variant_of1 b.
Lemma same_refl d : Forall2 same_chunk d d.
Proof. induction d; constructor; auto. reflexivity. Qed.
Lemma same_sym a b : Forall2 same_chunk a b -> Forall2 same_chunk b a.
Proof. induction 1; constructor; auto. unfold same_chunk in *. congruence. Qed.
Lemma same_trans a b : Forall2 same_chunk a b -> forall c, Forall2 same_chunk b c -> Forall2 same_chunk a c.
Proof. induction 1; intros c Hc; inversion Hc; subst; constructor; auto. unfold same_chunk in *. congruence. Qed.
Lemma mapM_rebase_same p start b : forall b1, mapM (rebaseM p start) b = Ok b1 -> Forall2 same_chunk b b1.
Proof.
  induction b as [|c b IH]; cbn [mapM]; intros b1 H.
  - injection H as <-. constructor.
  - destruct (rebaseM p start c) as [c'|e| |] eqn:E; cbn [bind] in H; try discriminate.
    destruct (mapM (rebaseM p start) b) as [b'|e| |]; cbn [bind] in H; try discriminate.
    injection H as <-. constructor; auto. destruct c as [l v]. cbn [rebaseM] in E. destruct (sub32 p l start); cbn [bind] in E; try discriminate.
    destruct (add32 p a 1); cbn [bind] in E; try discriminate. injection E as <-. reflexivity.
Qed.
Lemma same_cons_inv l v d d' : Forall2 same_chunk (mkChunk1 l v :: d) d' -> exists l' d0, d' = mkChunk1 l' v :: d0 /\ Forall2 same_chunk d d0.
Proof. intros H. inversion H as [|a [l' v'] b d0 S1 S2]; subst. cbn in S1. unfold same_chunk in S1. cbn in S1. subst v'. eauto. Qed.

Lemma well_nested_same :
  (forall d, well_nested d -> forall d', Forall2 same_chunk d d' -> well_nested d') /\
  (forall args, well_nested_args args -> well_nested_args args).
Proof.
  apply well_nested_both_ind.
  - intros d' H. inversion H. constructor.
  - intros l s d _ IH d' H. apply same_cons_inv in H as (l' & d0 & -> & H). constructor; auto.
  - intros l cs v d Hcs _ _ IH d' H. apply same_cons_inv in H as (l' & d0 & -> & H). constructor; auto.
  - intros l lab args d H1 H2 Ha _ _ IH d' H. apply same_cons_inv in H as (l' & d0 & -> & H). constructor; auto.
  - intros l pb lab args body l' pe d Ha _ Hb IHb Hd IH d' H.
    apply same_cons_inv in H as (l1 & d0 & -> & H). apply Forall2_app_inv_l in H as (b' & r & Hb' & Hr & ->).
    apply same_cons_inv in Hr as (l2 & d1 & -> & Hr). apply (wn_env l1 pb lab args b' l2 pe d1); auto.
  - constructor.
  - intros pre cs v args H1 _ H2 _. now constructor.
Qed.
Lemma well_nested_app a : well_nested a -> forall b, well_nested b -> well_nested (a ++ b).
Proof.
  induction 1; intros b0 Hb; cbn [app].
  - assumption.
  - constructor; auto.
  - constructor; auto.
  - constructor; auto.
  - rewrite <- app_assoc. cbn [app]. apply wn_env; auto.
Qed.

Lemma conv_well_nested p :
  (forall d d2, conv p d d2 -> well_nested d) /\
  (forall args args', conv_args p args args' -> well_nested_args args).
Proof.
  apply conv_conv_args_ind; intros; try (constructor; assumption).
  apply wn_env; auto. match goal with H : mapM _ body = Ok body1 |- _ => apply mapM_rebase_same, same_sym in H; apply (proj1 well_nested_same body1); auto end.
Qed.

Lemma opens_app_nil a b : forall st, opens st b -> opens [] a -> opens st (a ++ b).
Proof.
  intros st H Ha. revert a Ha. induction H; intros a Ha.
  - now rewrite app_nil_r.
  - rewrite app_assoc. apply op_plain; auto.
  - rewrite app_assoc. apply op_begin; auto.
  - rewrite app_assoc. eapply op_end; auto.
Qed.
Lemma opens_under st0 b : forall st, opens st b -> forall a, opens st0 a -> opens (st ++ st0) (a ++ b).
Proof.
  induction 1; intros a Ha; cbn [app].
  - now rewrite app_nil_r.
  - rewrite app_assoc. apply op_plain; auto.
  - rewrite app_assoc. cbn [app]. apply op_begin; auto.
  - rewrite app_assoc. apply (op_end _ _ _ _ lab). apply (IHopens _ Ha).
Qed.
Lemma opens_cons_plain c b : plain c -> opens [] b -> opens [] (c :: b).
Proof. intros H Hb. change (c :: b) with ([c] ++ b). apply opens_app_nil; auto. apply (op_plain [] [] c); [constructor|assumption]. Qed.
Lemma well_nested_opens d : well_nested d -> opens [] d.
Proof.
  induction 1.
  - constructor.
  - now apply opens_cons_plain.
  - now apply opens_cons_plain.
  - apply opens_cons_plain; auto. now split.
  - change (begin_cmd l pb lab args :: body ++ end_cmd l' pe lab :: d)
      with (([begin_cmd l pb lab args] ++ body) ++ [end_cmd l' pe lab] ++ d).
    rewrite app_assoc. apply opens_app_nil; auto. apply (op_end [] _ l' pe lab).
    apply (opens_under [lab] body [] IHwell_nested1 [begin_cmd l pb lab args]).
    apply (op_begin [] [] l pb lab args op_nil).
Qed.

Lemma mapM_rebase_release start b : exists b1, mapM (rebaseM Release start) b = Ok b1.
Proof.
  induction b as [|[l v] b [b1 IH]]; cbn [mapM]; [eauto|]. cbn [rebaseM].
  destruct (@sub32_release error l start) as [x ->]. cbn [bind]. destruct (@add32_release error x 1) as [y ->]. cbn [bind].
  rewrite IH. cbn [bind]. eauto.
Qed.

Lemma well_nested_conv :
  (forall d, well_nested d -> forall d', Forall2 same_chunk d d' -> exists d2, conv Release d' d2) /\
  (forall args, well_nested_args args -> exists args', conv_args Release args args').
Proof.
  apply well_nested_both_ind.
  - intros d' H. inversion H. exists []. constructor.
  - intros l s d _ IH d' H. apply same_cons_inv in H as (l' & d0 & -> & H). destruct (IH _ H) as [d2 Hd]. eexists. constructor; eauto.
  - intros l cs v d _ IHc _ IH d' H. apply same_cons_inv in H as (l' & d0 & -> & H). destruct (IH _ H) as [d2 Hd].
    destruct (IHc _ (same_refl _)) as [c2 Hc]. eexists. constructor; eauto.
  - intros l lab args d H1 H2 _ [a2 Ha] _ IH d' H. apply same_cons_inv in H as (l' & d0 & -> & H). destruct (IH _ H) as [d2 Hd].
    eexists. constructor; eauto.
  - intros l pb lab args body l' pe d _ [a2 Ha] Hb IHb Hd IH d' H.
    apply same_cons_inv in H as (l1 & d0 & -> & H). apply Forall2_app_inv_l in H as (b' & r & Hb' & Hr & ->).
    apply same_cons_inv in Hr as (l2 & d1 & -> & Hr). destruct (IH _ Hr) as [d2 Hd2].
    assert (exists start, startM Release l1 ((pb, mkScope1 lab Curly1) :: args) = Ok start) as [start Hst] by apply add32_release.
    destruct (mapM_rebase_release start b') as [b1 Hb1].
    destruct (IHb b1) as [c2 Hc]; [eapply same_trans; [exact Hb'|eapply mapM_rebase_same; exact Hb1]|].
    eexists. apply (cv_env Release l1 pb lab args a2 b' b1 c2 l2 pe d1 d2 start); try assumption.
    apply well_nested_opens. exact (proj1 well_nested_same body Hb b' Hb').
  - exists []. constructor.
  - intros pre cs v args _ IHc _ [a2 Ha]. destruct (IHc _ (same_refl _)) as [c2 Hc]. eexists. constructor; eauto.
Qed.

Theorem try_from2_release_iff d : (exists d2, try_from2 Release d = Ok d2) <-> well_nested d.
Proof.
  split.
  - intros [d2 H]. apply try_from2_iff in H. exact (proj1 (conv_well_nested Release) _ _ H).
  - intros H. destruct (proj1 well_nested_conv d H d (same_refl d)) as [d2 Hd]. exists d2. now apply try_from2_iff.
Qed.
Theorem try_from2_well_nested p d d2 : try_from2 p d = Ok d2 -> well_nested d.
Proof. intros H. apply try_from2_iff in H. exact (proj1 (conv_well_nested p) _ _ H). Qed.

(** ** C18: no begin or end command survives *)
Definition no_be2 (c : chunk2) : Prop :=
  match c with mkChunk2 _ (Command2 (mkCommand2 lab _)) => lab <> S! "begin" /\ lab <> S! "end" | _ => True end.
Lemma conv_no_be p d d2 : conv p d d2 -> Forall no_be2 d2.
Proof. induction 1; constructor; cbn; auto. Qed.
Lemma conv_args_in p args args' : conv_args p args args' -> forall pre inner v, In (pre, mkScope2 inner v) args' -> exists d, conv p d inner.
Proof. induction 1; intros pr inner w Hi; [contradiction|]. destruct Hi as [E|Hi]; [injection E as <- <- <-|]; eauto. Qed.
Lemma conv_in p d d2 : conv p d d2 ->
  (forall l inner v, In (mkChunk2 l (Scope2 (mkScope2 inner v))) d2 -> exists d', conv p d' inner) /\
  (forall l lab args pre inner v, In (mkChunk2 l (Command2 (mkCommand2 lab args))) d2 -> In (pre, mkScope2 inner v) args -> exists d', conv p d' inner) /\
  (forall l lab args content pb pe pre inner v, In (mkChunk2 l (Environment2 (mkEnv2 lab args content pb pe))) d2 -> In (pre, mkScope2 inner v) args -> exists d', conv p d' inner) /\
  (forall l lab args content pb pe, In (mkChunk2 l (Environment2 (mkEnv2 lab args content pb pe))) d2 -> exists d', conv p d' content).
Proof.
  induction 1; repeat split; intros;
    repeat match goal with H : In _ (_ :: _) |- _ => destruct H as [H|H] | H : mkChunk2 _ _ = mkChunk2 _ _ |- _ => inversion H; subst; clear H
      | H : _ /\ _ |- _ => destruct H | H : In _ [] |- _ => destruct H end; eauto using conv_args_in.
Qed.
Lemma conv_within p d d2 : conv p d d2 -> forall cs, within2 d2 cs -> exists d', conv p d' cs.
Proof.
  intros H cs Hw. induction Hw as [|cs l inner v Hw [d' IH] Hi|cs l lab args pre inner v Hw [d' IH] Hi Hi2|cs l lab args content pb pe pre inner v Hw [d' IH] Hi Hi2|cs l lab args content pb pe Hw [d' IH] Hi].
  - eauto.
  - destruct (conv_in p d' cs IH) as (A & _). eapply A; eauto.
  - destruct (conv_in p d' cs IH) as (_ & A & _). eapply A; eauto.
  - destruct (conv_in p d' cs IH) as (_ & _ & A & _). eapply A; eauto.
  - destruct (conv_in p d' cs IH) as (_ & _ & _ & A). eapply A; eauto.
Qed.
Theorem try_from2_no_be p d d2 : try_from2 p d = Ok d2 ->
  forall cs l lab args, within2 d2 cs -> In (mkChunk2 l (Command2 (mkCommand2 lab args))) cs -> lab <> S! "begin" /\ lab <> S! "end".
Proof.
  intros H cs l lab args Hw Hi. apply try_from2_iff in H. destruct (conv_within _ _ _ H _ Hw) as [d' Hd].
  apply conv_no_be in Hd. rewrite Forall_forall in Hd. exact (Hd _ Hi).
Qed.
