(** * Eqb23: the equality tests of stages 2 and 3 decide equality *)
From Verif Require Import Base Ast1 Parse1 Ast2 Ast3 Api Ind Valid2 Eqb.

Lemma sv2_eqb_eq a b : sv2_eqb a b = true <-> a = b.
Proof. destruct a, b; cbn; split; (reflexivity || discriminate). Qed.
Lemma sv3_eqb_eq a b : sv3_eqb a b = true <-> a = b.
Proof. destruct a, b; cbn; split; (reflexivity || discriminate). Qed.
Lemma mv_eqb_eq a b : mv_eqb a b = true <-> a = b.
Proof. destruct a, b; cbn; split; (reflexivity || discriminate). Qed.
Lemma mt_eqb_eq a b : mt_eqb a b = true <-> a = b.
Proof. destruct a, b; cbn; split; (reflexivity || discriminate). Qed.
Lemma pair_eqb_spec {B} (f : B -> B -> bool) (l : list (str * B)) :
  Forall (fun a => forall y, f (snd a) y = true <-> snd a = y) l ->
  forall l', list_eqb (fun x y : str * B => match x, y with (px, sx), (py, sy) => str_eqb px py && f sx sy end) l l' = true <-> l = l'.
Proof.
  intros H. apply list_eqb_spec. eapply Forall_impl; [|exact H]. intros [p b] Hb [p' b']. cbn [snd] in Hb.
  rewrite andb_true_iff, str_eqb_iff, Hb. split; [intros [-> ->]; reflexivity|]. intros E. injection E as -> ->. auto.
Qed.

Section S2.
  Definition eq2 (x : chunk2) : Prop := forall y, chunk2_eqb x y = true <-> x = y.
  Lemma scope2_eqb_spec cs v : Forall eq2 cs -> forall s, scope2_eqb (mkScope2 cs v) s = true <-> mkScope2 cs v = s.
  Proof.
    intros H [cs' v']. cbn [scope2_eqb]. rewrite andb_true_iff, (list_eqb_spec _ _ H), sv2_eqb_eq.
    split; [intros [-> ->]; reflexivity|]. intros E. injection E as -> ->. auto.
  Qed.
  Lemma args2_eqb_spec (args : list (str * scope2)) : Forall (fun a => Forall eq2 (chunks2 (snd a))) args ->
    Forall (fun a => forall y, scope2_eqb (snd a) y = true <-> snd a = y) args.
  Proof. intros H. eapply Forall_impl; [|exact H]. intros [p [cs v]] K. now apply scope2_eqb_spec. Qed.
  Lemma chunk2_eqb_eq a : eq2 a.
  Proof.
    induction a as [l s|l lab args IH|l cs v IH|l lab args cs pb pe IHa IH] using chunk2_ind'; intros [l' v']; cbn [chunk2_eqb];
      rewrite andb_true_iff, N.eqb_eq.
    - destruct v' as [s'|c|sc|e]; cbn [variant2_eqb]; try (split; [intros [_ H]; discriminate|discriminate]).
      rewrite str_eqb_iff. split; [intros [-> ->]; reflexivity|]. intros H. injection H as -> ->. auto.
    - destruct v' as [s'|[lab' args']|sc|e]; cbn [variant2_eqb command2_eqb]; try (split; [intros [_ H]; discriminate|discriminate]).
      rewrite andb_true_iff, str_eqb_iff, (pair_eqb_spec _ _ (args2_eqb_spec _ IH)).
      split; [intros (-> & -> & ->); reflexivity|]. intros H. injection H as -> -> ->. auto.
    - destruct v' as [s'|c|sc|e]; cbn [variant2_eqb]; try (split; [intros [_ H]; discriminate|discriminate]).
      rewrite scope2_eqb_spec by assumption. split; [intros [-> ->]; reflexivity|]. intros H. injection H as -> ->. auto.
    - destruct v' as [s'|c|sc|[lab' args' cs' pb' pe']]; cbn [variant2_eqb env2_eqb]; try (split; [intros [_ H]; discriminate|discriminate]).
      rewrite !andb_true_iff, !str_eqb_iff, (pair_eqb_spec _ _ (args2_eqb_spec _ IHa)), (list_eqb_spec _ _ IH).
      split; [intros (-> & (((-> & ->) & ->) & ->) & ->); reflexivity|]. intros H. injection H as -> -> -> -> -> ->. auto 10.
  Qed.
  Lemma document2_eqb_eq a b : document2_eqb a b = true <-> a = b.
  Proof. apply list_eqb_spec, Forall_forall. intros x _. apply chunk2_eqb_eq. Qed.
End S2.

Section S3.
  Definition eq3 (x : chunk3) : Prop := forall y, chunk3_eqb x y = true <-> x = y.
  Lemma scope3_eqb_spec cs v : Forall eq3 cs -> forall s, scope3_eqb (mkScope3 cs v) s = true <-> mkScope3 cs v = s.
  Proof.
    intros H [cs' v']. cbn [scope3_eqb]. rewrite andb_true_iff, (list_eqb_spec _ _ H), sv3_eqb_eq.
    split; [intros [-> ->]; reflexivity|]. intros E. injection E as -> ->. auto.
  Qed.
  Lemma args3_eqb_spec (args : list (str * scope3)) : Forall (fun a => Forall eq3 (chunks3 (snd a))) args ->
    Forall (fun a => forall y, scope3_eqb (snd a) y = true <-> snd a = y) args.
  Proof. intros H. eapply Forall_impl; [|exact H]. intros [p [cs v]] K. now apply scope3_eqb_spec. Qed.
  Lemma chunk3_eqb_eq a : eq3 a.
  Proof.
    induction a as [l s|l s|l lab args IH|l cs v IH|l lab args cs pb pe IHa IH|l mv mt cs IH] using chunk3_ind'; intros [l' v']; cbn [chunk3_eqb];
      rewrite andb_true_iff, N.eqb_eq.
    - destruct v' as [s'|s'|m|c|sc|e]; cbn [variant3_eqb]; try (split; [intros [_ H]; discriminate|discriminate]).
      rewrite str_eqb_iff. split; [intros [-> ->]; reflexivity|]. intros H. injection H as -> ->. auto.
    - destruct v' as [s'|s'|m|c|sc|e]; cbn [variant3_eqb]; try (split; [intros [_ H]; discriminate|discriminate]).
      rewrite str_eqb_iff. split; [intros [-> ->]; reflexivity|]. intros H. injection H as -> ->. auto.
    - destruct v' as [s'|s'|m|[lab' args']|sc|e]; cbn [variant3_eqb command3_eqb]; try (split; [intros [_ H]; discriminate|discriminate]).
      rewrite andb_true_iff, str_eqb_iff, (pair_eqb_spec _ _ (args3_eqb_spec _ IH)).
      split; [intros (-> & -> & ->); reflexivity|]. intros H. injection H as -> -> ->. auto.
    - destruct v' as [s'|s'|m|c|sc|e]; cbn [variant3_eqb]; try (split; [intros [_ H]; discriminate|discriminate]).
      rewrite scope3_eqb_spec by assumption. split; [intros [-> ->]; reflexivity|]. intros H. injection H as -> ->. auto.
    - destruct v' as [s'|s'|m|c|sc|[lab' args' cs' pb' pe']]; cbn [variant3_eqb env3_eqb]; try (split; [intros [_ H]; discriminate|discriminate]).
      rewrite !andb_true_iff, !str_eqb_iff, (pair_eqb_spec _ _ (args3_eqb_spec _ IHa)), (list_eqb_spec _ _ IH).
      split; [intros (-> & (((-> & ->) & ->) & ->) & ->); reflexivity|]. intros H. injection H as -> -> -> -> -> ->. auto 10.
    - destruct v' as [s'|s'|[mv' mt' cs']|c|sc|e]; cbn [variant3_eqb maths3_eqb]; try (split; [intros [_ H]; discriminate|discriminate]).
      rewrite !andb_true_iff, mv_eqb_eq, mt_eqb_eq, (list_eqb_spec _ _ IH).
      split; [intros (-> & (-> & ->) & ->); reflexivity|]. intros H. injection H as -> -> -> ->. auto 10.
  Qed.
  Lemma opt_eqb_spec {A} (f : A -> A -> bool) : (forall x y, f x y = true <-> x = y) ->
    forall a b, opt_eqb f a b = true <-> a = b.
  Proof.
    intros H [x|] [y|]; cbn [opt_eqb]; try (split; (reflexivity || discriminate)).
    rewrite H. split; [intros ->; reflexivity|]. intros E. now injection E.
  Qed.
  Lemma option_entry_eqb_eq a b : option_entry_eqb a b = true <-> a = b.
  Proof.
    destruct a as [[[a1 a2] a3] a4], b as [[[b1 b2] b3] b4]. cbn [option_entry_eqb].
    rewrite !andb_true_iff, !str_eqb_iff, opt_eqb_spec.
    - split; [intros (((-> & ->) & ->) & ->); reflexivity|]. intros H. injection H as -> -> -> ->. auto.
    - intros [[x1 x2] x3] [[y1 y2] y3]. rewrite !andb_true_iff, !str_eqb_iff.
      split; [intros ((-> & ->) & ->); reflexivity|]. intros H. injection H as -> -> ->. auto.
  Qed.
  Lemma chunks3_eqb_eq a b : list_eqb chunk3_eqb a b = true <-> a = b.
  Proof. apply list_eqb_spec, Forall_forall. intros x _. apply chunk3_eqb_eq. Qed.
  Lemma document3_eqb_eq a b : document3_eqb a b = true <-> a = b.
  Proof.
    unfold document3_eqb. rewrite !andb_true_iff, !str_eqb_iff, !chunks3_eqb_eq, (opt_eqb_spec _ str_eqb_iff),
      list_eqb_spec by (apply Forall_forall; intros x _; apply option_entry_eqb_eq).
    rewrite pair_eqb_spec by (apply args3_eqb_spec, Forall_forall; intros [? [cs v]] _; apply Forall_forall; intros x _; apply chunk3_eqb_eq).
    destruct a, b; cbn. split; [intros (((((((-> & ->) & ->) & ->) & ->) & ->) & ->) & ->); reflexivity|].
    intros H. injection H as -> -> -> -> -> -> -> ->. auto 10.
  Qed.
End S3.
