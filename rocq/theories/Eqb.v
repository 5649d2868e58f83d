(** * Eqb: the derived equality tests decide equality *)
From Verif Require Import Base Ast1 Parse1 Ast2 Ind Valid2.

Lemma list_eqb_spec {A} (f : A -> A -> bool) (l : list A) :
  Forall (fun x => forall y, f x y = true <-> x = y) l -> forall l', list_eqb f l l' = true <-> l = l'.
Proof.
  induction 1 as [|x l Hx _ IH]; intros [|y l']; cbn [list_eqb]; try (split; (reflexivity || discriminate)).
  rewrite andb_true_iff, Hx, IH. split; [intros [-> ->]; reflexivity|]. intros H. injection H as -> ->. auto.
Qed.
Lemma sv1_eqb_eq a b : sv1_eqb a b = true <-> a = b.
Proof. destruct a, b; cbn; split; (reflexivity || discriminate). Qed.
Lemma str_eqb_iff a b : str_eqb a b = true <-> a = b.
Proof. apply str_eqb_eq. Qed.

Lemma scope1_eqb_spec cs v : Forall (fun x => forall y, chunk1_eqb x y = true <-> x = y) cs ->
  forall s, scope1_eqb (mkScope1 cs v) s = true <-> mkScope1 cs v = s.
Proof.
  intros H [cs' v']. cbn [scope1_eqb]. rewrite andb_true_iff, (list_eqb_spec _ _ H), sv1_eqb_eq.
  split; [intros [-> ->]; reflexivity|]. intros E. injection E as -> ->. auto.
Qed.

Lemma chunk1_eqb_eq a : forall b, chunk1_eqb a b = true <-> a = b.
Proof.
  induction a as [l s|l lab args IH|l cs v IH] using chunk1_ind'; intros [l' v']; cbn [chunk1_eqb];
    rewrite andb_true_iff, N.eqb_eq.
  - destruct v' as [s'|c|sc]; cbn [variant1_eqb]; try (split; [intros [_ H]; discriminate|discriminate]).
    rewrite str_eqb_iff. split; [intros [-> ->]; reflexivity|]. intros H. injection H as -> ->. auto.
  - destruct v' as [s'|[lab' args']|sc]; cbn [variant1_eqb command1_eqb]; try (split; [intros [_ H]; discriminate|discriminate]).
    rewrite andb_true_iff, str_eqb_iff, list_eqb_spec.
    + split; [intros (-> & -> & ->); reflexivity|]. intros H. injection H as -> -> ->. auto.
    + eapply Forall_impl; [|exact IH]. intros [pre [cs v]] Hs [pre' sc']. cbn [snd chunks1] in Hs.
      rewrite andb_true_iff, str_eqb_iff, scope1_eqb_spec by assumption.
      split; [intros [-> ->]; reflexivity|]. intros H. injection H as -> ->. auto.
  - destruct v' as [s'|c|sc]; cbn [variant1_eqb]; try (split; [intros [_ H]; discriminate|discriminate]).
    rewrite scope1_eqb_spec by assumption. split; [intros [-> ->]; reflexivity|]. intros H. injection H as -> ->. auto.
Qed.

Lemma chunks1_eqb_eq a b : chunks1_eqb a b = true <-> a = b.
Proof. apply list_eqb_spec, Forall_forall. intros x _. apply chunk1_eqb_eq. Qed.
