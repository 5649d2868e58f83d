(** * Depth0: two runs of one function, the second with less fuel for its recursive calls *)
From Verif Require Import Base.
Open Scope nat_scope.

(** The second run gives the same result or runs out of fuel; if the first succeeds, the second does exactly if the
    depth [m] of the result is at most [D], given that the depth so far is [n0]. *)
Definition grow {E A} (D n0 : nat) (m : A -> nat) (x y : outcome E A) : Prop :=
  (y = x \/ y = OutOfFuel) /\ forall a, x = Ok a -> (m a <= D <-> n0 <= D /\ y = Ok a).

Lemma grow_bind {E A B} D n0 (m : A -> nat) (m' : B -> nat) (x y : outcome E A) f g :
  grow D n0 m x y -> (forall a, x = Ok a -> grow D (m a) m' (f a) (g a)) -> grow D n0 m' (bind x f) (bind y g).
Proof.
  intros [Hl Hx] Hf. destruct x as [a|e| |]; cbn [bind].
  - specialize (Hf a eq_refl) as [Hl' Hf]. specialize (Hx a eq_refl). destruct Hl as [->| ->]; cbn [bind].
    + split; [assumption|]. intros b Eb. rewrite (Hf b Eb), Hx. intuition.
    + split; [right; reflexivity|]. intros b Eb. rewrite (Hf b Eb), Hx. intuition congruence.
  - split; [|discriminate]. destruct Hl as [->| ->]; auto.
  - split; [|discriminate]. destruct Hl as [->| ->]; auto.
  - split; [|discriminate]. destruct Hl as [->| ->]; auto.
Qed.
Lemma grow_ok {E A} D n0 (m : A -> nat) (a : A) : m a = n0 -> grow (E:=E) D n0 m (Ok a) (Ok a).
Proof. intros <-. split; [left; reflexivity|]. intros a' [= <-]. intuition. Qed.
Lemma grow_same {E A} D n0 (m : A -> nat) (x : outcome E A) : (forall a, x = Ok a -> m a = n0) -> grow D n0 m x x.
Proof. intros H. split; [left; reflexivity|]. intros a Ea. rewrite (H a Ea). intuition. Qed.
Lemma grow_pure {E A B} D n0 (m' : B -> nat) (x : outcome E A) f g :
  (forall a, x = Ok a -> grow D n0 m' (f a) (g a)) -> grow D n0 m' (bind x f) (bind x g).
Proof. intros H. apply grow_bind with (m := fun _ => n0); [apply grow_same; reflexivity|assumption]. Qed.
Lemma grow_err {E A} D n0 (m : A -> nat) (e : E) : grow D n0 m (Err e) (Err e).
Proof. apply grow_same. discriminate. Qed.
Lemma grow_panic {E A} D n0 (m : A -> nat) : grow (E:=E) D n0 m Panic Panic.
Proof. apply grow_same. discriminate. Qed.
Lemma grow_map_err {E A} D n0 (m : A -> nat) f (x y : outcome E A) : grow D n0 m x y -> grow D n0 m (map_err f x) (map_err f y).
Proof.
  intros [Hl Hx]. split.
  - destruct Hl as [->| ->]; [left|right]; reflexivity.
  - intros a Ea. destruct x as [b|e| |]; cbn [map_err] in Ea; try discriminate.
    + injection Ea as ->. rewrite (Hx a eq_refl). destruct Hl as [->| ->]; cbn [map_err]; reflexivity.
    + destruct (f e); discriminate.
Qed.
(** the depth is measured in another way *)
Lemma grow_eq {E A} D n0 n0' (m m' : A -> nat) (x y : outcome E A) : n0 = n0' -> (forall a, x = Ok a -> m a = m' a) ->
  grow D n0 m x y -> grow D n0' m' x y.
Proof. intros <- H [Hl Hx]. split; [assumption|]. intros a Ea. rewrite <- (H a Ea). exact (Hx a Ea). Qed.
(** what was there before can only add *)
Lemma grow_max {E A} D n0 n1 (m : A -> nat) (x y : outcome E A) :
  grow D n0 m x y -> grow D (Nat.max n1 n0) (fun a => Nat.max n1 (m a)) x y.
Proof.
  intros [Hl Hx]. split; [assumption|]. intros a Ea. specialize (Hx a Ea). rewrite !Nat.max_lub_iff. intuition.
Qed.
Lemma grow_mapM {E A B} D (m : B -> nat) (f g : A -> outcome E B) l :
  (forall x, grow D 0 m (f x) (g x)) -> grow D 0 (fun r => list_max (map m r)) (mapM f l) (mapM g l).
Proof.
  intros H. induction l as [|x l IH]; cbn [mapM]; [apply grow_ok; reflexivity|].
  eapply grow_bind; [apply H|]. intros y _.
  eapply grow_bind; [|intros r _; apply grow_ok; cbn [map list_max fold_right]; reflexivity].
  eapply grow_eq; [| |exact (grow_max D 0 (m y) _ _ _ IH)]; [lia|reflexivity].
Qed.
Lemma grow_foldM {E A S} D (m : S -> nat) (f g : S -> A -> outcome E S) l :
  (forall st x, grow D (m st) m (f st x) (g st x)) -> forall st, grow D (m st) m (foldM f st l) (foldM g st l).
Proof.
  intros H. induction l as [|x l IH]; intros st; cbn [foldM]; [apply grow_ok; reflexivity|].
  eapply grow_bind; [apply H|]. intros st' _. apply IH.
Qed.
Lemma list_max_map_app {A} (f : A -> nat) a b : list_max (map f (a ++ b)) = Nat.max (list_max (map f a)) (list_max (map f b)).
Proof. rewrite map_app. apply list_max_app. Qed.
(** conclusion: the second run succeeds exactly if the depth allows, and otherwise it runs out of fuel *)
Lemma grow_iff {E A} D (m : A -> nat) (x y : outcome E A) a : grow D 0 m x y -> x = Ok a ->
  (y = Ok a <-> m a <= D) /\ (y = OutOfFuel <-> D < m a).
Proof.
  intros [Hl Hx] Ea. specialize (Hx a Ea).
  assert (H : y = Ok a <-> m a <= D) by (rewrite Hx; split; [intros ->; split; [lia|reflexivity]|tauto]).
  split; [exact H|]. rewrite <- Nat.nle_gt, <- H.
  destruct Hl as [->| ->]; [rewrite Ea|]; split; intros K; try discriminate; try reflexivity.
  exfalso. apply K. reflexivity.
Qed.
Lemma grow_S {E A} D (m : A -> nat) (x y : outcome E A) : grow D 0 m x y -> grow (S D) 0 (fun a => S (m a)) x y.
Proof. intros [Hl Hx]. split; [assumption|]. intros a Ea. specialize (Hx a Ea). rewrite <- Nat.succ_le_mono, Hx. intuition lia. Qed.
Lemma grow_leq {E A} D (m : A -> nat) (x y : outcome E A) : grow D 0 m x y -> y = x \/ y = OutOfFuel.
Proof. intros [H _]. exact H. Qed.
