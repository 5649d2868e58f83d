(** * Comments1: removing every comment of a source at once *)
From Verif Require Import Base Ast1 Parse1 Spec1 SpecDoc1 SpecComments Tok Pure1 Refine1 Gram1 Ind Lines Facts1.
Require Import Lia Arith.Wf_nat.

(** ** All comments at once *)
Lemma scan1_app a : forall e k b, SpecDoc1.scan e k (a ++ b) = let '(e', k') := SpecDoc1.scan e k a in SpecDoc1.scan e' k' b.
Proof.
  induction a as [|c a IH]; intros e k b; [reflexivity|]. cbn [app SpecDoc1.scan].
  destruct (c =? c_newline); [apply IH|]. destruct k; [apply IH|]. destruct e; [apply IH|].
  destruct (c =? c_percent); [apply IH|]. destruct (c =? c_bslash); apply IH.
Qed.
Lemma strip_app a : forall e k b, fst (SpecDoc1.scan e k a) = false -> snd (SpecDoc1.scan e k a) = false ->
  strip_from e k (a ++ b) = strip_from e k a ++ strip_from false false b.
Proof.
  induction a as [|c a IH]; intros e k b; cbn [app SpecDoc1.scan strip_from]; intros H1 H2.
  - cbn in H1, H2. now subst.
  - destruct (c =? c_newline); [cbn [app]; f_equal; now apply IH|]. destruct k.
    { assert (G : forall e', strip_from e true (a ++ b) = strip_from e' true (a ++ b) /\ strip_from e true a = strip_from e' true a).
      { intros e'. split; [generalize (a ++ b)|generalize a]; intros x; clear; revert e e'; induction x as [|y x IH]; intros e e'; [reflexivity| |reflexivity|];
          cbn [strip_from]; destruct (y =? c_newline); try reflexivity; apply IH. }
      destruct (G (e || (c =? c_bslash))) as [-> ->]. now apply IH. }
    destruct e; [cbn [app]; f_equal; now apply IH|].
    destruct (c =? c_percent); [now apply IH|].
    destruct (c =? c_bslash); cbn [app]; f_equal; now apply IH.
Qed.
Lemma in_comment (b : str) :
  exists body r, b = body ++ r /\ ~ In c_newline body /\ (r = [] \/ exists r', r = c_newline :: r').
Proof.
  induction b as [|c b IH].
  - exists [], []. repeat split; auto.
  - destruct (N.eqb_spec c c_newline) as [->|N].
    + exists [], (c_newline :: b). repeat split; [intros []|right; eauto].
    + destruct IH as (body & r & -> & I & R). exists (c :: body), r. split; [reflexivity|]. split; [|exact R].
      intros [E|J]; [now apply N|now apply I].
Qed.
Lemma first_comment s : forall e, strip_from e false s = s \/
  exists a body b, s = a ++ c_percent :: body ++ b /\ SpecDoc1.scan e false a = (false, false) /\
    ~ In c_newline body /\ (b = [] \/ exists b', b = c_newline :: b').
Proof.
  assert (H : forall e' c s, (strip_from e' false s = s \/
      exists a body b, s = a ++ c_percent :: body ++ b /\ SpecDoc1.scan e' false a = (false, false) /\
      ~ In c_newline body /\ (b = [] \/ exists b', b = c_newline :: b')) ->
    c :: strip_from e' false s = c :: s \/
      exists a body b, c :: s = (c :: a) ++ c_percent :: body ++ b /\ SpecDoc1.scan e' false a = (false, false) /\
      ~ In c_newline body /\ (b = [] \/ exists b', b = c_newline :: b')).
  { intros e' c t [E|(a & body & b & -> & ? & ? & ?)]; [left; now rewrite E|right].
    exists a, body, b. repeat split; assumption. }
  induction s as [|c s IH]; intros e; [now left|]. cbn [strip_from].
  destruct (c =? c_newline) eqn:E1.
  { destruct (H false c s (IH false)) as [E|(a & body & b & E & S0 & X)]; [now left|right].
    exists (c :: a), body, b. split; [exact E|]. split; [|exact X]. cbn [SpecDoc1.scan]. now rewrite E1. }
  destruct e.
  { destruct (H false c s (IH false)) as [E|(a & body & b & E & S0 & X)]; [now left|right].
    exists (c :: a), body, b. split; [exact E|]. split; [|exact X]. cbn [SpecDoc1.scan]. now rewrite E1. }
  destruct (c =? c_percent) eqn:E2.
  { right. destruct (in_comment s) as (body & r & -> & I & R).
    exists [], body, r. apply N.eqb_eq in E2. subst c. repeat split; assumption. }
  destruct (c =? c_bslash) eqn:E3.
  - destruct (H true c s (IH true)) as [E|(a & body & b & E & S0 & X)]; [now left|right].
    exists (c :: a), body, b. split; [exact E|]. split; [|exact X]. cbn [SpecDoc1.scan]. now rewrite E1, E2, E3.
  - destruct (H false c s (IH false)) as [E|(a & body & b & E & S0 & X)]; [now left|right].
    exists (c :: a), body, b. split; [exact E|]. split; [|exact X]. cbn [SpecDoc1.scan]. now rewrite E1, E2, E3.
Qed.
Lemma strip_comment_line body : ~ In c_newline body -> forall e b, (b = [] \/ exists b', b = c_newline :: b') ->
  strip_from e true (body ++ b) = strip_from false false b.
Proof.
  induction body as [|c body IH]; intros N e b B; cbn [app].
  - destruct B as [->|[b' ->]]; reflexivity.
  - cbn [strip_from]. destruct (N.eqb_spec c c_newline) as [->|_]; [exfalso; apply N; now left|].
    apply IH; [|exact B]. intros I. apply N. now right.
Qed.
Lemma scan_comment_line body : ~ In c_newline body -> forall e, snd (SpecDoc1.scan e true body) = true.
Proof.
  induction body as [|c body IH]; intros N e; [reflexivity|]. cbn [SpecDoc1.scan].
  destruct (N.eqb_spec c c_newline) as [->|_]; [exfalso; apply N; now left|].
  apply IH. intros I. apply N. now right.
Qed.
Lemma split_app (a : str) : forall b x y, a ++ b = x ++ y ->
  exists z, (a = x ++ z /\ y = z ++ b) \/ (x = a ++ z /\ b = z ++ y).
Proof.
  induction a as [|c a IH]; intros b x y E; [exists x; now right|].
  destruct x as [|c' x]; [exists (c :: a); left; split; [reflexivity|symmetry; exact E]|].
  injection E as <- E. destruct (IH _ _ _ E) as [z [(-> & ->)|(-> & ->)]]; exists z; [left|right]; now split.
Qed.
Lemma from_str1_comments p : forall s, source_fits s -> quiet_comments s ->
  from_str1 p s = from_str1 p (strip_comments s).
Proof.
  intros s. remember (length s) as n eqn:Hn. revert s Hn. induction n as [n IH] using lt_wf_ind. intros s -> F Q.
  destruct (first_comment s false) as [E|(a & body & b & -> & S0 & NN & B)].
  { unfold strip_comments. now rewrite E. }
  assert (NB : ~ In c_bslash body).
  { intros I. apply in_split in I. destruct I as (x & y & ->).
    assert (QQ := Q (a ++ c_percent :: x) (y ++ b)).
    rewrite scan1_app, S0 in QQ. cbn [SpecDoc1.scan] in QQ. change (c_percent =? c_newline) with false in QQ.
    change (c_percent =? c_percent) with true in QQ. cbv iota in QQ. rewrite scan_comment_line in QQ; [|intros I; apply NN, in_or_app; now left].
    discriminate QQ. now rewrite <- !app_assoc. }
  assert (L : (length (a ++ b) < length (a ++ c_percent :: body ++ b))%nat).
  { rewrite !app_length. cbn [length]. rewrite app_length. lia. }
  rewrite from_str1_comment; try assumption; [|now rewrite S0].
  rewrite (IH _ L (a ++ b) eq_refl).
  - f_equal. unfold strip_comments. rewrite !strip_app by (now rewrite S0). f_equal.
    cbn [strip_from]. change (c_percent =? c_newline) with false.
    change (c_percent =? c_percent) with true. cbv iota. now rewrite strip_comment_line.
  - unfold source_fits in *. lia.
  - intros x y E.
    destruct (split_app _ _ _ _ E) as [z [(-> & Eb)|(-> & Eb)]].
    + destruct z as [|z0 z].
      * rewrite app_nil_r in *. cbn [app] in Eb. destruct B as [->|[b' ->]]; [discriminate|]. discriminate.
      * injection Eb as <- Eb. apply (Q x (z ++ c_percent :: body ++ b)). now rewrite <- app_assoc.
    + rewrite scan1_app, S0.
      assert (QQ := Q (a ++ c_percent :: body ++ z) y).
      rewrite scan1_app, S0 in QQ. cbn [SpecDoc1.scan] in QQ. change (c_percent =? c_newline) with false in QQ.
      change (c_percent =? c_percent) with true in QQ. cbv iota in QQ. rewrite scan1_app in QQ.
      destruct B as [->|[b' ->]]; [destruct z; discriminate|].
      destruct z as [|z0 z]; [reflexivity|]. injection Eb as <- Eb.
      destruct (SpecDoc1.scan false true body) as [e' k'] in QQ. cbn [SpecDoc1.scan] in QQ |- *.
      change (c_newline =? c_newline) with true in *. cbv iota in *. apply QQ.
      rewrite Eb. rewrite <- app_assoc. cbn [app]. now rewrite <- app_assoc.
Qed.
