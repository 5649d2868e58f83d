(** * Order: comparing two texts by length and by how far right their dollars stand *)
From Verif Require Import Base.
From Coq Require Import Lia Arith.

Definition is_dollar (c : N) : bool := (c =? c_dollar)%N.
Fixpoint dols (s : str) : nat := match s with [] => 0 | c :: s' => (if is_dollar c then 1 else 0) + dols s' end.
(** sum of the positions of the dollars *)
Fixpoint weight (s : str) : nat := match s with [] => 0 | _ :: s' => dols s' + weight s' end.
Definition nl (s : str) : N := count_newlines s.

Definition below (a b : str) : Prop :=
  (length a < length b \/ (length a = length b /\ dols a = dols b /\ weight b <= weight a))%nat /\ (nl a <= nl b)%N.
Definition strictly_below (a b : str) : Prop :=
  (length a < length b \/ (length a = length b /\ dols a = dols b /\ weight b < weight a))%nat /\ (nl a <= nl b)%N.

Local Open Scope nat_scope.
Lemma dols_app a b : dols (a ++ b) = dols a + dols b.
Proof. induction a as [|c a IH]; [reflexivity|]. cbn [app dols]. rewrite IH. lia. Qed.
Lemma weight_app a b : weight (a ++ b) = weight a + weight b + length a * dols b.
Proof.
  induction a as [|c a IH]; [cbn; lia|]. cbn [app weight length]. rewrite IH, dols_app. lia.
Qed.
Lemma nl_app a b : nl (a ++ b) = (nl a + nl b)%N.
Proof. unfold nl, count_newlines. rewrite filter_app, app_length. lia. Qed.
Lemma dols_le a : dols a <= length a.
Proof. induction a as [|c a IH]; cbn; [lia|]. destruct (is_dollar c); lia. Qed.

Lemma below_refl a : below a a. Proof. split; [right; lia|lia]. Qed.
Lemma below_trans a b c : below a b -> below b c -> below a c.
Proof. unfold below. intros [H1 H2] [H3 H4]. split; [lia|lia]. Qed.
Lemma strict_below a b : strictly_below a b -> below a b.
Proof. unfold below, strictly_below. intros [H1 H2]. split; [lia|lia]. Qed.
Lemma strict_trans_l a b c : strictly_below a b -> below b c -> strictly_below a c.
Proof. unfold below, strictly_below. intros [H1 H2] [H3 H4]. split; [lia|lia]. Qed.
Lemma strict_trans_r a b c : below a b -> strictly_below b c -> strictly_below a c.
Proof. unfold below, strictly_below. intros [H1 H2] [H3 H4]. split; [lia|lia]. Qed.
Lemma strict_irrefl a b : strictly_below a b -> a <> b.
Proof. intros [H _] ->. lia. Qed.
Lemma below_app a b c d : below a b -> below c d -> below (a ++ c) (b ++ d).
Proof.
  unfold below. intros [H1 H2] [H3 H4]. rewrite !app_length, !dols_app, !weight_app, !nl_app. split; [|lia].
  destruct H1 as [H1|(L1 & D1 & W1)]; [lia|]. destruct H3 as [H3|(L2 & D2 & W2)]; [lia|].
  right. rewrite L1, D2. lia.
Qed.
Lemma strict_app_l a b c d : strictly_below a b -> below c d -> strictly_below (a ++ c) (b ++ d).
Proof.
  unfold below, strictly_below. intros [H1 H2] [H3 H4]. rewrite !app_length, !dols_app, !weight_app, !nl_app. split; [|lia].
  destruct H1 as [H1|(L1 & D1 & W1)]; [lia|]. destruct H3 as [H3|(L2 & D2 & W2)]; [lia|].
  right. rewrite L1, D2. lia.
Qed.
Lemma strict_app_r a b c d : below a b -> strictly_below c d -> strictly_below (a ++ c) (b ++ d).
Proof.
  unfold below, strictly_below. intros [H1 H2] [H3 H4]. rewrite !app_length, !dols_app, !weight_app, !nl_app. split; [|lia].
  destruct H1 as [H1|(L1 & D1 & W1)]; [lia|]. destruct H3 as [H3|(L2 & D2 & W2)]; [lia|].
  right. rewrite L1, D2. lia.
Qed.
Lemma no_dols t : ~ In c_dollar t -> dols t = 0.
Proof.
  induction t as [|c t IH]; intros H; [reflexivity|]. cbn [dols]. unfold is_dollar.
  destruct (N.eqb_spec c c_dollar) as [->|]; [exfalso; apply H; now left|]. rewrite IH; [reflexivity|]. intros K. apply H. now right.
Qed.
(** moving a dollar-free text to the left *)
Lemma below_swap x t : ~ In c_dollar t -> below (t ++ x) (x ++ t).
Proof.
  intros H. apply no_dols in H. unfold below. rewrite !app_length, !dols_app, !weight_app, !nl_app, H. split; [|lia].
  right. assert (weight t = 0).
  { clear - H. induction t as [|c t IH]; [reflexivity|]. cbn [dols weight] in *. destruct (is_dollar c); lia. }
  lia.
Qed.
Lemma strict_swap x t : ~ In c_dollar t -> t <> [] -> In c_dollar x -> strictly_below (t ++ x) (x ++ t).
Proof.
  intros H Ht Hx. apply no_dols in H. unfold strictly_below. rewrite !app_length, !dols_app, !weight_app, !nl_app, H. split; [|lia].
  right. assert (weight t = 0).
  { clear - H. induction t as [|c t IH]; [reflexivity|]. cbn [dols weight] in *. destruct (is_dollar c); lia. }
  assert (0 < dols x).
  { clear - Hx. induction x as [|c x IH]; [destruct Hx|]. cbn [dols]. unfold is_dollar. destruct Hx as [->|Hx]; [rewrite N.eqb_refl; lia|]. specialize (IH Hx). lia. }
  destruct t as [|c t]; [contradiction|]. cbn [length]. nia.
Qed.
(** moving a dollar to the right past a text that is not all dollars *)
Lemma strict_past c : dols c < length c -> strictly_below (c ++ [c_dollar]) ([c_dollar] ++ c).
Proof.
  intros H. unfold strictly_below. rewrite !app_length, !dols_app, !weight_app, !nl_app. cbn. split; [|lia]. right. lia.
Qed.
Lemma strict_nil_l x a : x <> [] -> strictly_below a (a ++ x).
Proof.
  intros H. split; [left; rewrite app_length; destruct x; [contradiction|cbn; lia]|rewrite nl_app; lia].
Qed.
Lemma below_nil_l x a : below a (a ++ x).
Proof. destruct x as [|c x]; [rewrite app_nil_r; apply below_refl|]. apply strict_below, strict_nil_l. discriminate. Qed.
