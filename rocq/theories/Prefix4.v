(** * Prefix4: what stage 3 keeps *)
From Coq Require Import Lia.
From Verif Require Import Base Ast1 Parse1 Ast2 Ast3 Valid1 Valid2 SpecPar3 Par3 MathsRun MathsRec SpecPrefix Prefix3.
Local Open Scope N_scope.

Section Prefix4.
  Context (p : profile).
  Notation rec := (maths_from_chunks p).
  Definition par cs : outcome error (list chunk3) := paragraph_from_chunks p cs.
  Definition par2 cs : outcome error (list chunk3) := let* x := par cs in par x.
  Lemma par_split a b z : par (a ++ b) = Ok z -> exists x y, par a = Ok x /\ par b = Ok y /\ z = x ++ y.
  Proof.
    unfold par. rewrite par_app. destruct (paragraph_from_chunks p a) as [x| | |]; cbn [bind]; try discriminate. destruct (paragraph_from_chunks p b) as [y| | |]; cbn [bind]; try discriminate.
    intros H. injection H as <-. eauto.
  Qed.
  Lemma par2_split a b z : par2 (a ++ b) = Ok z -> exists x y, par2 a = Ok x /\ par2 b = Ok y /\ z = x ++ y.
  Proof.
    unfold par2. destruct (par (a ++ b)) as [w| | |] eqn:E; cbn [bind]; try discriminate. apply par_split in E as (x & y & -> & -> & ->). cbn [bind]. apply par_split.
  Qed.
  Lemma par2_join a b x y : par2 a = Ok x -> par2 b = Ok y -> par2 (a ++ b) = Ok (x ++ y).
  Proof.
    unfold par2, par. intros A B. rewrite par_app. destruct (paragraph_from_chunks p a) as [x0| | |]; cbn [bind] in *; try discriminate. destruct (paragraph_from_chunks p b) as [y0| | |]; cbn [bind] in *; try discriminate.
    rewrite par_app, A, B. reflexivity.
  Qed.
  Lemma par2_other c z : (forall s, variant_of3 c <> Text3 s) -> par2 [c] = Ok z -> z = [c].
  Proof.
    intros N. assert (K : par [c] = Ok [c]). { unfold par, paragraph_from_chunks. cbn [foldM]. destruct c as [l v]. destruct v; try reflexivity. now destruct (N s). }
    unfold par2. rewrite K. cbn [bind]. rewrite K. intros H. now injection H as <-.
  Qed.

  (** *** One text *)
  Definition newp (st : parstate) : list chunk3 := match st with mkPar n _ _ _ _ _ _ => n end.
  Lemma finish_new st : exists x, par_finish st = newp st ++ x /\ (length x <= 1)%nat.
  Proof.
    destruct st as [n l t tl b bl k]. unfold par_finish, newp. assert (Z : exists x, n = n ++ x /\ (length x <= 1)%nat) by (exists []; split; [now rewrite app_nil_r|cbn; lia]).
    repeat match goal with |- context [if ?b then _ else _] => destruct b end; try exact Z; eexists; (split; [reflexivity|cbn; lia]).
  Qed.
  Lemma step_new st c st' : @par_step error p st c = Ok st' -> exists x, newp st' = newp st ++ x.
  Proof.
    destruct st as [n l t tl b bl k]. unfold par_step. intros H. assert (Z : exists x, n = n ++ x) by (exists []; now rewrite app_nil_r).
    destruct ((c =? c_newline) && (k =? 1)%Z).
    { destruct (inc_i32 p k) as [k1| | |]; cbn [bind] in H; try discriminate. destruct (add32 p l 1) as [l1| | |]; cbn [bind] in H; try discriminate. injection H as <-. cbn [newp].
      destruct (negb (is_empty t)); [eexists; reflexivity|exact Z]. }
    destruct (c =? c_newline).
    { destruct (inc_i32 p k) as [k1| | |]; cbn [bind] in H; try discriminate. destruct (add32 p l 1) as [l1| | |]; cbn [bind] in H; try discriminate. injection H as <-. exact Z. }
    destruct (is_whitespace c && (k =? 0)%Z); [injection H as <-; exact Z|]. destruct (is_whitespace c); [injection H as <-; exact Z|].
    destruct (k =? 0)%Z; [injection H as <-; exact Z|]. destruct (k =? 1)%Z; [injection H as <-; exact Z|]. injection H as <-. eexists. reflexivity.
  Qed.
  Lemma steps_new u : forall st st', foldM (@par_step error p) st u = Ok st' -> exists x, newp st' = newp st ++ x.
  Proof.
    induction u as [|c u IH]; intros st st'; cbn [foldM]; [intros H; injection H as <-; exists []; now rewrite app_nil_r|].
    destruct (par_step p st c) as [s1| | |] eqn:E; cbn [bind]; try discriminate. intros H. destruct (step_new _ _ _ E) as (x & Ex). destruct (IH _ _ H) as (y & ->). rewrite Ex, <- app_assoc. eauto.
  Qed.
  Lemma text_grows k s u z z' : par [mkChunk3 k (Text3 s)] = Ok z -> par [mkChunk3 k (Text3 (s ++ u))] = Ok z' ->
    exists n x y, z = n ++ x /\ z' = n ++ y /\ (length x <= 1)%nat.
  Proof.
    unfold par, paragraph_from_chunks. cbn [foldM par_chunk]. rewrite foldM_app'. destruct (foldM (par_step p) (mkPar [] k [] k [] k 0%Z) s) as [st| | |]; cbn [bind]; try discriminate.
    intros H. injection H as <-. destruct (foldM (par_step p) st u) as [st'| | |] eqn:E; cbn [bind]; try discriminate. intros H. injection H as <-.
    destruct (finish_new st) as (x & -> & L). destruct (steps_new _ _ _ E) as (y & Y). destruct (finish_new st') as (w & -> & _). rewrite Y, <- app_assoc. exists (newp st), x, (y ++ w). auto.
  Qed.
  (** in range, a second splitting changes nothing *)
  Lemma piece_par c : text_in_range c -> piece_ok c -> par [c] = Ok [c].
  Proof.
    intros R K. unfold par. apply paragraph_iff; [now constructor|]. destruct c as [l v]. destruct v as [s|b|m|cm|sc|e]; cbn in K; try contradiction.
    - destruct K as [K1 K2]. assert (T : text_chunk3 l s = [mkChunk3 l (Text3 s)]) by (destruct s; [now destruct K1|reflexivity]). rewrite <- T at 2. rewrite <- (app_nil_r (text_chunk3 l s)). constructor; constructor. exact K2.
    - constructor; [discriminate|constructor].
  Qed.
  Lemma text_settled k s z : text_in_range (mkChunk3 k (Text3 s)) -> par [mkChunk3 k (Text3 s)] = Ok z -> Forall (fun c => par [c] = Ok [c]) z.
  Proof.
    intros R H. unfold par in H. assert (R1 : Forall text_in_range [mkChunk3 k (Text3 s)]) by now constructor. apply (paragraph_iff p _ _ R1) in H.
    pose proof (split_all_range _ _ H R1) as R2. pose proof (split_all_pieces _ _ H) as Pc. rewrite Forall_forall in *. intros c C. apply piece_par; [exact (R2 c C)|].
    destruct (Pc c C) as [[[<-|[]] K]|K]; [now destruct (K s)|exact K].
  Qed.
  Lemma settled_par n : Forall (fun c => par [c] = Ok [c]) n -> par n = Ok n.
  Proof.
    induction 1 as [|c n C _ IH]; [reflexivity|]. unfold par in *. change (c :: n) with ([c] ++ n). rewrite par_app, C, IH. reflexivity.
  Qed.
  Lemma text_grows2 k s u z z' more : text_in_range (mkChunk3 k (Text3 s)) -> par2 [mkChunk3 k (Text3 s)] = Ok z -> par2 (mkChunk3 k (Text3 (s ++ u)) :: more) = Ok z' ->
    exists n x y, z = n ++ x /\ z' = n ++ y /\ (length x <= 1)%nat.
  Proof.
    intros R H H'. change (mkChunk3 k (Text3 (s ++ u)) :: more) with ([mkChunk3 k (Text3 (s ++ u))] ++ more) in H'. apply par2_split in H' as (a & b & A & _ & ->).
    unfold par2 in H, A. destruct (par [mkChunk3 k (Text3 s)]) as [w| | |] eqn:W; cbn [bind] in H; try discriminate.
    destruct (par [mkChunk3 k (Text3 (s ++ u))]) as [w'| | |] eqn:W'; cbn [bind] in A; try discriminate.
    destruct (text_grows _ _ _ _ _ W W') as (n & x & y & -> & -> & L). pose proof (text_settled _ _ _ R W) as S0. rewrite (settled_par _ S0) in H. injection H as <-.
    apply par_split in A as (n1 & y1 & N1 & _ & ->). rewrite (settled_par n) in N1 by (now apply Forall_app in S0). injection N1 as <-. exists n, x, (y1 ++ b). rewrite <- app_assoc. auto.
  Qed.
  (** a blank text falls into two pieces at most *)
  Lemma blank_two k w z : text_in_range (mkChunk3 k (Text3 w)) -> blank w -> par2 [mkChunk3 k (Text3 w)] = Ok z -> (length z <= 2)%nat.
  Proof.
    intros R B H. unfold par2 in H. destruct (par [mkChunk3 k (Text3 w)]) as [v| | |] eqn:V; cbn [bind] in H; try discriminate.
    rewrite (settled_par _ (text_settled _ _ _ R V)) in H. injection H as <-. unfold par in V. apply (paragraph_iff p) in V; [|now constructor].
    inversion V as [|L s pieces cs cs' P S E E'|]; subst; [|match goal with K : forall s, _ <> Text3 s |- _ => now destruct (K w) end]. inversion S; subst. rewrite app_nil_r.
    inversion P as [L s N|L t b rest cs Nt Ib Hr P']; subst; [destruct w; cbn; lia|]. destruct rest as [|c rest].
    - inversion P'; subst; [|exfalso; match goal with K : ?a ++ ?b ++ ?r = [] , Ib : is_break ?b |- _ => destruct Ib as ((? & ->) & _); now destruct a end]. cbn [text_chunk3]. destruct t; cbn; lia.
    - exfalso. pose proof (Hr c rest eq_refl) as W. unfold blank in B. rewrite Forall_forall in B. rewrite (B c) in W; [discriminate|]. rewrite !in_app_iff. right; right; now left.
  Qed.
End Prefix4.
