(** * Rebuild: documents built by pushing (C69) *)
From Verif Require Import Base Ast1 Parse1 Ast2 Ast3 SpecDoc1 SpecDoc2 SpecDoc3 SpecBuild Spec1 Spec2 Lines Eqb Tok Refine1 Gram1 Facts1 Valid1 Conv2 Facts2 Valid2 Valid3.
From Coq Require Import Lia.

Section FoldFacts.
  Context {E S A : Type} (f : S -> A -> outcome E S).
  Lemma foldM_err l : forall s e, foldM f s l = Err e <-> exists pre x post s', l = pre ++ x :: post /\ foldM f s pre = Ok s' /\ f s' x = Err e.
  Proof.
    induction l as [|x l IH]; intros s e; cbn [foldM].
    - split; [discriminate|]. intros ([|? ?] & x & post & s' & E0 & _); discriminate.
    - destruct (f s x) as [s1|e1| |] eqn:Ef; cbn [bind].
      + rewrite IH. split.
        * intros (pre & y & post & s' & -> & H1 & H2). exists (x :: pre), y, post, s'. cbn [foldM]. rewrite Ef. auto.
        * intros ([|z pre] & y & post & s' & E0 & H1 & H2).
          -- injection E0 as <- <-. cbn [foldM] in H1. injection H1 as <-. congruence.
          -- injection E0 as <- ->. cbn [foldM] in H1. rewrite Ef in H1. cbn [bind] in H1. exists pre, y, post, s'. auto.
      + split.
        * intros E0. injection E0 as ->. exists [], x, l, s. auto.
        * intros ([|z pre] & y & post & s' & E0 & H1 & H2).
          -- injection E0 as <- <-. cbn [foldM] in H1. injection H1 as <-. congruence.
          -- injection E0 as <- ->. cbn [foldM] in H1. rewrite Ef in H1. discriminate.
      + split; [discriminate|]. intros ([|z pre] & y & post & s' & E0 & H1 & H2).
        * injection E0 as <- <-. cbn [foldM] in H1. injection H1 as <-. congruence.
        * injection E0 as <- ->. cbn [foldM] in H1. rewrite Ef in H1. discriminate.
      + split; [discriminate|]. intros ([|z pre] & y & post & s' & E0 & H1 & H2).
        * injection E0 as <- <-. cbn [foldM] in H1. injection H1 as <-. congruence.
        * injection E0 as <- ->. cbn [foldM] in H1. rewrite Ef in H1. discriminate.
  Qed.
End FoldFacts.

(** ** Stage 1 *)
Definition head1 (c : chunk1) (r : list chunk1) : list chunk1 :=
  match c with
  | mkChunk1 l (Text1 s) => match r with mkChunk1 _ (Text1 t) :: rest' => mkChunk1 l (Text1 (s ++ t)) :: rest' | other => mkChunk1 l (Text1 s) :: other end
  | _ => c :: r
  end.
Lemma join1_cons c d : join1 (c :: d) = head1 c (join1 d).
Proof. destruct c as [l []]; try reflexivity. cbn [join1 head1]. destruct (join1 d) as [|[? []] ?]; reflexivity. Qed.
Lemma join1_nonempty c d : exists y r, join1 (c :: d) = y :: r.
Proof. rewrite join1_cons. destruct c as [l []]; cbn [head1]; eauto. destruct (join1 d) as [|[? []] ?]; eauto. Qed.
Lemma unch1_cons x y r c : push_chunk_unchecked1 (x :: y :: r) c = x :: push_chunk_unchecked1 (y :: r) c.
Proof. reflexivity. Qed.
Lemma head1_unch x y r c : head1 x (push_chunk_unchecked1 (y :: r) c) = push_chunk_unchecked1 (head1 x (y :: r)) c.
Proof.
  destruct x as [lx vx]. destruct vx as [s|cm|sc]; try (cbn [head1]; reflexivity).
  destruct r as [|z r].
  - destruct y as [ly vy]. destruct vy as [t|cm|sc]; destruct c as [lc vc]; destruct vc as [u|cm0|sc0]; cbn; rewrite ?app_assoc; reflexivity.
  - rewrite unch1_cons. destruct y as [ly []]; reflexivity.
Qed.
Lemma join1_unch c d : join1 (push_chunk_unchecked1 d c) = push_chunk_unchecked1 (join1 d) c.
Proof.
  induction d as [|x [|y d] IH].
  - destruct c as [l []]; reflexivity.
  - destruct x as [lx vx]; destruct vx as [t|cm|sc]; destruct c as [lc vc]; destruct vc as [u|cm0|sc0]; reflexivity.
  - rewrite unch1_cons, (join1_cons x), IH, (join1_cons x). destruct (join1_nonempty y d) as (z & r & ->). apply head1_unch.
Qed.
Lemma join1_swallow d c cs : join1 (d ++ c :: cs) = join1 (push_chunk_unchecked1 d c ++ cs).
Proof.
  induction d as [|x [|y d] IH]; [reflexivity| |].
  - cbn [app]. rewrite !join1_cons. destruct x as [lx vx]; destruct vx as [t|cm|sc]; destruct c as [lc vc]; destruct vc as [u|cm0|sc0];
      try (cbn [push_chunk_unchecked1 variant_of1 app]; rewrite !join1_cons; reflexivity).
    cbn [push_chunk_unchecked1 variant_of1 app]. rewrite join1_cons. destruct (join1 cs) as [|[? []] ?]; cbn; rewrite ?app_assoc; reflexivity.
  - rewrite unch1_cons. cbn [app]. rewrite !(join1_cons x). f_equal. exact IH.
Qed.
Lemma fold_unch1 cs : forall d, fold_left push_chunk_unchecked1 cs (join1 d) = join1 (d ++ cs).
Proof.
  induction cs as [|c cs IH]; intros d; cbn [fold_left]; [now rewrite app_nil_r|].
  rewrite <- join1_unch, IH. symmetry. apply join1_swallow.
Qed.
Lemma adds_unch1 d c : lines_add_up1 d -> line_no1 c = 1 + count_newlines (show1 d) -> lines_add_up1 (push_chunk_unchecked1 d c).
Proof.
  destruct d as [|x d _] using rev_ind; intros HL Hc.
  - apply (lines_add_up1_snoc [] c). now split.
  - rewrite push_chunk_unchecked1_snoc.
    assert (G : lines_add_up1 (d ++ [x; c])).
    { change (d ++ [x; c]) with (d ++ ([x] ++ [c])). rewrite app_assoc. apply lines_add_up1_snoc. now split. }
    destruct (variant_of1 c) eqn:Ev; auto. destruct x as [lx []]; auto.
    apply lines_add_up1_snoc in HL as [HL1 HL2]. apply lines_add_up1_snoc. now split.
Qed.
Lemma push_chunk1_some p d c d' : lines_add_up1 d -> 2 + count_newlines (show1 d) < two32 ->
  (push_chunk1 p d c = Ok d' <-> validate_chunk1 c = Ok tt /\ line_no1 c = 1 + count_newlines (show1 d) /\ d' = push_chunk_unchecked1 d c).
Proof.
  intros HL B. unfold push_chunk1. destruct (validate_chunk1 c) as [()|e| |]; cbn [bind]; [|split; [discriminate|intros (X & _); discriminate X]..].
  rewrite end_line1_ok by assumption. cbn [bind]. destruct (N.eqb_spec (1 + count_newlines (show1 d)) (line_no1 c)) as [E|E]; cbn [negb].
  - split; [intros X; injection X as <-; auto|intros (_ & _ & ->); reflexivity].
  - split; [discriminate|]. intros (_ & X & _). congruence.
Qed.
Lemma push_chunk1_fault p d c e : lines_add_up1 d -> 2 + count_newlines (show1 d) < two32 ->
  (push_chunk1 p d c = Err e <-> validate_chunk1 c = Err e \/ (validate_chunk1 c = Ok tt /\ line_no1 c <> 1 + count_newlines (show1 d) /\
     e = IncorrectChunkLineNumber (1 + count_newlines (show1 d)) (line_no1 c))).
Proof.
  intros HL B. unfold push_chunk1. destruct (validate_chunk1 c) as [()|e'| |]; cbn [bind].
  - rewrite end_line1_ok by assumption. cbn [bind]. destruct (N.eqb_spec (1 + count_newlines (show1 d)) (line_no1 c)) as [E|E]; cbn [negb].
    + split; [discriminate|]. intros [X|(_ & X & _)]; [discriminate|congruence].
    + split; [intros X; injection X as <-; right; auto|]. intros [X|(_ & _ & ->)]; [discriminate|reflexivity].
  - split; [intros X; left; congruence|]. intros [X|(X & _)]; [congruence|discriminate X].
  - split; [discriminate|]. intros [X|(X & _)]; discriminate X.
  - split; [discriminate|]. intros [X|(X & _)]; discriminate X.
Qed.
Lemma push1_some p d v d' : lines_add_up1 d -> 2 + count_newlines (show1 d) < two32 ->
  (push1 p d v = Ok d' <-> validate_variant1 v = Ok tt /\ d' = push_chunk_unchecked1 d (mkChunk1 (1 + count_newlines (show1 d)) v)).
Proof.
  intros HL B. unfold push1, push_unchecked1. destruct (validate_variant1 v) as [()|e| |]; cbn [bind]; [|split; [discriminate|intros (X & _); discriminate X]..].
  rewrite end_line1_ok by assumption. cbn [bind]. split; [intros X; injection X as <-; auto|intros (_ & ->); reflexivity].
Qed.
Lemma push1_fault p d v e : lines_add_up1 d -> 2 + count_newlines (show1 d) < two32 -> (push1 p d v = Err e <-> validate_variant1 v = Err e).
Proof.
  intros HL B. unfold push1, push_unchecked1. destruct (validate_variant1 v) as [()|e'| |]; cbn [bind]; try (split; congruence).
  rewrite end_line1_ok by assumption. cbn [bind]. split; discriminate.
Qed.
Lemma fold_push_chunk1 p cs : forall d d', lines_add_up1 d -> 2 + count_newlines (show1 d) + count_newlines (show1 cs) < two32 ->
  (foldM (push_chunk1 p) d cs = Ok d' <-> lines_from1 (1 + count_newlines (show1 d)) cs /\ Forall ok1 cs /\ d' = fold_left push_chunk_unchecked1 cs d).
Proof.
  induction cs as [|c cs IH]; intros d d' HL B; cbn [foldM fold_left].
  - split; [intros X; injection X as <-|intros (_ & _ & ->); reflexivity]. split; [intros [|? ?] ? ? X; discriminate|auto].
  - rewrite show1_cons, count_newlines_app in B. rewrite lines_from1_cons.
    assert (NX : line_no1 c = 1 + count_newlines (show1 d) -> count_newlines (show1 (push_chunk_unchecked1 d c)) = count_newlines (show1 d) + count_newlines (show_chunk1 c)).
    { intros _. now rewrite push_chunk_unchecked1_show, count_newlines_app. }
    destruct (push_chunk1 p d c) as [d1|e| |] eqn:Ep; cbn [bind].
    + apply push_chunk1_some in Ep as (V & Lc & ->); [|assumption|lia]. specialize (NX Lc).
      rewrite IH; [|now apply adds_unch1|lia]. rewrite NX, <- N.add_assoc. rewrite (Forall_cons_iff ok1). tauto.
    + split; [discriminate|]. intros ((Lc & _) & F & _). apply Forall_cons_iff in F as [V _].
      assert (X : push_chunk1 p d c = Ok (push_chunk_unchecked1 d c)) by (apply push_chunk1_some; [assumption|lia|auto]). congruence.
    + split; [discriminate|]. intros ((Lc & _) & F & _). apply Forall_cons_iff in F as [V _].
      assert (X : push_chunk1 p d c = Ok (push_chunk_unchecked1 d c)) by (apply push_chunk1_some; [assumption|lia|auto]). congruence.
    + split; [discriminate|]. intros ((Lc & _) & F & _). apply Forall_cons_iff in F as [V _].
      assert (X : push_chunk1 p d c = Ok (push_chunk_unchecked1 d c)) by (apply push_chunk1_some; [assumption|lia|auto]). congruence.
Qed.
Lemma fold_push1 p vs : forall d d', lines_add_up1 d -> 2 + count_newlines (show1 d) + count_newlines (concat (map show_variant1 vs)) < two32 ->
  (foldM (push1 p) d vs = Ok d' <-> Forall (fun v => validate_variant1 v = Ok tt) vs /\ d' = fold_left push_chunk_unchecked1 (numbered1 (1 + count_newlines (show1 d)) vs) d).
Proof.
  induction vs as [|v vs IH]; intros d d' HL B; cbn [foldM fold_left numbered1].
  - split; [intros X; injection X as <-; auto|intros (_ & ->); reflexivity].
  - cbn [map concat] in B. rewrite count_newlines_app in B.
    destruct (validate_variant1 v) as [()|e| |] eqn:Ev.
    + assert (X : push1 p d v = Ok (push_chunk_unchecked1 d (mkChunk1 (1 + count_newlines (show1 d)) v))) by (apply push1_some; [assumption|lia|auto]).
      rewrite X. cbn [bind].
      assert (NX : count_newlines (show1 (push_chunk_unchecked1 d (mkChunk1 (1 + count_newlines (show1 d)) v))) = count_newlines (show1 d) + count_newlines (show_variant1 v)).
      { now rewrite push_chunk_unchecked1_show, count_newlines_app. }
      rewrite IH; [|now apply adds_unch1|lia]. rewrite NX, <- N.add_assoc. rewrite (Forall_cons_iff (fun v => validate_variant1 v = Ok tt)). tauto.
    + unfold push1 at 1. rewrite Ev. cbn [bind]. rewrite (Forall_cons_iff (fun v => validate_variant1 v = Ok tt)), Ev. split; [discriminate|]. intros ((X & _) & _); discriminate X.
    + unfold push1 at 1. rewrite Ev. cbn [bind]. rewrite (Forall_cons_iff (fun v => validate_variant1 v = Ok tt)), Ev. split; [discriminate|]. intros ((X & _) & _); discriminate X.
    + unfold push1 at 1. rewrite Ev. cbn [bind]. rewrite (Forall_cons_iff (fun v => validate_variant1 v = Ok tt)), Ev. split; [discriminate|]. intros ((X & _) & _); discriminate X.
Qed.
Lemma adds_nil1 : lines_add_up1 [].
Proof. intros [|? ?] ? ? X; discriminate. Qed.
Lemma numbered1_lines vs : forall L, lines_from1 L (numbered1 L vs).
Proof.
  induction vs as [|v vs IH]; intros L; cbn [numbered1]; [intros [|? ?] ? ? X; discriminate|].
  apply lines_from1_cons. split; [reflexivity|]. apply IH.
Qed.
Lemma numbered1_show vs : forall L, show1 (numbered1 L vs) = concat (map show_variant1 vs).
Proof. induction vs as [|v vs IH]; intros L; cbn [numbered1 map concat]; [reflexivity|]. rewrite show1_cons, IH. reflexivity. Qed.
Lemma numbered1_variants vs : forall L, map variant_of1 (numbered1 L vs) = vs.
Proof. induction vs as [|v vs IH]; intros L; cbn [numbered1 map]; [reflexivity|]. now rewrite IH. Qed.
Lemma join1_show d : show1 (join1 d) = show1 d.
Proof.
  induction d as [|c d IH]; [reflexivity|]. rewrite join1_cons, (show1_cons c d), <- IH. destruct c as [l v].
  destruct v as [s|cm|sc]; cbn [head1]; rewrite ?show1_cons; try reflexivity.
  destruct (join1 d) as [|[l' v'] r]; rewrite ?show1_cons; [reflexivity|].
  destruct v' as [t|cm0|sc0]; rewrite ?show1_cons; try reflexivity. cbn. now rewrite app_assoc.
Qed.
Lemma join1_id d : (forall pre l s l' t post, d <> pre ++ mkChunk1 l (Text1 s) :: mkChunk1 l' (Text1 t) :: post) <-> join1 d = d.
Proof.
  induction d as [|c d IH].
  - split; [reflexivity|]. intros _ [|? ?] ? ? ? ? ? X; discriminate.
  - split.
    + intros H. rewrite join1_cons. assert (Hd : join1 d = d) by (apply IH; intros pre la sa lb tb post ->; exact (H (c :: pre) la sa lb tb post eq_refl)).
      rewrite Hd. destruct c as [l v]. destruct v as [s|cm|sc]; try reflexivity. cbn [head1]. destruct d as [|[l' v'] r]; [reflexivity|].
      destruct v' as [t|cm0|sc0]; try reflexivity. exfalso. exact (H [] l s l' t r eq_refl).
    + intros H. rewrite join1_cons in H.
      assert (LE : forall d : list chunk1, (length (join1 d) <= length d)%nat).
      { clear. induction d as [|c d IH]; [auto|]. rewrite join1_cons. destruct c as [l v]. destruct v as [s|cm|sc]; cbn [head1 length]; try lia.
        destruct (join1 d) as [|[l' v'] r]; [cbn in *; lia|]. destruct v' as [t|cm0|sc0]; cbn [length] in *; lia. }
      specialize (LE d).
      assert (Hd : join1 d = d).
      { destruct c as [l v]. destruct v as [s|cm|sc]; cbn [head1] in H; try (now injection H as H).
        destruct (join1 d) as [|[l' v'] r]; [now injection H as H|].
        destruct v' as [t|cm0|sc0]; try (now injection H as H). injection H as _ H. exfalso. subst r. cbn [length] in LE. lia. }
      intros [|x pre] l s l' t post X.
      * injection X as -> ->. rewrite Hd in H. cbn [head1] in H. apply (f_equal (fun z => length z)) in H. cbn [length] in H. lia.
      * injection X as -> X. exact (proj2 IH Hd pre l s l' t post X).
Qed.

(** ** Stage 2 *)
Definition head2 (c : chunk2) (r : list chunk2) : list chunk2 :=
  match c with
  | mkChunk2 l (Text2 s) => match r with mkChunk2 _ (Text2 t) :: rest' => mkChunk2 l (Text2 (s ++ t)) :: rest' | other => mkChunk2 l (Text2 s) :: other end
  | _ => c :: r
  end.
Lemma join2_cons c d : join2 (c :: d) = head2 c (join2 d).
Proof. destruct c as [l []]; try reflexivity. cbn [join2 head2]. destruct (join2 d) as [|[? []] ?]; reflexivity. Qed.
Lemma join2_nonempty c d : exists y r, join2 (c :: d) = y :: r.
Proof. rewrite join2_cons. destruct c as [l []]; cbn [head2]; eauto. destruct (join2 d) as [|[? []] ?]; eauto. Qed.
Lemma unch2_cons x y r c : push_chunk_unchecked2 (x :: y :: r) c = x :: push_chunk_unchecked2 (y :: r) c.
Proof. reflexivity. Qed.
Lemma head2_unch x y r c : head2 x (push_chunk_unchecked2 (y :: r) c) = push_chunk_unchecked2 (head2 x (y :: r)) c.
Proof.
  destruct x as [lx vx]. destruct vx as [s|cm|sc|en]; try (cbn [head2]; reflexivity).
  destruct r as [|z r].
  - destruct y as [ly vy]. destruct vy as [t|cm|sc|en]; destruct c as [lc vc]; destruct vc as [u|cm0|sc0|en0]; cbn; rewrite ?app_assoc; reflexivity.
  - rewrite unch2_cons. destruct y as [ly []]; reflexivity.
Qed.
Lemma join2_unch c d : join2 (push_chunk_unchecked2 d c) = push_chunk_unchecked2 (join2 d) c.
Proof.
  induction d as [|x [|y d] IH].
  - destruct c as [l []]; reflexivity.
  - destruct x as [lx vx]; destruct vx as [t|cm|sc|en]; destruct c as [lc vc]; destruct vc as [u|cm0|sc0|en0]; reflexivity.
  - rewrite unch2_cons, (join2_cons x), IH, (join2_cons x). destruct (join2_nonempty y d) as (z & r & ->). apply head2_unch.
Qed.
Lemma join2_swallow d c cs : join2 (d ++ c :: cs) = join2 (push_chunk_unchecked2 d c ++ cs).
Proof.
  induction d as [|x [|y d] IH]; [reflexivity| |].
  - cbn [app]. rewrite !join2_cons. destruct x as [lx vx]; destruct vx as [t|cm|sc|en]; destruct c as [lc vc]; destruct vc as [u|cm0|sc0|en0];
      try (cbn [push_chunk_unchecked2 variant_of2 app]; rewrite !join2_cons; reflexivity).
    cbn [push_chunk_unchecked2 variant_of2 app]. rewrite join2_cons. destruct (join2 cs) as [|[? []] ?]; cbn; rewrite ?app_assoc; reflexivity.
  - rewrite unch2_cons. cbn [app]. rewrite !(join2_cons x). f_equal. exact IH.
Qed.
Lemma fold_unch2 cs : forall d, fold_left push_chunk_unchecked2 cs (join2 d) = join2 (d ++ cs).
Proof.
  induction cs as [|c cs IH]; intros d; cbn [fold_left]; [now rewrite app_nil_r|].
  rewrite <- join2_unch, IH. symmetry. apply join2_swallow.
Qed.
Lemma adds_unch2 d c : lines_add_up2 d -> line_no2 c = 1 + count_newlines (show2 d) -> lines_add_up2 (push_chunk_unchecked2 d c).
Proof.
  destruct d as [|x d _] using rev_ind; intros HL Hc.
  - apply (lines_add_up2_snoc [] c). now split.
  - rewrite push_chunk_unchecked2_snoc.
    assert (G : lines_add_up2 (d ++ [x; c])).
    { change (d ++ [x; c]) with (d ++ ([x] ++ [c])). rewrite app_assoc. apply lines_add_up2_snoc. now split. }
    destruct (variant_of2 c) eqn:Ev; auto. destruct x as [lx []]; auto.
    apply lines_add_up2_snoc in HL as [HL1 HL2]. apply lines_add_up2_snoc. now split.
Qed.
Lemma push_chunk2_some p d c d' : lines_add_up2 d -> 2 + count_newlines (show2 d) < two32 ->
  (push_chunk2 p d c = Ok d' <-> validate_chunk2 c = Ok tt /\ line_no2 c = 1 + count_newlines (show2 d) /\ d' = push_chunk_unchecked2 d c).
Proof.
  intros HL B. unfold push_chunk2. destruct (validate_chunk2 c) as [()|e| |]; cbn [bind]; [|split; [discriminate|intros (X & _); discriminate X]..].
  rewrite end_line2_ok by assumption. cbn [bind]. destruct (N.eqb_spec (1 + count_newlines (show2 d)) (line_no2 c)) as [E|E]; cbn [negb].
  - split; [intros X; injection X as <-; auto|intros (_ & _ & ->); reflexivity].
  - split; [discriminate|]. intros (_ & X & _). congruence.
Qed.
Lemma push_chunk2_fault p d c e : lines_add_up2 d -> 2 + count_newlines (show2 d) < two32 ->
  (push_chunk2 p d c = Err e <-> validate_chunk2 c = Err e \/ (validate_chunk2 c = Ok tt /\ line_no2 c <> 1 + count_newlines (show2 d) /\
     e = IncorrectChunkLineNumber (1 + count_newlines (show2 d)) (line_no2 c))).
Proof.
  intros HL B. unfold push_chunk2. destruct (validate_chunk2 c) as [()|e'| |]; cbn [bind].
  - rewrite end_line2_ok by assumption. cbn [bind]. destruct (N.eqb_spec (1 + count_newlines (show2 d)) (line_no2 c)) as [E|E]; cbn [negb].
    + split; [discriminate|]. intros [X|(_ & X & _)]; [discriminate|congruence].
    + split; [intros X; injection X as <-; right; auto|]. intros [X|(_ & _ & ->)]; [discriminate|reflexivity].
  - split; [intros X; left; congruence|]. intros [X|(X & _)]; [congruence|discriminate X].
  - split; [discriminate|]. intros [X|(X & _)]; discriminate X.
  - split; [discriminate|]. intros [X|(X & _)]; discriminate X.
Qed.
Lemma push2_some p d v d' : lines_add_up2 d -> 2 + count_newlines (show2 d) < two32 ->
  (push2 p d v = Ok d' <-> validate_variant2 v = Ok tt /\ d' = push_chunk_unchecked2 d (mkChunk2 (1 + count_newlines (show2 d)) v)).
Proof.
  intros HL B. unfold push2, push_unchecked2. destruct (validate_variant2 v) as [()|e| |]; cbn [bind]; [|split; [discriminate|intros (X & _); discriminate X]..].
  rewrite end_line2_ok by assumption. cbn [bind]. split; [intros X; injection X as <-; auto|intros (_ & ->); reflexivity].
Qed.
Lemma push2_fault p d v e : lines_add_up2 d -> 2 + count_newlines (show2 d) < two32 -> (push2 p d v = Err e <-> validate_variant2 v = Err e).
Proof.
  intros HL B. unfold push2, push_unchecked2. destruct (validate_variant2 v) as [()|e'| |]; cbn [bind]; try (split; congruence).
  rewrite end_line2_ok by assumption. cbn [bind]. split; discriminate.
Qed.
Lemma fold_push_chunk2 p cs : forall d d', lines_add_up2 d -> 2 + count_newlines (show2 d) + count_newlines (show2 cs) < two32 ->
  (foldM (push_chunk2 p) d cs = Ok d' <-> lines_from2 (1 + count_newlines (show2 d)) cs /\ Forall ok2 cs /\ d' = fold_left push_chunk_unchecked2 cs d).
Proof.
  induction cs as [|c cs IH]; intros d d' HL B; cbn [foldM fold_left].
  - split; [intros X; injection X as <-|intros (_ & _ & ->); reflexivity]. split; [intros [|? ?] ? ? X; discriminate|auto].
  - rewrite show2_cons, count_newlines_app in B. rewrite lines_from2_cons.
    assert (NX : line_no2 c = 1 + count_newlines (show2 d) -> count_newlines (show2 (push_chunk_unchecked2 d c)) = count_newlines (show2 d) + count_newlines (show_chunk2 c)).
    { intros _. now rewrite push_chunk_unchecked2_show, count_newlines_app. }
    destruct (push_chunk2 p d c) as [d1|e| |] eqn:Ep; cbn [bind].
    + apply push_chunk2_some in Ep as (V & Lc & ->); [|assumption|lia]. specialize (NX Lc).
      rewrite IH; [|now apply adds_unch2|lia]. rewrite NX, <- N.add_assoc. rewrite (Forall_cons_iff ok2). tauto.
    + split; [discriminate|]. intros ((Lc & _) & F & _). apply Forall_cons_iff in F as [V _].
      assert (X : push_chunk2 p d c = Ok (push_chunk_unchecked2 d c)) by (apply push_chunk2_some; [assumption|lia|auto]). congruence.
    + split; [discriminate|]. intros ((Lc & _) & F & _). apply Forall_cons_iff in F as [V _].
      assert (X : push_chunk2 p d c = Ok (push_chunk_unchecked2 d c)) by (apply push_chunk2_some; [assumption|lia|auto]). congruence.
    + split; [discriminate|]. intros ((Lc & _) & F & _). apply Forall_cons_iff in F as [V _].
      assert (X : push_chunk2 p d c = Ok (push_chunk_unchecked2 d c)) by (apply push_chunk2_some; [assumption|lia|auto]). congruence.
Qed.
Lemma fold_push2 p vs : forall d d', lines_add_up2 d -> 2 + count_newlines (show2 d) + count_newlines (concat (map show_variant2 vs)) < two32 ->
  (foldM (push2 p) d vs = Ok d' <-> Forall (fun v => validate_variant2 v = Ok tt) vs /\ d' = fold_left push_chunk_unchecked2 (numbered2 (1 + count_newlines (show2 d)) vs) d).
Proof.
  induction vs as [|v vs IH]; intros d d' HL B; cbn [foldM fold_left numbered2].
  - split; [intros X; injection X as <-; auto|intros (_ & ->); reflexivity].
  - cbn [map concat] in B. rewrite count_newlines_app in B.
    destruct (validate_variant2 v) as [()|e| |] eqn:Ev.
    + assert (X : push2 p d v = Ok (push_chunk_unchecked2 d (mkChunk2 (1 + count_newlines (show2 d)) v))) by (apply push2_some; [assumption|lia|auto]).
      rewrite X. cbn [bind].
      assert (NX : count_newlines (show2 (push_chunk_unchecked2 d (mkChunk2 (1 + count_newlines (show2 d)) v))) = count_newlines (show2 d) + count_newlines (show_variant2 v)).
      { now rewrite push_chunk_unchecked2_show, count_newlines_app. }
      rewrite IH; [|now apply adds_unch2|lia]. rewrite NX, <- N.add_assoc. rewrite (Forall_cons_iff (fun v => validate_variant2 v = Ok tt)). tauto.
    + unfold push2 at 1. rewrite Ev. cbn [bind]. rewrite (Forall_cons_iff (fun v => validate_variant2 v = Ok tt)), Ev. split; [discriminate|]. intros ((X & _) & _); discriminate X.
    + unfold push2 at 1. rewrite Ev. cbn [bind]. rewrite (Forall_cons_iff (fun v => validate_variant2 v = Ok tt)), Ev. split; [discriminate|]. intros ((X & _) & _); discriminate X.
    + unfold push2 at 1. rewrite Ev. cbn [bind]. rewrite (Forall_cons_iff (fun v => validate_variant2 v = Ok tt)), Ev. split; [discriminate|]. intros ((X & _) & _); discriminate X.
Qed.
Lemma adds_nil2 : lines_add_up2 [].
Proof. intros [|? ?] ? ? X; discriminate. Qed.
Lemma numbered2_lines vs : forall L, lines_from2 L (numbered2 L vs).
Proof.
  induction vs as [|v vs IH]; intros L; cbn [numbered2]; [intros [|? ?] ? ? X; discriminate|].
  apply lines_from2_cons. split; [reflexivity|]. apply IH.
Qed.
Lemma numbered2_show vs : forall L, show2 (numbered2 L vs) = concat (map show_variant2 vs).
Proof. induction vs as [|v vs IH]; intros L; cbn [numbered2 map concat]; [reflexivity|]. rewrite show2_cons, IH. reflexivity. Qed.
Lemma numbered2_variants vs : forall L, map variant_of2 (numbered2 L vs) = vs.
Proof. induction vs as [|v vs IH]; intros L; cbn [numbered2 map]; [reflexivity|]. now rewrite IH. Qed.
Lemma join2_show d : show2 (join2 d) = show2 d.
Proof.
  induction d as [|c d IH]; [reflexivity|]. rewrite join2_cons, (show2_cons c d), <- IH. destruct c as [l v].
  destruct v as [s|cm|sc|en]; cbn [head2]; rewrite ?show2_cons; try reflexivity.
  destruct (join2 d) as [|[l' v'] r]; rewrite ?show2_cons; [reflexivity|].
  destruct v' as [t|cm0|sc0|en0]; rewrite ?show2_cons; try reflexivity. cbn. now rewrite app_assoc.
Qed.
Lemma join2_id d : (forall pre l s l' t post, d <> pre ++ mkChunk2 l (Text2 s) :: mkChunk2 l' (Text2 t) :: post) <-> join2 d = d.
Proof.
  induction d as [|c d IH].
  - split; [reflexivity|]. intros _ [|? ?] ? ? ? ? ? X; discriminate.
  - split.
    + intros H. rewrite join2_cons. assert (Hd : join2 d = d) by (apply IH; intros pre la sa lb tb post ->; exact (H (c :: pre) la sa lb tb post eq_refl)).
      rewrite Hd. destruct c as [l v]. destruct v as [s|cm|sc|en]; try reflexivity. cbn [head2]. destruct d as [|[l' v'] r]; [reflexivity|].
      destruct v' as [t|cm0|sc0|en0]; try reflexivity. exfalso. exact (H [] l s l' t r eq_refl).
    + intros H. rewrite join2_cons in H.
      assert (LE : forall d : list chunk2, (length (join2 d) <= length d)%nat).
      { clear. induction d as [|c d IH]; [auto|]. rewrite join2_cons. destruct c as [l v]. destruct v as [s|cm|sc|en]; cbn [head2 length]; try lia.
        destruct (join2 d) as [|[l' v'] r]; [cbn in *; lia|]. destruct v' as [t|cm0|sc0|en0]; cbn [length] in *; lia. }
      specialize (LE d).
      assert (Hd : join2 d = d).
      { destruct c as [l v]. destruct v as [s|cm|sc|en]; cbn [head2] in H; try (now injection H as H).
        destruct (join2 d) as [|[l' v'] r]; [now injection H as H|].
        destruct v' as [t|cm0|sc0|en0]; try (now injection H as H). injection H as _ H. exfalso. subst r. cbn [length] in LE. lia. }
      intros [|x pre] l s l' t post X.
      * injection X as -> ->. rewrite Hd in H. cbn [head2] in H. apply (f_equal (fun z => length z)) in H. cbn [length] in H. lia.
      * injection X as -> X. exact (proj2 IH Hd pre l s l' t post X).
Qed.

(** ** Stage 3 *)
Definition head3 (c : chunk3) (r : list chunk3) : list chunk3 :=
  match c with
  | mkChunk3 l (Text3 s) => match r with mkChunk3 _ (Text3 t) :: rest' => mkChunk3 l (Text3 (s ++ t)) :: rest' | other => mkChunk3 l (Text3 s) :: other end
  | _ => c :: r
  end.
Lemma join3_cons c d : join3 (c :: d) = head3 c (join3 d).
Proof. destruct c as [l []]; try reflexivity. cbn [join3 head3]. destruct (join3 d) as [|[? []] ?]; reflexivity. Qed.
Lemma join3_nonempty c d : exists y r, join3 (c :: d) = y :: r.
Proof. rewrite join3_cons. destruct c as [l []]; cbn [head3]; eauto. destruct (join3 d) as [|[? []] ?]; eauto. Qed.
Lemma unch3_cons x y r c : push_chunk_vec_unchecked (x :: y :: r) c = x :: push_chunk_vec_unchecked (y :: r) c.
Proof. reflexivity. Qed.
Lemma head3_unch x y r c : head3 x (push_chunk_vec_unchecked (y :: r) c) = push_chunk_vec_unchecked (head3 x (y :: r)) c.
Proof.
  destruct x as [lx vx]. destruct vx as [s|bk|mb|cm|sc|en]; try (cbn [head3]; reflexivity).
  destruct r as [|z r].
  - destruct y as [ly vy]. destruct vy as [t|bk|mb|cm|sc|en]; destruct c as [lc vc]; destruct vc as [u|bk0|mb0|cm0|sc0|en0]; cbn; rewrite ?app_assoc; reflexivity.
  - rewrite unch3_cons. destruct y as [ly []]; reflexivity.
Qed.
Lemma join3_unch c d : join3 (push_chunk_vec_unchecked d c) = push_chunk_vec_unchecked (join3 d) c.
Proof.
  induction d as [|x [|y d] IH].
  - destruct c as [l []]; reflexivity.
  - destruct x as [lx vx]; destruct vx as [t|bk|mb|cm|sc|en]; destruct c as [lc vc]; destruct vc as [u|bk0|mb0|cm0|sc0|en0]; reflexivity.
  - rewrite unch3_cons, (join3_cons x), IH, (join3_cons x). destruct (join3_nonempty y d) as (z & r & ->). apply head3_unch.
Qed.
Lemma join3_swallow d c cs : join3 (d ++ c :: cs) = join3 (push_chunk_vec_unchecked d c ++ cs).
Proof.
  induction d as [|x [|y d] IH]; [reflexivity| |].
  - cbn [app]. rewrite !join3_cons. destruct x as [lx vx]; destruct vx as [t|bk|mb|cm|sc|en]; destruct c as [lc vc]; destruct vc as [u|bk0|mb0|cm0|sc0|en0];
      try (cbn [push_chunk_vec_unchecked variant_of3 app]; rewrite !join3_cons; reflexivity).
    cbn [push_chunk_vec_unchecked variant_of3 app]. rewrite join3_cons. destruct (join3 cs) as [|[? []] ?]; cbn; rewrite ?app_assoc; reflexivity.
  - rewrite unch3_cons. cbn [app]. rewrite !(join3_cons x). f_equal. exact IH.
Qed.
Lemma fold_unch3 cs : forall d, fold_left push_chunk_vec_unchecked cs (join3 d) = join3 (d ++ cs).
Proof.
  induction cs as [|c cs IH]; intros d; cbn [fold_left]; [now rewrite app_nil_r|].
  rewrite <- join3_unch, IH. symmetry. apply join3_swallow.
Qed.
Lemma adds_unch3 d c : lines_add_up3 d -> line_no3 c = 1 + count_newlines (show_chunks3 d) -> lines_add_up3 (push_chunk_vec_unchecked d c).
Proof.
  destruct d as [|x d _] using rev_ind; intros HL Hc.
  - apply (lines_add_up3_snoc [] c). now split.
  - rewrite push_chunk_vec_unchecked_snoc.
    assert (G : lines_add_up3 (d ++ [x; c])).
    { change (d ++ [x; c]) with (d ++ ([x] ++ [c])). rewrite app_assoc. apply lines_add_up3_snoc. now split. }
    destruct (variant_of3 c) eqn:Ev; auto. destruct x as [lx []]; auto.
    apply lines_add_up3_snoc in HL as [HL1 HL2]. apply lines_add_up3_snoc. now split.
Qed.
Lemma push_chunk3_some p d c d' : lines_add_up3 d -> 2 + count_newlines (show_chunks3 d) < two32 ->
  (push_chunk_vec p d c = Ok d' <-> validate_chunk3 p c = Ok tt /\ line_no3 c = 1 + count_newlines (show_chunks3 d) /\ d' = push_chunk_vec_unchecked d c).
Proof.
  intros HL B. unfold push_chunk_vec. destruct (validate_chunk3 p c) as [()|e| |]; cbn [bind]; [|split; [discriminate|intros (X & _); discriminate X]..].
  rewrite end_line3_ok by assumption. cbn [bind]. destruct (N.eqb_spec (1 + count_newlines (show_chunks3 d)) (line_no3 c)) as [E|E]; cbn [negb].
  - split; [intros X; injection X as <-; auto|intros (_ & _ & ->); reflexivity].
  - split; [discriminate|]. intros (_ & X & _). congruence.
Qed.
Lemma push_chunk3_fault p d c e : lines_add_up3 d -> 2 + count_newlines (show_chunks3 d) < two32 ->
  (push_chunk_vec p d c = Err e <-> validate_chunk3 p c = Err e \/ (validate_chunk3 p c = Ok tt /\ line_no3 c <> 1 + count_newlines (show_chunks3 d) /\
     e = IncorrectChunkLineNumber (1 + count_newlines (show_chunks3 d)) (line_no3 c))).
Proof.
  intros HL B. unfold push_chunk_vec. destruct (validate_chunk3 p c) as [()|e'| |]; cbn [bind].
  - rewrite end_line3_ok by assumption. cbn [bind]. destruct (N.eqb_spec (1 + count_newlines (show_chunks3 d)) (line_no3 c)) as [E|E]; cbn [negb].
    + split; [discriminate|]. intros [X|(_ & X & _)]; [discriminate|congruence].
    + split; [intros X; injection X as <-; right; auto|]. intros [X|(_ & _ & ->)]; [discriminate|reflexivity].
  - split; [intros X; left; congruence|]. intros [X|(X & _)]; [congruence|discriminate X].
  - split; [discriminate|]. intros [X|(X & _)]; discriminate X.
  - split; [discriminate|]. intros [X|(X & _)]; discriminate X.
Qed.
Lemma push3_some p d v d' : lines_add_up3 d -> 2 + count_newlines (show_chunks3 d) < two32 ->
  (push_vec p d v = Ok d' <-> validate_variant3 p v = Ok tt /\ d' = push_chunk_vec_unchecked d (mkChunk3 (1 + count_newlines (show_chunks3 d)) v)).
Proof.
  intros HL B. unfold push_vec, push_vec_unchecked. destruct (validate_variant3 p v) as [()|e| |]; cbn [bind]; [|split; [discriminate|intros (X & _); discriminate X]..].
  rewrite end_line3_ok by assumption. cbn [bind]. split; [intros X; injection X as <-; auto|intros (_ & ->); reflexivity].
Qed.
Lemma push3_fault p d v e : lines_add_up3 d -> 2 + count_newlines (show_chunks3 d) < two32 -> (push_vec p d v = Err e <-> validate_variant3 p v = Err e).
Proof.
  intros HL B. unfold push_vec, push_vec_unchecked. destruct (validate_variant3 p v) as [()|e'| |]; cbn [bind]; try (split; congruence).
  rewrite end_line3_ok by assumption. cbn [bind]. split; discriminate.
Qed.
Lemma fold_push_chunk3 p cs : forall d d', lines_add_up3 d -> 2 + count_newlines (show_chunks3 d) + count_newlines (show_chunks3 cs) < two32 ->
  (foldM (push_chunk_vec p) d cs = Ok d' <-> lines_from3 (1 + count_newlines (show_chunks3 d)) cs /\ Forall (ok3 p) cs /\ d' = fold_left push_chunk_vec_unchecked cs d).
Proof.
  induction cs as [|c cs IH]; intros d d' HL B; cbn [foldM fold_left].
  - split; [intros X; injection X as <-|intros (_ & _ & ->); reflexivity]. split; [intros [|? ?] ? ? X; discriminate|auto].
  - rewrite show_chunks3_cons, count_newlines_app in B. rewrite lines_from3_cons.
    assert (NX : line_no3 c = 1 + count_newlines (show_chunks3 d) -> count_newlines (show_chunks3 (push_chunk_vec_unchecked d c)) = count_newlines (show_chunks3 d) + count_newlines (show_chunk3 c)).
    { intros _. now rewrite push_chunk_vec_unchecked_show, count_newlines_app. }
    destruct (push_chunk_vec p d c) as [d1|e| |] eqn:Ep; cbn [bind].
    + apply push_chunk3_some in Ep as (V & Lc & ->); [|assumption|lia]. specialize (NX Lc).
      rewrite IH; [|now apply adds_unch3|lia]. rewrite NX, <- N.add_assoc. rewrite (Forall_cons_iff (ok3 p)). tauto.
    + split; [discriminate|]. intros ((Lc & _) & F & _). apply Forall_cons_iff in F as [V _].
      assert (X : push_chunk_vec p d c = Ok (push_chunk_vec_unchecked d c)) by (apply push_chunk3_some; [assumption|lia|auto]). congruence.
    + split; [discriminate|]. intros ((Lc & _) & F & _). apply Forall_cons_iff in F as [V _].
      assert (X : push_chunk_vec p d c = Ok (push_chunk_vec_unchecked d c)) by (apply push_chunk3_some; [assumption|lia|auto]). congruence.
    + split; [discriminate|]. intros ((Lc & _) & F & _). apply Forall_cons_iff in F as [V _].
      assert (X : push_chunk_vec p d c = Ok (push_chunk_vec_unchecked d c)) by (apply push_chunk3_some; [assumption|lia|auto]). congruence.
Qed.
Lemma fold_push3 p vs : forall d d', lines_add_up3 d -> 2 + count_newlines (show_chunks3 d) + count_newlines (concat (map show_variant3 vs)) < two32 ->
  (foldM (push_vec p) d vs = Ok d' <-> Forall (fun v => validate_variant3 p v = Ok tt) vs /\ d' = fold_left push_chunk_vec_unchecked (numbered3 (1 + count_newlines (show_chunks3 d)) vs) d).
Proof.
  induction vs as [|v vs IH]; intros d d' HL B; cbn [foldM fold_left numbered3].
  - split; [intros X; injection X as <-; auto|intros (_ & ->); reflexivity].
  - cbn [map concat] in B. rewrite count_newlines_app in B.
    destruct (validate_variant3 p v) as [()|e| |] eqn:Ev.
    + assert (X : push_vec p d v = Ok (push_chunk_vec_unchecked d (mkChunk3 (1 + count_newlines (show_chunks3 d)) v))) by (apply push3_some; [assumption|lia|auto]).
      rewrite X. cbn [bind].
      assert (NX : count_newlines (show_chunks3 (push_chunk_vec_unchecked d (mkChunk3 (1 + count_newlines (show_chunks3 d)) v))) = count_newlines (show_chunks3 d) + count_newlines (show_variant3 v)).
      { now rewrite push_chunk_vec_unchecked_show, count_newlines_app. }
      rewrite IH; [|now apply adds_unch3|lia]. rewrite NX, <- N.add_assoc. rewrite (Forall_cons_iff (fun v => validate_variant3 p v = Ok tt)). tauto.
    + unfold push_vec at 1. rewrite Ev. cbn [bind]. rewrite (Forall_cons_iff (fun v => validate_variant3 p v = Ok tt)), Ev. split; [discriminate|]. intros ((X & _) & _); discriminate X.
    + unfold push_vec at 1. rewrite Ev. cbn [bind]. rewrite (Forall_cons_iff (fun v => validate_variant3 p v = Ok tt)), Ev. split; [discriminate|]. intros ((X & _) & _); discriminate X.
    + unfold push_vec at 1. rewrite Ev. cbn [bind]. rewrite (Forall_cons_iff (fun v => validate_variant3 p v = Ok tt)), Ev. split; [discriminate|]. intros ((X & _) & _); discriminate X.
Qed.
Lemma adds_nil3 : lines_add_up3 [].
Proof. intros [|? ?] ? ? X; discriminate. Qed.
Lemma numbered3_lines vs : forall L, lines_from3 L (numbered3 L vs).
Proof.
  induction vs as [|v vs IH]; intros L; cbn [numbered3]; [intros [|? ?] ? ? X; discriminate|].
  apply lines_from3_cons. split; [reflexivity|]. apply IH.
Qed.
Lemma numbered3_show vs : forall L, show_chunks3 (numbered3 L vs) = concat (map show_variant3 vs).
Proof. induction vs as [|v vs IH]; intros L; cbn [numbered3 map concat]; [reflexivity|]. rewrite show_chunks3_cons, IH. reflexivity. Qed.
Lemma numbered3_variants vs : forall L, map variant_of3 (numbered3 L vs) = vs.
Proof. induction vs as [|v vs IH]; intros L; cbn [numbered3 map]; [reflexivity|]. now rewrite IH. Qed.
Lemma join3_show d : show_chunks3 (join3 d) = show_chunks3 d.
Proof.
  induction d as [|c d IH]; [reflexivity|]. rewrite join3_cons, (show_chunks3_cons c d), <- IH. destruct c as [l v].
  destruct v as [s|bk|mb|cm|sc|en]; cbn [head3]; rewrite ?show_chunks3_cons; try reflexivity.
  destruct (join3 d) as [|[l' v'] r]; rewrite ?show_chunks3_cons; [reflexivity|].
  destruct v' as [t|bk0|mb0|cm0|sc0|en0]; rewrite ?show_chunks3_cons; try reflexivity. cbn. now rewrite app_assoc.
Qed.
Lemma join3_id d : (forall pre l s l' t post, d <> pre ++ mkChunk3 l (Text3 s) :: mkChunk3 l' (Text3 t) :: post) <-> join3 d = d.
Proof.
  induction d as [|c d IH].
  - split; [reflexivity|]. intros _ [|? ?] ? ? ? ? ? X; discriminate.
  - split.
    + intros H. rewrite join3_cons. assert (Hd : join3 d = d) by (apply IH; intros pre la sa lb tb post ->; exact (H (c :: pre) la sa lb tb post eq_refl)).
      rewrite Hd. destruct c as [l v]. destruct v as [s|bk|mb|cm|sc|en]; try reflexivity. cbn [head3]. destruct d as [|[l' v'] r]; [reflexivity|].
      destruct v' as [t|bk0|mb0|cm0|sc0|en0]; try reflexivity. exfalso. exact (H [] l s l' t r eq_refl).
    + intros H. rewrite join3_cons in H.
      assert (LE : forall d : list chunk3, (length (join3 d) <= length d)%nat).
      { clear. induction d as [|c d IH]; [auto|]. rewrite join3_cons. destruct c as [l v]. destruct v as [s|bk|mb|cm|sc|en]; cbn [head3 length]; try lia.
        destruct (join3 d) as [|[l' v'] r]; [cbn in *; lia|]. destruct v' as [t|bk0|mb0|cm0|sc0|en0]; cbn [length] in *; lia. }
      specialize (LE d).
      assert (Hd : join3 d = d).
      { destruct c as [l v]. destruct v as [s|bk|mb|cm|sc|en]; cbn [head3] in H; try (now injection H as H).
        destruct (join3 d) as [|[l' v'] r]; [now injection H as H|].
        destruct v' as [t|bk0|mb0|cm0|sc0|en0]; try (now injection H as H). injection H as _ H. exfalso. subst r. cbn [length] in LE. lia. }
      intros [|x pre] l s l' t post X.
      * injection X as -> ->. rewrite Hd in H. cbn [head3] in H. apply (f_equal (fun z => length z)) in H. cbn [length] in H. lia.
      * injection X as -> X. exact (proj2 IH Hd pre l s l' t post X).
Qed.

(** ** Stage 1: the results *)
Theorem rebuild1 p d d' : 2 + count_newlines (show1 d) < two32 ->
  (foldM (push_chunk1 p) [] d = Ok d' <-> validate1 p d = Ok tt /\ d' = join1 d).
Proof.
  intros B. rewrite (fold_push_chunk1 p d [] d' adds_nil1) by exact B.
  change [] with (join1 []) at 2. rewrite fold_unch1. unfold validate1. rewrite (validate_from1_ok p d 1) by (cbn; lia).
  change (1 + count_newlines (show1 [])) with 1. cbn [app]. tauto.
Qed.
Theorem build1 p vs d' : 2 + count_newlines (concat (map show_variant1 vs)) < two32 ->
  (foldM (push1 p) [] vs = Ok d' <-> Forall (fun v => validate_variant1 v = Ok tt) vs /\ d' = join1 (numbered1 1 vs)).
Proof.
  intros B. rewrite (fold_push1 p vs [] d' adds_nil1) by exact B.
  change [] with (join1 []) at 2. rewrite fold_unch1. reflexivity.
Qed.
Lemma variants_le1 pre v post : count_newlines (concat (map show_variant1 pre)) <= count_newlines (concat (map show_variant1 (pre ++ v :: post))).
Proof. rewrite map_app, concat_app, count_newlines_app. lia. Qed.
Lemma fold_adds1 p vs : forall d d', lines_add_up1 d -> 2 + count_newlines (show1 d) + count_newlines (concat (map show_variant1 vs)) < two32 ->
  foldM (push1 p) d vs = Ok d' -> lines_add_up1 d' /\ count_newlines (show1 d') = count_newlines (show1 d) + count_newlines (concat (map show_variant1 vs)).
Proof.
  induction vs as [|v vs IH]; intros d d' HL B H; cbn [foldM map concat] in *.
  - injection H as <-. split; [assumption|]. cbn. lia.
  - rewrite count_newlines_app in *. destruct (push1 p d v) as [d1|e| |] eqn:E; cbn [bind] in H; try discriminate.
    apply push1_some in E as (_ & ->); [|assumption|lia].
    assert (NX : count_newlines (show1 (push_chunk_unchecked1 d (mkChunk1 (1 + count_newlines (show1 d)) v))) = count_newlines (show1 d) + count_newlines (show_variant1 v)).
    { now rewrite push_chunk_unchecked1_show, count_newlines_app. }
    apply IH in H as [A N1]; [|now apply adds_unch1|lia]. split; [assumption|lia].
Qed.
Theorem build1_error p vs e : 2 + count_newlines (concat (map show_variant1 vs)) < two32 ->
  (foldM (push1 p) [] vs = Err e <->
   exists pre v post, vs = pre ++ v :: post /\ Forall (fun v => validate_variant1 v = Ok tt) pre /\ validate_variant1 v = Err e).
Proof.
  intros B. rewrite foldM_err. split.
  - intros (pre & v & post & d1 & -> & H1 & H2). exists pre, v, post. split; [reflexivity|].
    assert (Bp : 2 + count_newlines (concat (map show_variant1 pre)) < two32) by (pose proof (variants_le1 pre v post); lia).
    pose proof (fold_adds1 p pre [] d1 adds_nil1 Bp H1) as [A N1]. change (count_newlines (show1 [])) with 0 in N1.
    apply push1_fault in H2; [|assumption|lia]. split; [|assumption]. now apply (build1 p pre d1 Bp).
  - intros (pre & v & post & -> & F & V).
    assert (Bp : 2 + count_newlines (concat (map show_variant1 pre)) < two32) by (pose proof (variants_le1 pre v post); lia).
    pose proof (proj2 (build1 p pre (join1 (numbered1 1 pre)) Bp) (conj F eq_refl)) as H1.
    exists pre, v, post, (join1 (numbered1 1 pre)). split; [reflexivity|]. split; [exact H1|].
    pose proof (fold_adds1 p pre [] _ adds_nil1 Bp H1) as [A N1]. change (count_newlines (show1 [])) with 0 in N1.
    apply push1_fault; [assumption|lia|assumption].
Qed.
Lemma fold_adds_chunk1 p cs : forall d d', lines_add_up1 d -> 2 + count_newlines (show1 d) + count_newlines (show1 cs) < two32 ->
  foldM (push_chunk1 p) d cs = Ok d' -> lines_add_up1 d' /\ show1 d' = show1 d ++ show1 cs.
Proof.
  induction cs as [|c cs IH]; intros d d' HL B H; cbn [foldM] in *.
  - injection H as <-. split; [assumption|]. now rewrite app_nil_r.
  - rewrite show1_cons, count_newlines_app in B. destruct (push_chunk1 p d c) as [d1|e| |] eqn:E; cbn [bind] in H; try discriminate.
    apply push_chunk1_some in E as (_ & Lc & ->); [|assumption|lia].
    apply IH in H as [A N1]; [|now apply adds_unch1|rewrite push_chunk_unchecked1_show, count_newlines_app; lia]. split; [assumption|].
    rewrite N1, push_chunk_unchecked1_show, show1_cons. now rewrite app_assoc.
Qed.
Lemma show1_le pre (c : chunk1) post : count_newlines (show1 pre) <= count_newlines (show1 (pre ++ c :: post)).
Proof. rewrite show1_app, count_newlines_app. lia. Qed.
Theorem rebuild1_error p d e : 2 + count_newlines (show1 d) < two32 ->
  (foldM (push_chunk1 p) [] d = Err e <->
   exists pre c post, d = pre ++ c :: post /\ validate1 p pre = Ok tt /\
     (validate_chunk1 c = Err e \/ (validate_chunk1 c = Ok tt /\ line_no1 c <> 1 + count_newlines (show1 pre) /\ e = IncorrectChunkLineNumber (1 + count_newlines (show1 pre)) (line_no1 c)))).
Proof.
  intros B. rewrite foldM_err. split.
  - intros (pre & c & post & d1 & -> & H1 & H2). exists pre, c, post. split; [reflexivity|].
    assert (Bp : 2 + count_newlines (show1 pre) < two32) by (pose proof (show1_le pre c post); lia).
    pose proof (fold_adds_chunk1 p pre [] d1 adds_nil1 Bp H1) as [A N1]. change (show1 [] ++ show1 pre) with (show1 pre) in N1.
    apply push_chunk1_fault in H2; [|assumption|rewrite N1; lia]. rewrite N1 in H2. split; [|assumption]. now apply (rebuild1 p pre d1 Bp).
  - intros (pre & c & post & -> & F & V).
    assert (Bp : 2 + count_newlines (show1 pre) < two32) by (pose proof (show1_le pre c post); lia).
    pose proof (proj2 (rebuild1 p pre (join1 pre) Bp) (conj F eq_refl)) as H1.
    exists pre, c, post, (join1 pre). split; [reflexivity|]. split; [exact H1|].
    pose proof (fold_adds_chunk1 p pre [] _ adds_nil1 Bp H1) as [A N1]. change (show1 [] ++ show1 pre) with (show1 pre) in N1.
    apply push_chunk1_fault; [assumption|rewrite N1; lia|]. rewrite N1. exact V.
Qed.
Lemma unch_twice1 d l l' s t : push_chunk_unchecked1 (push_chunk_unchecked1 d (mkChunk1 l (Text1 s))) (mkChunk1 l' (Text1 t)) = push_chunk_unchecked1 d (mkChunk1 l (Text1 (s ++ t))).
Proof.
  destruct d as [|x d _] using rev_ind; [reflexivity|]. rewrite !push_chunk_unchecked1_snoc. cbn [variant_of1].
  destruct x as [lx vx]. destruct vx;
    [rewrite push_chunk_unchecked1_snoc; cbn [variant_of1]; rewrite <- app_assoc; reflexivity|..].
  all: match goal with |- push_chunk_unchecked1 (?z ++ [?a; ?b]) _ = _ => change (z ++ [a; b]) with (z ++ ([a] ++ [b])) end.
  all: rewrite app_assoc, push_chunk_unchecked1_snoc; cbn [variant_of1]; rewrite <- app_assoc; reflexivity.
Qed.
Lemma text_app1 s t : validate_variant1 (Text1 (s ++ t)) = Ok tt <-> validate_variant1 (Text1 s) = Ok tt /\ validate_variant1 (Text1 t) = Ok tt.
Proof. cbn [validate_variant1]. rewrite !check_chars_ok, existsb_app, orb_false_iff. reflexivity. Qed.
Lemma seq_end1 (r : outcome internal_error (list chunk1)) d' : (let* x := r in Ok x) = Ok d' <-> r = Ok d'.
Proof. destruct r; reflexivity. Qed.
Theorem push_twice1 p d s t d' : lines_add_up1 d -> 2 + count_newlines (show1 d) + count_newlines s < two32 ->
  (foldM (push1 p) d [Text1 s; Text1 t] = Ok d' <-> push1 p d (Text1 (s ++ t)) = Ok d').
Proof.
  intros HL B. cbn [foldM]. destruct (push1 p d (Text1 s)) as [d1|e| |] eqn:E; cbn [bind].
  1:{ apply push1_some in E as (V & ->); [|assumption|lia].
    assert (NX : count_newlines (show1 (push_chunk_unchecked1 d (mkChunk1 (1 + count_newlines (show1 d)) (Text1 s)))) = count_newlines (show1 d) + count_newlines s).
    { now rewrite push_chunk_unchecked1_show, count_newlines_app. }
    rewrite seq_end1. rewrite (push1_some p (push_chunk_unchecked1 d (mkChunk1 (1 + count_newlines (show1 d)) (Text1 s))) (Text1 t)); [|apply adds_unch1; [assumption|reflexivity]|lia]. rewrite (push1_some p d (Text1 (s ++ t))); [|assumption|lia].
    rewrite unch_twice1, text_app1, V. tauto. }
  all: assert (X : ~ (validate_variant1 (Text1 s) = Ok tt)) by (intros X; assert (Y : push1 p d (Text1 s) = Ok (push_chunk_unchecked1 d (mkChunk1 (1 + count_newlines (show1 d)) (Text1 s)))) by (apply push1_some; [assumption|lia|auto]); congruence).
  all: split; [discriminate|]; intros Y; apply push1_some in Y as (Y & _); [|assumption|lia]; rewrite text_app1 in Y; tauto.
Qed.

(** ** Stage 2: the results *)
Theorem rebuild2 p d d' : 2 + count_newlines (show2 d) < two32 ->
  (foldM (push_chunk2 p) [] d = Ok d' <-> validate2 p d = Ok tt /\ d' = join2 d).
Proof.
  intros B. rewrite (fold_push_chunk2 p d [] d' adds_nil2) by exact B.
  change [] with (join2 []) at 2. rewrite fold_unch2. unfold validate2. rewrite (validate_from2_ok p d 1) by (cbn; lia).
  change (1 + count_newlines (show2 [])) with 1. cbn [app]. tauto.
Qed.
Theorem build2 p vs d' : 2 + count_newlines (concat (map show_variant2 vs)) < two32 ->
  (foldM (push2 p) [] vs = Ok d' <-> Forall (fun v => validate_variant2 v = Ok tt) vs /\ d' = join2 (numbered2 1 vs)).
Proof.
  intros B. rewrite (fold_push2 p vs [] d' adds_nil2) by exact B.
  change [] with (join2 []) at 2. rewrite fold_unch2. reflexivity.
Qed.
Lemma variants_le2 pre v post : count_newlines (concat (map show_variant2 pre)) <= count_newlines (concat (map show_variant2 (pre ++ v :: post))).
Proof. rewrite map_app, concat_app, count_newlines_app. lia. Qed.
Lemma fold_adds2 p vs : forall d d', lines_add_up2 d -> 2 + count_newlines (show2 d) + count_newlines (concat (map show_variant2 vs)) < two32 ->
  foldM (push2 p) d vs = Ok d' -> lines_add_up2 d' /\ count_newlines (show2 d') = count_newlines (show2 d) + count_newlines (concat (map show_variant2 vs)).
Proof.
  induction vs as [|v vs IH]; intros d d' HL B H; cbn [foldM map concat] in *.
  - injection H as <-. split; [assumption|]. cbn. lia.
  - rewrite count_newlines_app in *. destruct (push2 p d v) as [d1|e| |] eqn:E; cbn [bind] in H; try discriminate.
    apply push2_some in E as (_ & ->); [|assumption|lia].
    assert (NX : count_newlines (show2 (push_chunk_unchecked2 d (mkChunk2 (1 + count_newlines (show2 d)) v))) = count_newlines (show2 d) + count_newlines (show_variant2 v)).
    { now rewrite push_chunk_unchecked2_show, count_newlines_app. }
    apply IH in H as [A N1]; [|now apply adds_unch2|lia]. split; [assumption|lia].
Qed.
Theorem build2_error p vs e : 2 + count_newlines (concat (map show_variant2 vs)) < two32 ->
  (foldM (push2 p) [] vs = Err e <->
   exists pre v post, vs = pre ++ v :: post /\ Forall (fun v => validate_variant2 v = Ok tt) pre /\ validate_variant2 v = Err e).
Proof.
  intros B. rewrite foldM_err. split.
  - intros (pre & v & post & d1 & -> & H1 & H2). exists pre, v, post. split; [reflexivity|].
    assert (Bp : 2 + count_newlines (concat (map show_variant2 pre)) < two32) by (pose proof (variants_le2 pre v post); lia).
    pose proof (fold_adds2 p pre [] d1 adds_nil2 Bp H1) as [A N1]. change (count_newlines (show2 [])) with 0 in N1.
    apply push2_fault in H2; [|assumption|lia]. split; [|assumption]. now apply (build2 p pre d1 Bp).
  - intros (pre & v & post & -> & F & V).
    assert (Bp : 2 + count_newlines (concat (map show_variant2 pre)) < two32) by (pose proof (variants_le2 pre v post); lia).
    pose proof (proj2 (build2 p pre (join2 (numbered2 1 pre)) Bp) (conj F eq_refl)) as H1.
    exists pre, v, post, (join2 (numbered2 1 pre)). split; [reflexivity|]. split; [exact H1|].
    pose proof (fold_adds2 p pre [] _ adds_nil2 Bp H1) as [A N1]. change (count_newlines (show2 [])) with 0 in N1.
    apply push2_fault; [assumption|lia|assumption].
Qed.
Lemma fold_adds_chunk2 p cs : forall d d', lines_add_up2 d -> 2 + count_newlines (show2 d) + count_newlines (show2 cs) < two32 ->
  foldM (push_chunk2 p) d cs = Ok d' -> lines_add_up2 d' /\ show2 d' = show2 d ++ show2 cs.
Proof.
  induction cs as [|c cs IH]; intros d d' HL B H; cbn [foldM] in *.
  - injection H as <-. split; [assumption|]. now rewrite app_nil_r.
  - rewrite show2_cons, count_newlines_app in B. destruct (push_chunk2 p d c) as [d1|e| |] eqn:E; cbn [bind] in H; try discriminate.
    apply push_chunk2_some in E as (_ & Lc & ->); [|assumption|lia].
    apply IH in H as [A N1]; [|now apply adds_unch2|rewrite push_chunk_unchecked2_show, count_newlines_app; lia]. split; [assumption|].
    rewrite N1, push_chunk_unchecked2_show, show2_cons. now rewrite app_assoc.
Qed.
Lemma show2_le pre (c : chunk2) post : count_newlines (show2 pre) <= count_newlines (show2 (pre ++ c :: post)).
Proof. rewrite show2_app, count_newlines_app. lia. Qed.
Theorem rebuild2_error p d e : 2 + count_newlines (show2 d) < two32 ->
  (foldM (push_chunk2 p) [] d = Err e <->
   exists pre c post, d = pre ++ c :: post /\ validate2 p pre = Ok tt /\
     (validate_chunk2 c = Err e \/ (validate_chunk2 c = Ok tt /\ line_no2 c <> 1 + count_newlines (show2 pre) /\ e = IncorrectChunkLineNumber (1 + count_newlines (show2 pre)) (line_no2 c)))).
Proof.
  intros B. rewrite foldM_err. split.
  - intros (pre & c & post & d1 & -> & H1 & H2). exists pre, c, post. split; [reflexivity|].
    assert (Bp : 2 + count_newlines (show2 pre) < two32) by (pose proof (show2_le pre c post); lia).
    pose proof (fold_adds_chunk2 p pre [] d1 adds_nil2 Bp H1) as [A N1]. change (show2 [] ++ show2 pre) with (show2 pre) in N1.
    apply push_chunk2_fault in H2; [|assumption|rewrite N1; lia]. rewrite N1 in H2. split; [|assumption]. now apply (rebuild2 p pre d1 Bp).
  - intros (pre & c & post & -> & F & V).
    assert (Bp : 2 + count_newlines (show2 pre) < two32) by (pose proof (show2_le pre c post); lia).
    pose proof (proj2 (rebuild2 p pre (join2 pre) Bp) (conj F eq_refl)) as H1.
    exists pre, c, post, (join2 pre). split; [reflexivity|]. split; [exact H1|].
    pose proof (fold_adds_chunk2 p pre [] _ adds_nil2 Bp H1) as [A N1]. change (show2 [] ++ show2 pre) with (show2 pre) in N1.
    apply push_chunk2_fault; [assumption|rewrite N1; lia|]. rewrite N1. exact V.
Qed.
Lemma unch_twice2 d l l' s t : push_chunk_unchecked2 (push_chunk_unchecked2 d (mkChunk2 l (Text2 s))) (mkChunk2 l' (Text2 t)) = push_chunk_unchecked2 d (mkChunk2 l (Text2 (s ++ t))).
Proof.
  destruct d as [|x d _] using rev_ind; [reflexivity|]. rewrite !push_chunk_unchecked2_snoc. cbn [variant_of2].
  destruct x as [lx vx]. destruct vx;
    [rewrite push_chunk_unchecked2_snoc; cbn [variant_of2]; rewrite <- app_assoc; reflexivity|..].
  all: match goal with |- push_chunk_unchecked2 (?z ++ [?a; ?b]) _ = _ => change (z ++ [a; b]) with (z ++ ([a] ++ [b])) end.
  all: rewrite app_assoc, push_chunk_unchecked2_snoc; cbn [variant_of2]; rewrite <- app_assoc; reflexivity.
Qed.
Lemma text_app2 s t : validate_variant2 (Text2 (s ++ t)) = Ok tt <-> validate_variant2 (Text2 s) = Ok tt /\ validate_variant2 (Text2 t) = Ok tt.
Proof. cbn [validate_variant2]. rewrite !check_chars_ok, existsb_app, orb_false_iff. reflexivity. Qed.
Lemma seq_end2 (r : outcome internal_error (list chunk2)) d' : (let* x := r in Ok x) = Ok d' <-> r = Ok d'.
Proof. destruct r; reflexivity. Qed.
Theorem push_twice2 p d s t d' : lines_add_up2 d -> 2 + count_newlines (show2 d) + count_newlines s < two32 ->
  (foldM (push2 p) d [Text2 s; Text2 t] = Ok d' <-> push2 p d (Text2 (s ++ t)) = Ok d').
Proof.
  intros HL B. cbn [foldM]. destruct (push2 p d (Text2 s)) as [d1|e| |] eqn:E; cbn [bind].
  1:{ apply push2_some in E as (V & ->); [|assumption|lia].
    assert (NX : count_newlines (show2 (push_chunk_unchecked2 d (mkChunk2 (1 + count_newlines (show2 d)) (Text2 s)))) = count_newlines (show2 d) + count_newlines s).
    { now rewrite push_chunk_unchecked2_show, count_newlines_app. }
    rewrite seq_end2. rewrite (push2_some p (push_chunk_unchecked2 d (mkChunk2 (1 + count_newlines (show2 d)) (Text2 s))) (Text2 t)); [|apply adds_unch2; [assumption|reflexivity]|lia]. rewrite (push2_some p d (Text2 (s ++ t))); [|assumption|lia].
    rewrite unch_twice2, text_app2, V. tauto. }
  all: assert (X : ~ (validate_variant2 (Text2 s) = Ok tt)) by (intros X; assert (Y : push2 p d (Text2 s) = Ok (push_chunk_unchecked2 d (mkChunk2 (1 + count_newlines (show2 d)) (Text2 s)))) by (apply push2_some; [assumption|lia|auto]); congruence).
  all: split; [discriminate|]; intros Y; apply push2_some in Y as (Y & _); [|assumption|lia]; rewrite text_app2 in Y; tauto.
Qed.

(** ** Stage 3: the results *)
Theorem rebuild3 p d d' : 2 + count_newlines (show_chunks3 d) < two32 ->
  (foldM (push_chunk_vec p) [] d = Ok d' <-> validate_from3 p 1 d = Ok tt /\ d' = join3 d).
Proof.
  intros B. rewrite (fold_push_chunk3 p d [] d' adds_nil3) by exact B.
  change [] with (join3 []) at 2. rewrite fold_unch3. rewrite (validate_from3_ok p d 1) by (cbn; lia).
  change (1 + count_newlines (show_chunks3 [])) with 1. cbn [app]. tauto.
Qed.
Theorem build3 p vs d' : 2 + count_newlines (concat (map show_variant3 vs)) < two32 ->
  (foldM (push_vec p) [] vs = Ok d' <-> Forall (fun v => validate_variant3 p v = Ok tt) vs /\ d' = join3 (numbered3 1 vs)).
Proof.
  intros B. rewrite (fold_push3 p vs [] d' adds_nil3) by exact B.
  change [] with (join3 []) at 2. rewrite fold_unch3. reflexivity.
Qed.
Lemma variants_le3 pre v post : count_newlines (concat (map show_variant3 pre)) <= count_newlines (concat (map show_variant3 (pre ++ v :: post))).
Proof. rewrite map_app, concat_app, count_newlines_app. lia. Qed.
Lemma fold_adds3 p vs : forall d d', lines_add_up3 d -> 2 + count_newlines (show_chunks3 d) + count_newlines (concat (map show_variant3 vs)) < two32 ->
  foldM (push_vec p) d vs = Ok d' -> lines_add_up3 d' /\ count_newlines (show_chunks3 d') = count_newlines (show_chunks3 d) + count_newlines (concat (map show_variant3 vs)).
Proof.
  induction vs as [|v vs IH]; intros d d' HL B H; cbn [foldM map concat] in *.
  - injection H as <-. split; [assumption|]. cbn. lia.
  - rewrite count_newlines_app in *. destruct (push_vec p d v) as [d1|e| |] eqn:E; cbn [bind] in H; try discriminate.
    apply push3_some in E as (_ & ->); [|assumption|lia].
    assert (NX : count_newlines (show_chunks3 (push_chunk_vec_unchecked d (mkChunk3 (1 + count_newlines (show_chunks3 d)) v))) = count_newlines (show_chunks3 d) + count_newlines (show_variant3 v)).
    { now rewrite push_chunk_vec_unchecked_show, count_newlines_app. }
    apply IH in H as [A N1]; [|now apply adds_unch3|lia]. split; [assumption|lia].
Qed.
Theorem build3_error p vs e : 2 + count_newlines (concat (map show_variant3 vs)) < two32 ->
  (foldM (push_vec p) [] vs = Err e <->
   exists pre v post, vs = pre ++ v :: post /\ Forall (fun v => validate_variant3 p v = Ok tt) pre /\ validate_variant3 p v = Err e).
Proof.
  intros B. rewrite foldM_err. split.
  - intros (pre & v & post & d1 & -> & H1 & H2). exists pre, v, post. split; [reflexivity|].
    assert (Bp : 2 + count_newlines (concat (map show_variant3 pre)) < two32) by (pose proof (variants_le3 pre v post); lia).
    pose proof (fold_adds3 p pre [] d1 adds_nil3 Bp H1) as [A N1]. change (count_newlines (show_chunks3 [])) with 0 in N1.
    apply push3_fault in H2; [|assumption|lia]. split; [|assumption]. now apply (build3 p pre d1 Bp).
  - intros (pre & v & post & -> & F & V).
    assert (Bp : 2 + count_newlines (concat (map show_variant3 pre)) < two32) by (pose proof (variants_le3 pre v post); lia).
    pose proof (proj2 (build3 p pre (join3 (numbered3 1 pre)) Bp) (conj F eq_refl)) as H1.
    exists pre, v, post, (join3 (numbered3 1 pre)). split; [reflexivity|]. split; [exact H1|].
    pose proof (fold_adds3 p pre [] _ adds_nil3 Bp H1) as [A N1]. change (count_newlines (show_chunks3 [])) with 0 in N1.
    apply push3_fault; [assumption|lia|assumption].
Qed.
Lemma fold_adds_chunk3 p cs : forall d d', lines_add_up3 d -> 2 + count_newlines (show_chunks3 d) + count_newlines (show_chunks3 cs) < two32 ->
  foldM (push_chunk_vec p) d cs = Ok d' -> lines_add_up3 d' /\ show_chunks3 d' = show_chunks3 d ++ show_chunks3 cs.
Proof.
  induction cs as [|c cs IH]; intros d d' HL B H; cbn [foldM] in *.
  - injection H as <-. split; [assumption|]. now rewrite app_nil_r.
  - rewrite show_chunks3_cons, count_newlines_app in B. destruct (push_chunk_vec p d c) as [d1|e| |] eqn:E; cbn [bind] in H; try discriminate.
    apply push_chunk3_some in E as (_ & Lc & ->); [|assumption|lia].
    apply IH in H as [A N1]; [|now apply adds_unch3|rewrite push_chunk_vec_unchecked_show, count_newlines_app; lia]. split; [assumption|].
    rewrite N1, push_chunk_vec_unchecked_show, show_chunks3_cons. now rewrite app_assoc.
Qed.
Lemma show3_le pre (c : chunk3) post : count_newlines (show_chunks3 pre) <= count_newlines (show_chunks3 (pre ++ c :: post)).
Proof. rewrite show_chunks3_app, count_newlines_app. lia. Qed.
Theorem rebuild3_error p d e : 2 + count_newlines (show_chunks3 d) < two32 ->
  (foldM (push_chunk_vec p) [] d = Err e <->
   exists pre c post, d = pre ++ c :: post /\ validate_from3 p 1 pre = Ok tt /\
     (validate_chunk3 p c = Err e \/ (validate_chunk3 p c = Ok tt /\ line_no3 c <> 1 + count_newlines (show_chunks3 pre) /\ e = IncorrectChunkLineNumber (1 + count_newlines (show_chunks3 pre)) (line_no3 c)))).
Proof.
  intros B. rewrite foldM_err. split.
  - intros (pre & c & post & d1 & -> & H1 & H2). exists pre, c, post. split; [reflexivity|].
    assert (Bp : 2 + count_newlines (show_chunks3 pre) < two32) by (pose proof (show3_le pre c post); lia).
    pose proof (fold_adds_chunk3 p pre [] d1 adds_nil3 Bp H1) as [A N1]. change (show_chunks3 [] ++ show_chunks3 pre) with (show_chunks3 pre) in N1.
    apply push_chunk3_fault in H2; [|assumption|rewrite N1; lia]. rewrite N1 in H2. split; [|assumption]. now apply (rebuild3 p pre d1 Bp).
  - intros (pre & c & post & -> & F & V).
    assert (Bp : 2 + count_newlines (show_chunks3 pre) < two32) by (pose proof (show3_le pre c post); lia).
    pose proof (proj2 (rebuild3 p pre (join3 pre) Bp) (conj F eq_refl)) as H1.
    exists pre, c, post, (join3 pre). split; [reflexivity|]. split; [exact H1|].
    pose proof (fold_adds_chunk3 p pre [] _ adds_nil3 Bp H1) as [A N1]. change (show_chunks3 [] ++ show_chunks3 pre) with (show_chunks3 pre) in N1.
    apply push_chunk3_fault; [assumption|rewrite N1; lia|]. rewrite N1. exact V.
Qed.
Lemma unch_twice3 d l l' s t : push_chunk_vec_unchecked (push_chunk_vec_unchecked d (mkChunk3 l (Text3 s))) (mkChunk3 l' (Text3 t)) = push_chunk_vec_unchecked d (mkChunk3 l (Text3 (s ++ t))).
Proof.
  destruct d as [|x d _] using rev_ind; [reflexivity|]. rewrite !push_chunk_vec_unchecked_snoc. cbn [variant_of3].
  destruct x as [lx vx]. destruct vx;
    [rewrite push_chunk_vec_unchecked_snoc; cbn [variant_of3]; rewrite <- app_assoc; reflexivity|..].
  all: match goal with |- push_chunk_vec_unchecked (?z ++ [?a; ?b]) _ = _ => change (z ++ [a; b]) with (z ++ ([a] ++ [b])) end.
  all: rewrite app_assoc, push_chunk_vec_unchecked_snoc; cbn [variant_of3]; rewrite <- app_assoc; reflexivity.
Qed.

(** ** Sections of a stage-3 document *)
Lemma set_get s d : set_section s d (get_section s d) = d.
Proof. destruct d, s; reflexivity. Qed.
Lemma set_set s d a b : set_section s (set_section s d a) b = set_section s d b.
Proof. destruct d, s; reflexivity. Qed.
Lemma fold_section_chunk p s cs : forall d,
  foldM (push_chunk3 p s) d cs = let* r := foldM (push_chunk_vec p) (get_section s d) cs in Ok (set_section s d r).
Proof.
  induction cs as [|c cs IH]; intros d; cbn [foldM]; [cbn [bind]; now rewrite set_get|].
  unfold push_chunk3 at 1. destruct (push_chunk_vec p (get_section s d) c) as [r|e| |]; cbn [bind]; try reflexivity.
  rewrite IH, get_set_same. destruct (foldM (push_chunk_vec p) r cs); cbn [bind]; [|reflexivity..]. now rewrite set_set.
Qed.
Lemma fold_section p s vs : forall d,
  foldM (push3 p s) d vs = let* r := foldM (push_vec p) (get_section s d) vs in Ok (set_section s d r).
Proof.
  induction vs as [|c cs IH]; intros d; cbn [foldM]; [cbn [bind]; now rewrite set_get|].
  unfold push3 at 1. destruct (push_vec p (get_section s d) c) as [r|e| |]; cbn [bind]; try reflexivity.
  rewrite IH, get_set_same. destruct (foldM (push_vec p) r cs); cbn [bind]; [|reflexivity..]. now rewrite set_set.
Qed.
Lemma bind_ok {E A B} (r : outcome E A) (f : A -> B) y : (let* x := r in Ok (f x)) = Ok y <-> exists x, r = Ok x /\ y = f x.
Proof.
  destruct r; cbn [bind]; split; try discriminate.
  - intros H. injection H as <-. eauto.
  - intros (x & H & ->). now injection H as ->.
  - intros (x & H & _). discriminate H.
  - intros (x & H & _). discriminate H.
  - intros (x & H & _). discriminate H.
Qed.
Lemma bind_err {E A B} (r : outcome E A) (f : A -> B) e : (let* x := r in Ok (f x)) = Err e <-> r = Err e.
Proof. destruct r; cbn [bind]; split; congruence. Qed.
Theorem build_section p s d0 vs d' : get_section s d0 = [] -> 2 + count_newlines (concat (map show_variant3 vs)) < two32 ->
  (foldM (push3 p s) d0 vs = Ok d' <-> Forall (fun v => validate_variant3 p v = Ok tt) vs /\ d' = set_section s d0 (join3 (numbered3 1 vs))).
Proof.
  intros E B. rewrite fold_section, bind_ok, E. split.
  - intros (r & H & ->). apply (build3 p vs r B) in H as [F ->]. auto.
  - intros (F & ->). eexists. split; [|reflexivity]. apply (build3 p vs _ B). auto.
Qed.
Theorem build_section_error p s d0 vs e : get_section s d0 = [] -> 2 + count_newlines (concat (map show_variant3 vs)) < two32 ->
  (foldM (push3 p s) d0 vs = Err e <->
   exists pre v post, vs = pre ++ v :: post /\ Forall (fun v => validate_variant3 p v = Ok tt) pre /\ validate_variant3 p v = Err e).
Proof. intros E B. rewrite fold_section, bind_err, E. now apply build3_error. Qed.
Theorem rebuild_section p s d0 cs d' : get_section s d0 = [] -> 2 + count_newlines (show_chunks3 cs) < two32 ->
  (foldM (push_chunk3 p s) d0 cs = Ok d' <-> validate_from3 p 1 cs = Ok tt /\ d' = set_section s d0 (join3 cs)).
Proof.
  intros E B. rewrite fold_section_chunk, bind_ok, E. split.
  - intros (r & H & ->). apply (rebuild3 p cs r B) in H as [F ->]. auto.
  - intros (F & ->). eexists. split; [|reflexivity]. apply (rebuild3 p cs _ B). auto.
Qed.
Theorem rebuild_section_error p s d0 cs e : get_section s d0 = [] -> 2 + count_newlines (show_chunks3 cs) < two32 ->
  (foldM (push_chunk3 p s) d0 cs = Err e <->
   exists pre c post, cs = pre ++ c :: post /\ well_formed_vec3 pre /\
     (validate_chunk3 p c = Err e \/ (validate_chunk3 p c = Ok tt /\ line_no3 c <> 1 + count_newlines (show_chunks3 pre) /\
        e = IncorrectChunkLineNumber (1 + count_newlines (show_chunks3 pre)) (line_no3 c)))).
Proof.
  intros E B. rewrite fold_section_chunk, bind_err, E. rewrite (rebuild3_error p cs e B).
  split; intros (pre & c & post & -> & W & H); exists pre, c, post; (split; [reflexivity|]); (split; [|exact H]);
    apply (validate_vec3_iff p pre); try exact W; pose proof (show3_le pre c post); lia.
Qed.
(** the whole document, from its class, options and prefixes *)
Definition rebuild_document (p : profile) (d : document3) : outcome internal_error document3 :=
  let empty := set_section Preamable (set_section Body (set_section Trailing d []) []) [] in
  let* a := foldM (push_chunk3 p Preamable) empty (d_preamable d) in
  let* b := foldM (push_chunk3 p Body) a (d_body d) in
  foldM (push_chunk3 p Trailing) b (d_trailing d).
Definition joined (d : document3) : document3 :=
  set_section Preamable (set_section Body (set_section Trailing d (join3 (d_trailing d))) (join3 (d_body d))) (join3 (d_preamable d)).
Theorem rebuild_document_iff p d d' : (forall s, 2 + count_newlines (show_chunks3 (get_section s d)) < two32) ->
  (rebuild_document p d = Ok d' <-> validate3 p d = Ok tt /\ d' = joined d).
Proof.
  intros B. unfold rebuild_document. cbv zeta. set (empty := set_section Preamable _ _).
  pose proof (B Preamable) as B1. pose proof (B Body) as B2. pose proof (B Trailing) as B3. cbn [get_section] in B1, B2, B3. clear B.
  destruct (foldM (push_chunk3 p Preamable) empty (d_preamable d)) as [a|e| |] eqn:E1; cbn [bind].
  1:{ apply rebuild_section in E1 as (V1 & ->); [|reflexivity|assumption].
    set (a := set_section Preamable empty _).
    destruct (foldM (push_chunk3 p Body) a (d_body d)) as [b|e| |] eqn:E2; cbn [bind].
    1:{ apply rebuild_section in E2 as (V2 & ->); [|reflexivity|assumption].
      rewrite rebuild_section; [|reflexivity|assumption]. unfold validate3. rewrite V1, V2. cbn [bind].
      unfold joined, a, empty. destruct d; reflexivity. }
    all: split; [discriminate|]; intros (V & _); unfold validate3 in V; rewrite V1 in V; cbn [bind] in V;
      destruct (validate_from3 p 1 (d_body d)) as [()|e'| |] eqn:V2; try discriminate V;
      pose proof (proj2 (rebuild_section p Body a (d_body d) _ eq_refl B2) (conj V2 eq_refl)); congruence. }
  all: split; [discriminate|]; intros (V & _); unfold validate3 in V;
    destruct (validate_from3 p 1 (d_preamable d)) as [()|e'| |] eqn:V2; try discriminate V;
    pose proof (proj2 (rebuild_section p Preamable empty (d_preamable d) _ eq_refl B1) (conj V2 eq_refl)); congruence.
Qed.
