(** * Unnum4: line numbers on the way from stage 3 to stage 2 *)
From Verif Require Import Base Ast1 Parse1 Ast2 Ast3 SpecUnnum Mono Unnum Unnum1 Unnum3.
From Coq Require Import Lia Arith.

(** both succeed only with related results *)
Definition agree {E A B} (R : A -> B -> Prop) (x : outcome E A) (y : outcome E B) : Prop := forall a c, x = Ok a -> y = Ok c -> R a c.
Lemma agree_ok {E A B} (R : A -> B -> Prop) a c : R a c -> @agree E A B R (Ok a) (Ok c).
Proof. intros H x y Hx Hy. congruence. Qed.
Lemma agree_any {E A B} x y : @agree E A B (fun _ _ => True) x y.
Proof. intros a c _ _. exact I. Qed.
Lemma agree_bind {E A B A' B'} (R : A -> B -> Prop) (S : A' -> B' -> Prop) (x : outcome E A) (y : outcome E B) f g :
  agree R x y -> (forall a c, R a c -> agree S (f a) (g c)) -> agree S (bind x f) (bind y g).
Proof. intros H K a c Ha Hc. destruct x, y; cbn [bind] in *; try discriminate. exact (K _ _ (H _ _ eq_refl eq_refl) _ _ Ha Hc). Qed.
Lemma agree_weaken {E A B} (R S : A -> B -> Prop) (x : outcome E A) (y : outcome E B) : (forall a c, R a c -> S a c) -> agree R x y -> agree S x y.
Proof. intros K H a c Ha Hc. apply K, H; assumption. Qed.
Lemma agree_mapM {E A B A' B'} (R : A' -> B' -> Prop) (Q : A -> B -> Prop) (f : A -> outcome E A') (g : B -> outcome E B') l l' : Forall2 Q l l' ->
  (forall a c, In a l -> Q a c -> agree R (f a) (g c)) -> agree (Forall2 R) (mapM f l) (mapM g l').
Proof.
  intros H. induction H as [|x y l l' Hx H IH]; intros K; cbn [mapM]; [apply agree_ok; constructor|].
  eapply agree_bind; [exact (K _ _ (or_introl eq_refl) Hx)|]. intros a a' Ha.
  eapply agree_bind; [apply IH; intros; apply K; auto; now right|]. intros c c' Hc. apply agree_ok. constructor; assumption.
Qed.
Ltac skip := eapply agree_bind; [apply agree_any|let u := fresh "u" in let w := fresh "w" in intros u w _].
Tactic Notation "skipn" ident(n) ident(m) := eapply agree_bind; [apply agree_any|intros n m _].
Section Down3.
  Context {E : Type} (p q : profile).
  Definition down3_chunk (c : chunk3) : Prop := forall c', unnumbered_chunk3 c = unnumbered_chunk3 c' -> agree doc2_eq (@into2_chunk E p c) (into2_chunk q c').
  Definition down3_scope (sc : scope3) : Prop := forall sc', unnumbered_scope3 sc = unnumbered_scope3 sc' -> agree (fun a c => unnumbered_scope2 a = unnumbered_scope2 c) (@into2_scope E p sc) (into2_scope q sc').
  Lemma down3_list cs : (forall c, In c cs -> down3_chunk c) -> forall cs', unnumbered3 cs = unnumbered3 cs' ->
    agree (fun a c => doc2_eq (concat a) (concat c)) (mapM (@into2_chunk E p) cs) (mapM (into2_chunk q) cs').
  Proof.
    intros H cs' K. eapply agree_weaken; [|eapply agree_mapM; [apply (map_eq_Forall2 unnumbered_chunk3), K|]].
    - intros a a' Ha. cbv beta in Ha. clear - Ha. induction Ha as [|x y l l' Hx _ IH]; [reflexivity|]. cbn [concat]. unfold doc2_eq in *. rewrite !unnumbered2_app, IH. f_equal. exact Hx.
    - intros a a' Hi Ha. exact (H a Hi a' Ha).
  Qed.
  Lemma down3_args args : (forall pre sc, In (pre, sc) args -> down3_scope sc) -> forall args', uargs3 args = uargs3 args' ->
    agree (fun a c => uargs2 a = uargs2 c) (mapM (fun a => match a with (s, sc) => let* sc := @into2_scope E p sc in Ok (s, sc) end) args)
      (mapM (fun a => match a with (s, sc) => let* sc := into2_scope q sc in Ok (s, sc) end) args').
  Proof.
    intros H args' K. apply map_eq_Forall2 in K. eapply agree_weaken; [|eapply (agree_mapM (fun a c => match a, c with (pre, sc), (pre', sc') => (pre, unnumbered_scope2 sc) = (pre', unnumbered_scope2 sc') end)); [exact K|]].
    - intros a a' Ha. apply map_eq_Forall2. eapply Forall2_weaken; [|exact Ha]. intros [] []; auto.
    - intros [pre sc] [pre' sc'] Hi Ha. assert (pre' = pre /\ unnumbered_scope3 sc = unnumbered_scope3 sc') as [-> Hs] by (split; congruence).
      eapply agree_bind; [exact (H _ _ Hi _ Hs)|]. intros x x' Hx. apply agree_ok. now rewrite Hx.
  Qed.
  Lemma doc2_nil a c : doc2_eq a c -> (a = [] <-> c = []).
  Proof. unfold doc2_eq. destruct a, c; split; intros; try discriminate; auto. Qed.
  Lemma doc2_prepend s a c : doc2_eq a c -> doc2_eq (prepend_dollars s a) (prepend_dollars s c).
  Proof.
    unfold doc2_eq. destruct a as [|[l v] a], c as [|[l' v'] c]; try discriminate; [reflexivity|]. intros H. injection H as Hv H.
    destruct v, v'; cbn [unnumbered_variant2] in Hv; try discriminate; cbn [prepend_dollars unnumbered2 map unnumbered_chunk2 unnumbered_variant2]; fold (unnumbered2 a) (unnumbered2 c); congruence.
  Qed.
  Lemma doc2_append s n n' a c : doc2_eq a c -> doc2_eq (append_dollars s n a) (append_dollars s n' c).
  Proof.
    intros H. apply (map_eq_Forall2 unnumbered_chunk2) in H. induction H as [|x x' a c Hx H IH]; [reflexivity|].
    destruct H as [|y y' a c Hy H].
    - destruct x as [l v], x' as [l' v']. cbv beta in Hx. injection Hx as Hv. destruct v, v'; cbn [unnumbered_variant2] in Hv; try discriminate; unfold doc2_eq; cbn [append_dollars unnumbered2 map unnumbered_chunk2 unnumbered_variant2]; congruence.
    - assert (U : forall n x y a, append_dollars s n (x :: y :: a) = x :: append_dollars s n (y :: a)).
      { intros k [l0 []] z a0; reflexivity. }
      rewrite !U. unfold doc2_eq in *. cbn [unnumbered2 map] in *. fold (unnumbered2 (append_dollars s n (y :: a))) (unnumbered2 (append_dollars s n' (y' :: c))). rewrite IH. f_equal. exact Hx.
  Qed.
  Lemma down3_shift (f g : outcome E N) a c : doc2_eq a c ->
    agree doc2_eq (mapM (fun c => let* off := f in shift_chunk2 p off c) a) (mapM (fun c => let* off := g in shift_chunk2 q off c) c).
  Proof.
    intros H. eapply agree_weaken; [|eapply (agree_mapM (fun a c => unnumbered_chunk2 a = unnumbered_chunk2 c)); [apply (map_eq_Forall2 unnumbered_chunk2), H|]].
    - intros x x' Hx. apply (map_eq_Forall2 unnumbered_chunk2). exact Hx.
    - intros [l v] [l' v'] _ Hv. cbv beta in Hv. skip. unfold shift_chunk2. skip. apply agree_ok. exact Hv.
  Qed.
  Fixpoint down3_chunk_all (c : chunk3) : down3_chunk c
  with down3_scope_all (sc : scope3) : down3_scope sc.
  Proof.
    - intros c' H. destruct c as [l v], c' as [l' v'].
      assert (Hv : unnumbered_variant3 v = unnumbered_variant3 v') by (cbn [unnumbered_chunk3] in H; congruence). clear H.
      assert (One : forall v v', unnumbered_variant2 v = unnumbered_variant2 v' -> @agree E _ _ doc2_eq (Ok [mkChunk2 l v]) (Ok [mkChunk2 l' v'])).
      { intros w w' K. apply agree_ok. unfold doc2_eq, unnumbered2. cbn [map unnumbered_chunk2]. now rewrite K. }
      destruct v as [t|t|[mv mt content]|[lab args]|sc|[lab args content pb pe]], v' as [t'|t'|[mv' mt' content']|[lab' args']|sc'|[lab' args' content' pb' pe']]; try (cbn [unnumbered_variant3] in Hv; discriminate); cbn [into2_chunk].
      + injection Hv as <-. now apply One.
      + injection Hv as <-. now apply One.
      + injection Hv as <- <- Hc. cbn [into2_maths]. eapply (agree_bind doc2_eq); [|intros a a' Ha; apply down3_shift, Ha].
        skip. skip. skipn n n'. eapply agree_bind; [apply down3_list; [|exact Hc]|].
        * clear - down3_chunk_all; induction content as [|c cs IH]; intros d Hi; [destruct Hi|]; destruct Hi as [<-|Hi]; [apply down3_chunk_all|exact (IH _ Hi)].
        * intros a a' Ha. cbv beta in Ha. destruct mv.
          -- destruct mt; apply agree_ok; unfold doc2_eq in *; rewrite !unnumbered2_app, Ha; reflexivity.
          -- pose proof (doc2_nil _ _ Ha) as Hn. pose proof (doc2_append (match mt with Inline => [c_dollar] | Outline => [c_dollar; c_dollar] end) n n' _ _ (doc2_prepend (match mt with Inline => [c_dollar] | Outline => [c_dollar; c_dollar] end) _ _ Ha)) as Hp.
             cbv zeta. destruct (concat a) as [|x xs]; [rewrite (proj1 Hn eq_refl); apply agree_ok; reflexivity|]. destruct (concat a') as [|x' xs']; [discriminate (proj2 Hn eq_refl)|]. apply agree_ok. exact Hp.
      + injection Hv as <- Ha. cbn [into2_command]. eapply (agree_bind (fun a c => unnumbered_command2 a = unnumbered_command2 c)); [|intros a a' K; apply One; cbn [unnumbered_variant2]; now rewrite K].
        eapply agree_bind; [apply down3_args; [|exact Ha]|].
        * clear - down3_scope_all; induction args as [|[pre sc] args IH]; intros pre' sc' Hi; [destruct Hi|]; destruct Hi as [Hi|Hi]; [|exact (IH _ _ Hi)]; injection Hi as _ <-; apply down3_scope_all.
        * intros a a' K. apply agree_ok. cbn [unnumbered_command2]. f_equal. exact K.
      + assert (Hs : unnumbered_scope3 sc = unnumbered_scope3 sc') by (cbn [unnumbered_variant3] in Hv; congruence).
        eapply agree_bind; [apply down3_scope_all, Hs|]. intros a a' K. apply One. cbn [unnumbered_variant2]. cbv beta in K. now rewrite K.
      + injection Hv as <- Ha Hc <- <-. cbn [into2_env]. eapply (agree_bind (fun a c => unnumbered_env2 a = unnumbered_env2 c)); [|intros a a' K; apply One; cbn [unnumbered_variant2]; now rewrite K].
        eapply agree_bind; [apply down3_args; [|exact Ha]|].
        * clear - down3_scope_all; induction args as [|[pre sc] args IH]; intros pre' sc' Hi; [destruct Hi|]; destruct Hi as [Hi|Hi]; [|exact (IH _ _ Hi)]; injection Hi as _ <-; apply down3_scope_all.
        * intros a a' Ka. eapply agree_bind; [apply down3_list; [|exact Hc]|].
          -- clear - down3_chunk_all; induction content as [|c cs IH]; intros d Hi; [destruct Hi|]; destruct Hi as [<-|Hi]; [apply down3_chunk_all|exact (IH _ Hi)].
          -- intros y y' Ky. apply agree_ok. cbn [unnumbered_env2]. f_equal; [exact Ka|exact Ky].
    - intros sc' H. destruct sc as [cs w], sc' as [cs' w']. injection H as H <-. cbn [into2_scope].
      eapply agree_bind; [apply down3_list; [|exact H]|].
      + clear - down3_chunk_all. induction cs as [|c cs IH]; intros d Hi; [destruct Hi|]. destruct Hi as [<-|Hi]; [apply down3_chunk_all|exact (IH _ Hi)].
      + intros a a' Ha. apply agree_ok. cbn [unnumbered_scope2]. f_equal. exact Ha.
  Qed.
  Lemma doc2_push d d' c c' : doc2_eq d d' -> unnumbered_chunk2 c = unnumbered_chunk2 c' -> doc2_eq (push_chunk_unchecked2 d c) (push_chunk_unchecked2 d' c').
  Proof.
    intros H K. apply (map_eq_Forall2 unnumbered_chunk2) in H. induction H as [|x x' d d' Hx H IH]; [unfold doc2_eq, unnumbered2; cbn [push_chunk_unchecked2 map]; now rewrite K|].
    destruct H as [|y y' d d' Hy H].
    - destruct c as [l v], c' as [l' v'], x as [m w], x' as [m' w']. cbn [unnumbered_chunk2] in Hx, K. injection Hx as Hx. injection K as K.
      destruct v, v'; cbn [unnumbered_variant2] in K; try discriminate; destruct w, w'; cbn [unnumbered_variant2] in Hx; try discriminate;
        unfold doc2_eq, unnumbered2; cbn [push_chunk_unchecked2 variant_of2 map unnumbered_chunk2 unnumbered_variant2]; congruence.
    - change (push_chunk_unchecked2 (x :: y :: d) c) with (x :: push_chunk_unchecked2 (y :: d) c). change (push_chunk_unchecked2 (x' :: y' :: d') c') with (x' :: push_chunk_unchecked2 (y' :: d') c').
      unfold doc2_eq, unnumbered2 in *. cbn [map] in *. rewrite IH. f_equal. exact Hx.
  Qed.
  Lemma down3_document d d' : same_doc d d' -> agree doc2_eq (@from3_to2 E p d) (from3_to2 q d').
  Proof.
    intros H. apply same_doc_iff in H as (D1 & D2 & D3 & D4 & D5 & D6 & D7 & D8). unfold from3_to2.
    eapply agree_bind; [apply down3_list; [intros; apply down3_chunk_all|exact D3]|]. intros pre pre' Hpre. cbv beta zeta in *. do 4 skip. skipn bo bo'.
    eapply agree_bind; [apply down3_list; [intros; apply down3_chunk_all|exact D4]|]. intros body body' Hbody. cbv beta in Hbody.
    eapply (agree_bind doc2_eq).
    { exact (down3_shift (Ok bo) (Ok bo') _ _ Hbody). }
    intros bc bc' Hbc. eapply agree_bind; [apply down3_args; [intros; apply down3_scope_all|exact D5]|]. intros args args' Hargs. cbv beta in Hargs. do 2 skip. skipn to to'.
    eapply agree_bind; [apply down3_list; [intros; apply down3_chunk_all|exact D8]|]. intros tr tr' Htr. cbv beta in Htr.
    eapply (agree_bind doc2_eq).
    { exact (down3_shift (Ok to) (Ok to') _ _ Htr). }
    intros t t' Ht. apply agree_ok.
    assert (K : forall t t', doc2_eq t t' -> forall o o', doc2_eq o o' -> doc2_eq (fold_left push_chunk_unchecked2 t o) (fold_left push_chunk_unchecked2 t' o')).
    { clear. intros t t' H. apply (map_eq_Forall2 unnumbered_chunk2) in H. induction H as [|x x' t t' Hx _ IH]; intros o o' Ho; [exact Ho|]. cbn [fold_left]. apply IH, doc2_push; assumption. }
    apply K; [exact Ht|]. apply doc2_push; [exact Hpre|]. cbn [unnumbered_chunk2 unnumbered_variant2 unnumbered_env2]. fold (uargs2 args) (uargs2 args') (unnumbered2 bc) (unnumbered2 bc').
    rewrite Hargs, D6, D7. unfold doc2_eq in Hbc. now rewrite Hbc.
  Qed.
End Down3.
