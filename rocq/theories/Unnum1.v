(** * Unnum1: line numbers on the way down *)
From Verif Require Import Base Ast1 Parse1 Ast2 Ast3 SpecUnnum Mono Unnum.
From Coq Require Import Lia Arith.

Definition bdoc_eq (a b : list chunk1) : Prop := blank1 a = blank1 b.
Lemma blank1_app a b : blank1 (a ++ b) = blank1 a ++ blank1 b. Proof. apply map_app. Qed.
Definition bargs1 (args : list (str * scope1)) := map (fun a => match a with (pre, sc) => (pre, blank_scope1 sc) end) args.
Section Down2.
  Context {E : Type} (RE : E -> E -> Prop) (p : profile) (b : bool) (Hb' : b = true \/ p = Release).
  Let Hb : b = true \/ (p = Release /\ p = Release). Proof. destruct Hb'; auto. Qed.
  Definition same_shift (s s' : option N) : Prop := match s, s' with Some _, Some _ => True | None, None => True | _, _ => False end.
  Definition scope1_eq (a c : scope1) : Prop := blank_scope1 a = blank_scope1 c.
  Definition down_chunk (c : chunk2) : Prop := forall c' s s', same_shift s s' -> unnumbered_chunk2 c = unnumbered_chunk2 c' -> sim RE b bdoc_eq (@into1_chunk E p c s) (into1_chunk p c' s').
  Definition down_scope (sc : scope2) : Prop := forall sc', unnumbered_scope2 sc = unnumbered_scope2 sc' -> sim RE b scope1_eq (@into1_scope E p sc) (into1_scope p sc').
  Lemma down_list cs s s' : same_shift s s' -> (forall c, In c cs -> down_chunk c) -> forall cs', unnumbered2 cs = unnumbered2 cs' ->
    sim RE b (fun a c => bdoc_eq (concat a) (concat c)) (mapM (fun c => @into1_chunk E p c s) cs) (mapM (fun c => into1_chunk p c s') cs').
  Proof.
    intros Hs H cs' K. eapply sim_weaken; [|eapply sim_mapM; [apply (map_eq_Forall2 unnumbered_chunk2), K|]].
    - intros a a' Ha. clear - Ha. induction Ha as [|x y l l' Hx _ IH]; [reflexivity|]. cbn [concat]. unfold bdoc_eq in *. rewrite !blank1_app, IH. f_equal. exact Hx.
    - intros a a' Hi Ha. exact (H a Hi a' s s' Hs Ha).
  Qed.
  Lemma down_args args : (forall pre sc, In (pre, sc) args -> down_scope sc) -> forall args', uargs2 args = uargs2 args' ->
    sim RE b (fun a c => bargs1 a = bargs1 c) (mapM (fun a => match a with (s, sc) => let* sc := @into1_scope E p sc in Ok (s, sc) end) args)
      (mapM (fun a => match a with (s, sc) => let* sc := into1_scope p sc in Ok (s, sc) end) args').
  Proof.
    intros H args' K. apply map_eq_Forall2 in K. eapply sim_weaken; [|eapply (sim_mapM _ _ (fun a c => match a, c with (pre, sc), (pre', sc') => (pre, blank_scope1 sc) = (pre', blank_scope1 sc') end)); [exact K|]].
    - intros a a' Ha. apply map_eq_Forall2. eapply Forall2_weaken; [|exact Ha]. intros [] []; auto.
    - intros [pre sc] [pre' sc'] Hi Ha. assert (pre' = pre /\ unnumbered_scope2 sc = unnumbered_scope2 sc') as [-> Hs] by (split; congruence).
      eapply sim_bind; [exact (H _ _ Hi _ Hs)|]. intros x x' Hx. apply sim_ok. now rewrite Hx.
  Qed.
  Fixpoint down_chunk_all (c : chunk2) : down_chunk c
  with down_scope_all (sc : scope2) : down_scope sc.
  Proof.
    - intros c' s s' Hs H. destruct c as [l v], c' as [l' v'].
      assert (Hv : unnumbered_variant2 v = unnumbered_variant2 v') by (cbn [unnumbered_chunk2] in H; congruence). clear H.
      cbn [into1_chunk]. eapply (sim_bind _ _ anyN).
      + destruct s as [k|], s' as [k'|]; try contradiction; [|right; exact I]. eapply sim_bind; [apply sim_sub, Hb|]. intros; apply sim_add, Hb.
      + intros a a' _. clear l l' s s' Hs.
        assert (One : forall v v', blank_variant1 v = blank_variant1 v' -> sim RE b bdoc_eq (Ok [mkChunk1 a v]) (Ok [mkChunk1 a' v'])).
        { intros w w' K. apply sim_ok. unfold bdoc_eq, blank1. cbn [map blank_chunk1]. now rewrite K. }
        destruct v as [t|[lab args]|sc|[lab args content pb pe]], v' as [t'|[lab' args']|sc'|[lab' args' content' pb' pe']]; try (cbn [unnumbered_variant2] in Hv; discriminate).
        * injection Hv as <-. now apply One.
        * injection Hv as <- Ha. cbn [into1_variant into1_command]. eapply sim_bind.
          -- eapply sim_bind.
             ++ apply down_args; [|exact Ha]. clear - down_scope_all. induction args as [|[pre sc] args IH]; intros pre' sc' Hi; [destruct Hi|].
                destruct Hi as [Hi|Hi]; [|exact (IH _ _ Hi)]. injection Hi as _ <-. apply down_scope_all.
             ++ intros x x' Hx. apply (sim_ok _ _ (fun c c' => exists x x', c = mkCommand1 lab x /\ c' = mkCommand1 lab x' /\ bargs1 x = bargs1 x')). eauto.
          -- intros c c' (x & x' & -> & -> & Hx). apply One. cbn [blank_variant1 blank_command1]. do 2 f_equal. exact Hx.
        * cbn [unnumbered_variant2] in Hv. assert (Hs : unnumbered_scope2 sc = unnumbered_scope2 sc') by congruence. cbn [into1_variant].
          eapply sim_bind; [apply down_scope_all, Hs|]. intros x x' Hx. apply One. cbn [blank_variant1]. now rewrite Hx.
        * injection Hv as <- Ha Hc <- <-. cbn [into1_variant into1_env]. eapply sim_bind; [apply sim_add, Hb|]. intros e e' _.
          eapply (sim_bind _ _ eq); [right; destruct (from_str1 p lab); cbn [unwrap]; auto|]. intros lc lc' <-.
          eapply sim_bind.
          { apply down_args; [|exact Ha]. clear - down_scope_all. induction args as [|[pre sc] args IH]; intros pre' sc' Hi; [destruct Hi|].
            destruct Hi as [Hi|Hi]; [|exact (IH _ _ Hi)]. injection Hi as _ <-. apply down_scope_all. }
          intros x x' Hx. eapply sim_bind.
          { apply (down_list content (Some a) (Some a') I); [|exact Hc]. clear - down_chunk_all. induction content as [|c cs IH]; intros d Hi; [destruct Hi|]. destruct Hi as [<-|Hi]; [apply down_chunk_all|exact (IH _ Hi)]. }
          intros y y' Hy. apply sim_ok. unfold bdoc_eq in *. rewrite !blank1_app, Hy. unfold blank1. cbn [map blank_chunk1 blank_variant1 blank_command1]. fold (bargs1 x) (bargs1 x'). now rewrite Hx.
    - intros sc' H. destruct sc as [cs w], sc' as [cs' w']. injection H as H <-. cbn [into1_scope].
      eapply sim_bind; [apply (down_list cs None None I); [|exact H]|].
      + clear - down_chunk_all. induction cs as [|c cs IH]; intros d Hi; [destruct Hi|]. destruct Hi as [<-|Hi]; [apply down_chunk_all|exact (IH _ Hi)].
      + intros a a' Ha. apply sim_ok. unfold scope1_eq. cbn [blank_scope1]. f_equal. exact Ha.
  Qed.
  Lemma bdoc_push d d' c c' : bdoc_eq d d' -> blank_chunk1 c = blank_chunk1 c' -> bdoc_eq (push_chunk_unchecked1 d c) (push_chunk_unchecked1 d' c').
  Proof.
    intros H K. apply (map_eq_Forall2 blank_chunk1) in H. induction H as [|x x' d d' Hx H IH]; [unfold bdoc_eq, blank1; cbn [push_chunk_unchecked1 map]; now rewrite K|].
    destruct H as [|y y' d d' Hy H].
    - destruct c as [l v], c' as [l' v'], x as [m w], x' as [m' w']. cbn [blank_chunk1] in Hx, K. injection Hx as Hx. injection K as K.
      destruct v, v'; cbn [blank_variant1] in K; try discriminate; destruct w, w'; cbn [blank_variant1] in Hx; try discriminate;
        unfold bdoc_eq, blank1; cbn [push_chunk_unchecked1 variant_of1 map blank_chunk1 blank_variant1]; congruence.
    - change (push_chunk_unchecked1 (x :: y :: d) c) with (x :: push_chunk_unchecked1 (y :: d) c). change (push_chunk_unchecked1 (x' :: y' :: d') c') with (x' :: push_chunk_unchecked1 (y' :: d') c').
      unfold bdoc_eq, blank1 in *. cbn [map] in *. rewrite IH. f_equal. exact Hx.
  Qed.
  Lemma down_document d d' : unnumbered2 d = unnumbered2 d' -> sim RE b bdoc_eq (@from2_to1 E p d) (from2_to1 p d').
  Proof.
    intros H. unfold from2_to1. eapply (sim_foldM _ _ bdoc_eq); [apply (map_eq_Forall2 unnumbered_chunk2), H| |reflexivity].
    intros s s' a a' Hs Ha. eapply sim_bind; [apply (down_chunk_all a a' None None I Ha)|]. intros x x' Hx. apply sim_ok.
    apply (map_eq_Forall2 blank_chunk1) in Hx. revert s s' Hs. induction Hx as [|y y' x x' Hy _ IH]; intros s s' Hs; [exact Hs|]. cbn [fold_left]. apply IH. now apply bdoc_push.
  Qed.
End Down2.
