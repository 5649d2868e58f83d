(** * Unnum: line numbers influence nothing but line numbers: tools, and stage 2 *)
From Verif Require Import Base Ast1 Parse1 Ast2 Ast3 SpecUnnum Mono.
From Coq Require Import Lia Arith.

(** ** Simulation up to panics (if [b]) *)
Definition sim {E A B} (RE : E -> E -> Prop) (b : bool) (R : A -> B -> Prop) (x : outcome E A) (y : outcome E B) : Prop :=
  (b = true /\ (x = Panic \/ y = Panic)) \/
  match x, y with
  | Ok a, Ok b => R a b
  | Err e, Err e' => RE e e'
  | Panic, Panic => True
  | OutOfFuel, OutOfFuel => True
  | _, _ => False
  end.
Section Sim.
  Context {E : Type} (RE : E -> E -> Prop) (b : bool).
  Lemma sim_ok {A B} (R : A -> B -> Prop) x y : R x y -> sim RE b R (Ok x) (Ok y).
  Proof. intros H. right. exact H. Qed.
  Lemma sim_err {A B} (R : A -> B -> Prop) x y : RE x y -> sim RE b R (Err x) (Err y).
  Proof. intros H. right. exact H. Qed.
  Lemma sim_bind {A B A' B'} (R : A -> B -> Prop) (S : A' -> B' -> Prop) x y f g :
    sim RE b R x y -> (forall a a', R a a' -> sim RE b S (f a) (g a')) -> sim RE b S (bind x f) (bind y g).
  Proof.
    intros [[Hb [->| ->]]|H] K; [left; split; [exact Hb|left; reflexivity]|left; split; [exact Hb|right; reflexivity]|].
    destruct x, y; cbn [bind]; try contradiction; [now apply K|right; exact H|right; exact I|right; exact I].
  Qed.
  Lemma sim_weaken {A B} (R S : A -> B -> Prop) x y : (forall a a', R a a' -> S a a') -> sim RE b R x y -> sim RE b S x y.
  Proof. intros K [H|H]; [left; exact H|right]. destruct x, y; try contradiction; auto. Qed.
  Lemma sim_foldM {A B T U} (R : T -> U -> Prop) (Q : A -> B -> Prop) f g l l' : Forall2 Q l l' ->
    (forall s s' a a', R s s' -> Q a a' -> sim RE b R (f s a) (g s' a')) ->
    forall s s', R s s' -> sim RE b R (foldM f s l) (foldM g s' l').
  Proof.
    intros H K. induction H as [|x y l l' Hx H IH]; intros s s' Hs; cbn [foldM]; [apply sim_ok, Hs|].
    eapply sim_bind; [exact (K _ _ _ _ Hs Hx)|]. intros a a' Ha. now apply IH.
  Qed.
  Lemma sim_foldM_in {A B T U} (R : T -> U -> Prop) (Q : A -> B -> Prop) f g l l' : Forall2 Q l l' ->
    (forall s s' a a', In a l -> R s s' -> Q a a' -> sim RE b R (f s a) (g s' a')) ->
    forall s s', R s s' -> sim RE b R (foldM f s l) (foldM g s' l').
  Proof.
    intros H. induction H as [|x y l l' Hx H IH]; intros K s s' Hs; cbn [foldM]; [apply sim_ok, Hs|].
    eapply sim_bind; [exact (K _ _ _ _ (or_introl eq_refl) Hs Hx)|]. intros a a' Ha. apply IH; [|exact Ha]. intros; apply K; auto. now right.
  Qed.
  Lemma sim_mapM {A B A' B'} (R : A' -> B' -> Prop) (Q : A -> B -> Prop) (f : A -> outcome E A') (g : B -> outcome E B') l l' : Forall2 Q l l' ->
    (forall a a', In a l -> Q a a' -> sim RE b R (f a) (g a')) -> sim RE b (Forall2 R) (mapM f l) (mapM g l').
  Proof.
    intros H. induction H as [|x y l l' Hx H IH]; intros K; cbn [mapM]; [apply sim_ok; constructor|].
    eapply sim_bind; [exact (K _ _ (or_introl eq_refl) Hx)|]. intros a a' Ha.
    eapply sim_bind; [apply IH; intros; apply K; auto; now right|]. intros c c' Hc. apply sim_ok. constructor; assumption.
  Qed.
End Sim.
Lemma map_eq_Forall2 {A B} (f : A -> B) l l' : map f l = map f l' <-> Forall2 (fun a b => f a = f b) l l'.
Proof.
  split.
  - revert l'. induction l as [|a l IH]; intros [|a' l'] H; try discriminate; [constructor|]. injection H as H1 H2. constructor; auto.
  - induction 1 as [|a b l l' H _ IH]; cbn [map]; congruence.
Qed.
Lemma Forall2_weaken {A B} (P Q : A -> B -> Prop) l l' : (forall a b, P a b -> Q a b) -> Forall2 P l l' -> Forall2 Q l l'.
Proof. intros K. induction 1; constructor; auto. Qed.
Definition sameE (e e' : error) : Prop := err_type e = err_type e'.
Definition anyN (a b : N) : Prop := True.

Section Numbers.
  Context (p q : profile) (b : bool) (Hb : b = true \/ (p = Release /\ q = Release)).
  Lemma sim_num {E} RE (f : profile -> N -> N -> outcome E N) x y x' y' :
    (forall x y, exists n, f Release x y = Ok n) -> (forall x y, f Debug x y = Panic \/ exists n, f Debug x y = Ok n) ->
    sim RE b anyN (f p x y) (f q x' y').
  Proof.
    intros K1 K2.
    assert (G : forall p x y, (p = Debug /\ f p x y = Panic) \/ exists n, f p x y = Ok n) by (intros []; intros; auto; destruct (K2 x0 y0); auto).
    destruct Hb as [->|[-> ->]].
    - destruct (G p x y) as [[_ ->]|[n ->]]; [left; auto|]. destruct (G q x' y') as [[_ ->]|[n' ->]]; [left; auto|]. right. exact I.
    - destruct (K1 x y) as [n ->], (K1 x' y') as [n' ->]. right. exact I.
  Qed.
  Lemma sim_add {E} RE x y x' y' : sim RE b anyN (@add32 E p x y) (add32 q x' y').
  Proof. apply (sim_num RE (fun p => @add32 E p)); intros; unfold add32, overflow32; destruct (_ <? _); eauto. Qed.
  Lemma sim_sub {E} RE x y x' y' : sim RE b anyN (@sub32 E p x y) (sub32 q x' y').
  Proof. apply (sim_num RE (fun p => @sub32 E p)); intros; unfold sub32, overflow32; destruct (_ <=? _); eauto. Qed.
  Lemma sim_inc {E} RE z : sim RE b eq (@inc_i32 E p z) (inc_i32 q z).
  Proof.
    unfold inc_i32. destruct (_ <? _)%Z; [right; reflexivity|]. destruct Hb as [->|[-> ->]]; [|right; reflexivity].
    destruct p; [left; auto|]. destruct q; [left; auto|right; reflexivity].
  Qed.
  Lemma sim_shift {A} (R : A -> A -> Prop) k k' x y : sim sameE b R x y -> sim sameE b R (shift_err p k x) (shift_err q k' y).
  Proof.
    intros [[H [->| ->]]|H]; [left; auto|left; auto|]. destruct x as [x|e| |], y as [y|e'| |]; try contradiction; [right; exact H| |right; exact I|right; exact I].
    cbn [shift_err map_err]. unfold shift_err, map_err. pose proof (@sim_add error sameE (err_line e) k (err_line e') k') as [[Hb' G]|G].
    - left. split; [exact Hb'|]. destruct G as [-> | ->]; cbn [bind]; auto.
    - destruct (add32 p _ _), (add32 q _ _); try contradiction; cbn [bind]; right; auto.
  Qed.
End Numbers.

(** ** Stage 2 *)
Notation same1 := (fun a b : chunk1 => unnumbered_chunk1 a = unnumbered_chunk1 b).
Notation same2 := (fun a b : chunk2 => unnumbered_chunk2 a = unnumbered_chunk2 b).
Definition uargs1 (args : list (str * scope1)) := map (fun a => match a with (pre, sc) => (pre, unnumbered_scope1 sc) end) args.
Definition uargs2 (args : list (str * scope2)) := map (fun a => match a with (pre, sc) => (pre, unnumbered_scope2 sc) end) args.
Definition doc1_eq (a b : list chunk1) : Prop := unnumbered1 a = unnumbered1 b.
Definition doc2_eq (a b : list chunk2) : Prop := unnumbered2 a = unnumbered2 b.
Lemma unnumbered1_app a b : unnumbered1 (a ++ b) = unnumbered1 a ++ unnumbered1 b. Proof. apply map_app. Qed.
Lemma unnumbered2_app a b : unnumbered2 (a ++ b) = unnumbered2 a ++ unnumbered2 b. Proof. apply map_app. Qed.
Definition is_be (lab : str) : bool := str_eqb lab s_begin || str_eqb lab s_end.
Lemma uargs1_eq args args' : uargs1 args = uargs1 args' -> Forall2 (fun a b => match a, b with (pre, sc), (pre', sc') => pre = pre' /\ doc1_eq (chunks1 sc) (chunks1 sc') /\ scope_variant1 sc = scope_variant1 sc' end) args args'.
Proof.
  intros H. apply map_eq_Forall2 in H. eapply Forall2_weaken; [|exact H]. intros [pre [cs v]] [pre' [cs' v']] K. injection K as -> K ->. split; [reflexivity|]. split; [exact K|reflexivity].
Qed.
Lemma command_plain lab args args' : is_be lab = false -> unnumbered_command1 (mkCommand1 lab args) = unnumbered_command1 (mkCommand1 lab args') -> uargs1 args = uargs1 args'.
Proof.
  unfold is_be. intros Hl H. change s_begin with (S! "begin") in Hl. change s_end with (S! "end") in Hl. cbn [unnumbered_command1] in H. rewrite Hl in H.
  injection H as H. destruct args as [|[pre sc] rest], args' as [|[pre' sc'] rest']; try discriminate; [reflexivity|].
  injection H as -> H1 H2. unfold uargs1. cbn [map]. rewrite H1, H2. reflexivity.
Qed.
Lemma command_be lab args args' : is_be lab = true -> unnumbered_command1 (mkCommand1 lab args) = unnumbered_command1 (mkCommand1 lab args') ->
  (args = [] /\ args' = []) \/ exists pre sc rest rest', args = (pre, sc) :: rest /\ args' = (pre, sc) :: rest' /\ uargs1 rest = uargs1 rest'.
Proof.
  unfold is_be. intros Hl H. change s_begin with (S! "begin") in Hl. change s_end with (S! "end") in Hl. cbn [unnumbered_command1] in H. rewrite Hl in H.
  injection H as H. destruct args as [|[pre sc] rest], args' as [|[pre' sc'] rest']; try discriminate; [left; auto|].
  injection H as -> -> H2. right. exists pre', sc', rest, rest'. auto.
Qed.
Section Stage2.
  Context (p q : profile) (b : bool) (Hb : b = true \/ (p = Release /\ q = Release)).
  Context (r r' : list chunk1 -> outcome error document2).
  Hypothesis Hr : forall cs cs', doc1_eq cs cs' -> sim sameE b doc2_eq (r cs) (r' cs').
  Definition same_t (s s' : tstate) : Prop :=
    doc2_eq (ts_chunks s) (ts_chunks s') /\ ts_stack s = ts_stack s' /\ uargs1 (ts_args s) = uargs1 (ts_args s') /\
    doc1_eq (ts_buffer s) (ts_buffer s') /\ ts_prec s = ts_prec s'.
  Lemma sim_scope2 sc sc' : doc1_eq (chunks1 sc) (chunks1 sc') -> scope_variant1 sc = scope_variant1 sc' ->
    sim sameE b (fun a b => unnumbered_scope2 a = unnumbered_scope2 b) (scope2_try_from r sc) (scope2_try_from r' sc').
  Proof.
    intros H V. unfold scope2_try_from. eapply sim_bind; [apply Hr, H|]. intros a a' Ha. apply sim_ok. cbn [unnumbered_scope2]. rewrite V. f_equal. exact Ha.
  Qed.
  Lemma sim_args2 args args' : uargs1 args = uargs1 args' -> sim sameE b (fun a b => uargs2 a = uargs2 b) (args2_try_from r args) (args2_try_from r' args').
  Proof.
    intros H. unfold args2_try_from. apply uargs1_eq in H. eapply sim_weaken; [|eapply (sim_mapM _ _ (fun a b => match a, b with (pre, sc), (pre', sc') => pre = pre' /\ unnumbered_scope2 sc = unnumbered_scope2 sc' end)); [exact H|]].
    - intros a a' K. apply map_eq_Forall2. eapply Forall2_weaken; [|exact K]. intros [pre sc] [pre' sc'] [-> ->]. reflexivity.
    - intros [pre sc] [pre' sc'] _ (-> & H1 & H2). eapply sim_bind; [apply sim_scope2; assumption|]. intros a a' Ha. apply sim_ok. split; [reflexivity|exact Ha].
  Qed.
  Lemma sim_buffer s s' l l' v v' : same_t s s' -> unnumbered_variant1 v = unnumbered_variant1 v' -> sim sameE b same_t (t_push_buffer p s l v) (t_push_buffer q s' l' v').
  Proof.
    intros (S1 & S2 & S3 & S4 & S5) H. unfold t_push_buffer. eapply sim_bind; [apply sim_sub, Hb|]. intros a a' _. eapply sim_bind; [apply sim_add, Hb|]. intros c c' _.
    apply sim_ok. unfold same_t. cbn [ts_chunks ts_stack ts_args ts_buffer ts_prec]. split; [exact S1|]. split; [exact S2|]. split; [exact S3|]. split; [|exact S5].
    unfold doc1_eq in *. rewrite !unnumbered1_app, S4. f_equal. unfold unnumbered1. cbn [map unnumbered_chunk1]. now rewrite H.
  Qed.
  Lemma same_push s s' l l' v v' : same_t s s' -> unnumbered_variant2 v = unnumbered_variant2 v' -> same_t (t_push_chunk s (mkChunk2 l v)) (t_push_chunk s' (mkChunk2 l' v')).
  Proof.
    intros (S1 & S2 & S3 & S4 & S5) H. unfold t_push_chunk, same_t. cbn [ts_chunks ts_stack ts_args ts_buffer ts_prec]. split; [|repeat split; assumption].
    unfold doc2_eq in *. rewrite !unnumbered2_app, S1. f_equal. unfold unnumbered2. cbn [map unnumbered_chunk2]. now rewrite H.
  Qed.
  Lemma sim_tstep s s' c c' : same_t s s' -> same1 c c' -> sim sameE b same_t (tstep p r s c) (tstep q r' s' c').
  Proof.
    intros S H. destruct c as [l v], c' as [l' v']. assert (Hv : unnumbered_variant1 v = unnumbered_variant1 v') by (cbn [unnumbered_chunk1] in H; congruence). clear H.
    pose proof S as (S1 & S2 & S3 & S4 & S5). unfold tstep. rewrite <- S2.
    destruct v as [t|[lab args]|[cs w]], v' as [t'|[lab' args']|[cs' w']]; try (cbn [unnumbered_variant1] in Hv; discriminate).
    - injection Hv as <-. destruct (is_empty _); [|apply sim_buffer; auto]. apply sim_ok, same_push; auto.
    - assert (lab' = lab) by (cbn [unnumbered_variant1 unnumbered_command1] in Hv; congruence). subst lab'. cbn [label1].
      assert (Hc : unnumbered_command1 (mkCommand1 lab args) = unnumbered_command1 (mkCommand1 lab args')) by (cbn [unnumbered_variant1] in Hv; congruence).
      fold (is_be lab). destruct (is_be lab) eqn:L; cbn [negb].
      + destruct (command_be _ _ _ L Hc) as [[-> ->]|(pre & sc & rest & rest' & -> & -> & Hrest)]; [apply sim_err; reflexivity|]. cbn [arguments1].
        destruct (negb (sv1_eqb _ _)); [apply sim_err; reflexivity|]. destruct (str_eqb lab s_begin).
        { destruct (is_empty _).
          - eapply sim_bind; [apply sim_add, Hb|]. intros a a' _. apply sim_ok. unfold same_t. cbn [ts_chunks ts_stack ts_args ts_buffer ts_prec]. rewrite S2. repeat split; assumption.
          - apply sim_buffer; [|exact Hv]. unfold same_t. cbn [ts_chunks ts_stack ts_args ts_buffer ts_prec]. rewrite S2. repeat split; assumption. }
        destruct (negb (opt_chunks_eqb _ _)); [apply sim_err; reflexivity|].
        assert (Hlen : length ((pre, sc) :: rest) = length ((pre, sc) :: rest')).
        { cbn [length]. f_equal. unfold uargs1 in Hrest. apply (f_equal (@length _)) in Hrest. now rewrite !map_length in Hrest. }
        rewrite <- Hlen. destruct (1 <? _); [apply sim_err; reflexivity|].
        destruct (ts_stack s) as [|top stack]; [right; exact I|]. destruct (is_empty stack).
        * eapply sim_bind; [apply sim_args2, S3|]. intros a a' Ha. eapply sim_bind; [apply sim_shift; [exact Hb|]; apply Hr, S4|]. intros d d' Hd.
          apply sim_ok. unfold same_t. cbn [ts_chunks ts_stack ts_args ts_buffer ts_prec]. split; [|repeat split].
          unfold doc2_eq in *. rewrite !unnumbered2_app, S1. f_equal. unfold unnumbered2 at 1 2. cbn [map unnumbered_chunk2 unnumbered_variant2 unnumbered_env2].
          fold (uargs2 a) (uargs2 a') (unnumbered2 d) (unnumbered2 d'). now rewrite Ha, Hd, S5.
        * apply sim_buffer; [|exact Hv]. unfold same_t. cbn [ts_chunks ts_stack ts_args ts_buffer ts_prec]. repeat split; assumption.
      + destruct (is_empty _); [|apply sim_buffer; auto]. unfold command2_try_from. cbn [arguments1 label1]. eapply sim_bind.
        * eapply sim_bind; [apply sim_args2, (command_plain _ _ _ L Hc)|]. intros a a' Ha.
          apply (sim_ok _ _ (fun a b => unnumbered_command2 a = unnumbered_command2 b)). cbn [unnumbered_command2]. f_equal. exact Ha.
        * intros a a' Ha. apply sim_ok, same_push; [exact S|]. cbn [unnumbered_variant2]. cbv beta in Ha. now rewrite Ha.
    - injection Hv as Hcs <-. destruct (is_empty _); [|apply sim_buffer; auto; cbn [unnumbered_variant1 unnumbered_scope1]; now rewrite Hcs].
      eapply sim_bind; [apply sim_shift; [exact Hb|]; apply sim_scope2; [exact Hcs|reflexivity]|]. intros a a' Ha. apply sim_ok, same_push; [exact S|]. cbn [unnumbered_variant2]. cbv beta in Ha. now rewrite Ha.
  Qed.
  Lemma sim_tfinish s s' : same_t s s' -> sim sameE b doc2_eq (tfinish s) (tfinish s').
  Proof. intros (S1 & S2 & _). unfold tfinish. rewrite S2. destruct (last_opt _); [apply sim_err; reflexivity|apply sim_ok, S1]. Qed.
End Stage2.
Lemma sim_fuel2 p q b : b = true \/ (p = Release /\ q = Release) -> forall n d d', doc1_eq d d' -> sim sameE b doc2_eq (try_from2_fuel n p d) (try_from2_fuel n q d').
Proof.
  intros Hb n. induction n as [|n IH]; intros d d' H; [right; exact I|]. cbn [try_from2_fuel]. apply map_eq_Forall2 in H. eapply sim_bind.
  - eapply (sim_foldM _ _ same_t); [exact H| |].
    + intros s s' a a' Hs Ha. apply sim_tstep; assumption.
    + repeat split.
  - intros a a' Ha. now apply sim_tfinish.
Qed.
(** the fuel does not depend on line numbers *)
Fixpoint usize_chunk1 (c : chunk1) : size_chunk1 (unnumbered_chunk1 c) = size_chunk1 c
with usize_scope1 (sc : scope1) : size_scope1 (unnumbered_scope1 sc) = size_scope1 sc.
Proof.
  - destruct c as [l [t|[lab args]|sc]]; cbn [unnumbered_chunk1 unnumbered_variant1 size_chunk1 size_variant1]; [reflexivity| |f_equal; apply usize_scope1].
    f_equal. cbn [unnumbered_command1 size_command1]. f_equal. destruct args as [|[pre sc] rest]; [reflexivity|]. cbn [map].
    set (h := size_scope1 sc).
    assert (Hh : size_scope1 (if str_eqb lab (S! "begin") || str_eqb lab (S! "end") then sc else unnumbered_scope1 sc) = h) by (unfold h; destruct (_ || _); [reflexivity|apply usize_scope1]).
    rewrite Hh. cbn [list_sum fold_right]. f_equal. clear h Hh.
    induction rest as [|[pre' sc'] rest IH]; [reflexivity|]. cbn [map list_sum fold_right]. rewrite usize_scope1. f_equal. exact IH.
  - destruct sc as [cs v]. cbn [unnumbered_scope1 size_scope1]. f_equal. induction cs as [|c cs IH]; [reflexivity|]. cbn [map list_sum fold_right]. rewrite usize_chunk1. f_equal. exact IH.
Qed.
Lemma usize1 d : size1 (unnumbered1 d) = size1 d.
Proof. unfold size1, unnumbered1. rewrite map_map. f_equal. apply map_ext, usize_chunk1. Qed.
Lemma sim_try_from2 p q b d d' : b = true \/ (p = Release /\ q = Release) -> doc1_eq d d' -> sim sameE b doc2_eq (try_from2 p d) (try_from2 q d').
Proof. intros Hb H. unfold try_from2. rewrite <- (usize1 d), H, (usize1 d'). now apply sim_fuel2. Qed.
