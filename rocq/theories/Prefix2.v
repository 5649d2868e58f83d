(** * Prefix2: stage 2 of a beginning of a source, and of the whole source *)
From Verif Require Import Base Ast1 Parse1 Ast2 SpecPrefix Spec2 Valid2 Conv2 Fail2 Compose2.
Local Open Scope N_scope.

Section Prefix2.
  Context (p : profile).
  Definition arg2 (rec : list chunk1 -> outcome error document2) (a : str * scope1) : outcome error (str * scope2) :=
    match a with (prec, sc) => let* sc := scope2_try_from rec sc in Ok (prec, sc) end.
  Definition cmd l lab args := mkChunk1 l (Command1 (mkCommand1 lab args)).

  (** with the same fuel for everything *)
  Lemma with_fuel d d' : exists n, try_from2 p d = try_from2_fuel (S n) p d /\ try_from2 p d' = try_from2_fuel (S n) p d'.
  Proof. exists (size1 d + size1 d')%nat. split; symmetry; apply enough; lia. Qed.

  Lemma tfinish_err s e : tfinish s = Err e -> exists lab, err_type e = UnclosedEnvironment lab.
  Proof. unfold tfinish. destruct (last_opt (ts_stack s)); [|discriminate]. intros H. injection H as <-. eexists; reflexivity. Qed.
  Lemma text_ok rec s l t e : tstep p rec s (mkChunk1 l (Text1 t)) <> Err e.
  Proof.
    cbn [tstep]. destruct (is_empty (ts_stack s)); [discriminate|]. unfold t_push_buffer, sub32, add32, overflow32.
    destruct p; repeat match goal with |- context [if ?b then _ else _] => destruct b; cbn [bind] end; discriminate.
  Qed.
  Lemma buffer_ok s l v e : t_push_buffer p s l v <> Err e.
  Proof.
    unfold t_push_buffer, sub32, add32, overflow32. destruct p; repeat match goal with |- context [if ?b then _ else _] => destruct b; cbn [bind] end; discriminate.
  Qed.
  Lemma add32_ok {E} a b e : @add32 E p a b <> Err e.
  Proof. unfold add32, overflow32. destruct p; repeat match goal with |- context [if ?b then _ else _] => destruct b; cbn [bind] end; discriminate. Qed.
  (** a command that is rejected is rejected with more arguments too, unless it is a [\begin] or [\end] without any *)
  Lemma cmd_more rec s l lab args more e : tstep p rec s (cmd l lab args) = Err e ->
    (args = [] /\ (lab = s_begin \/ lab = s_end) /\ err_type e = NoEnvironmentLabel) \/
    forall s', tstep p rec s (cmd l lab (args ++ more)) <> Ok s'.
  Proof.
    unfold cmd. cbn [tstep label1 arguments1]. destruct (str_eqb lab s_begin) eqn:Lb; [|destruct (str_eqb lab s_end) eqn:Le]; cbn [orb negb].
    - destruct args as [|[pr sc] args]; cbn [app].
      { intros H. injection H as <-. left. repeat split. left. now apply str_eqb_eq. }
      destruct (sv1_eqb (scope_variant1 sc) Curly1); cbn [negb]; [|intros _; right; discriminate].
      destruct (is_empty (ts_stack s)); intros H; exfalso.
      + match type of H with bind ?f _ = _ => destruct f eqn:F; cbn [bind] in H; try discriminate end. exact (add32_ok _ _ _ F).
      + exact (buffer_ok _ _ _ _ H).
    - destruct args as [|[pr sc] args]; cbn [app].
      { intros H. injection H as <-. left. repeat split. right. now apply str_eqb_eq. }
      destruct (sv1_eqb (scope_variant1 sc) Curly1); cbn [negb]; [|intros _; right; discriminate].
      destruct (opt_chunks_eqb (hd_error (ts_stack s)) (chunks1 sc)); cbn [negb]; [|intros _; right; discriminate].
      destruct more as [|m more]; [rewrite app_nil_r; intros H; right; intros s'; rewrite H; discriminate|]. intros _. right. intros s'.
      replace (1 <? N.of_nat (length ((pr, sc) :: args ++ m :: more))) with true; [discriminate|].
      symmetry. apply N.ltb_lt. cbn [length]. rewrite app_length. cbn [length]. lia.
    - destruct (is_empty (ts_stack s)); [|intros H; exfalso; exact (buffer_ok _ _ _ _ H)].
      unfold command2_try_from, args2_try_from. cbn [arguments1]. intros H. right. intros s'. rewrite mapM_app.
      destruct (mapM _ args) as [a| | |]; cbn [bind] in *; try discriminate.
  Qed.

  (** ** Completing a rejected source *)
  Lemma completed same tail rest e x : continues tail rest ->
    try_from2 p (same ++ tail) = Err e -> try_from2 p (same ++ rest) = Ok x ->
    (exists lab, err_type e = UnclosedEnvironment lab) \/
    (err_type e = NoEnvironmentLabel /\ exists l lab more, tail = cmd l lab [] :: more /\ (lab = s_begin \/ lab = s_end)).
  Proof.
    intros C H H'. destruct (with_fuel (same ++ tail) (same ++ rest)) as (n & E & E'). rewrite E in H. rewrite E' in H'. clear E E'.
    cbn [try_from2_fuel] in *. rewrite foldM_app in H, H'. set (rec := try_from2_fuel n p) in *.
    destruct (foldM (tstep p rec) tinit same) as [s| | |]; cbn [bind] in *; try discriminate.
    assert (R : forall c r, foldM (tstep p rec) s (c :: r) = (let* s1 := tstep p rec s c in foldM (tstep p rec) s1 r)) by reflexivity.
    assert (T : forall s0 l w, (let* s2 := foldM (tstep p rec) s0 [mkChunk1 l (Text1 w)] in tfinish s2) = Err e -> exists lab, err_type e = UnclosedEnvironment lab).
    { intros s0 l w K. cbn [foldM bind] in K. pose proof (text_ok rec s0 l w e) as N. destruct (tstep p rec s0 (mkChunk1 l (Text1 w))); cbn [bind] in K; try discriminate; [|congruence].
      exact (tfinish_err _ _ K). }
    (* a command that goes on *)
    assert (G : forall l lab args more b b', (let* s2 := (let* s1 := tstep p rec s (cmd l lab args) in foldM (tstep p rec) s1 b) in tfinish s2) = Err e ->
      (b = [] \/ exists l w, b = [mkChunk1 l (Text1 w)]) -> (let* s2 := (let* s1 := tstep p rec s (cmd l lab (args ++ more)) in foldM (tstep p rec) s1 b') in tfinish s2) = Ok x ->
      (exists lab, err_type e = UnclosedEnvironment lab) \/ (err_type e = NoEnvironmentLabel /\ args = [] /\ (lab = s_begin \/ lab = s_end))).
    { intros l lab args more b b' K B K'. destruct (tstep p rec s (cmd l lab args)) as [s1|e1| |] eqn:F; cbn [bind] in K; try discriminate.
      - left. destruct B as [->|(l0 & w & ->)]; [exact (tfinish_err _ _ K)|exact (T _ _ _ K)].
      - injection K as ->. destruct (cmd_more rec s l lab args more e F) as [(-> & L & N)|N]; [auto|].
        destruct (tstep p rec s (cmd l lab (args ++ more))) as [s1| | |]; cbn [bind] in K'; try discriminate. now destruct (N s1). }
    destruct C as [rest|l t u rest|l lab args more rest|l lab u args rest Wd|l lab args l' l'' w u rest W|l lab args l' w u sc more rest W].
    - left. exact (tfinish_err _ _ H).
    - left. exact (T _ _ _ H).
    - rewrite R in H, H'. destruct (G _ _ _ _ _ _ H (or_introl eq_refl) H') as [K|(K & -> & L)]; [now left|]. right. split; [exact K|]. repeat eexists; eauto.
    - rewrite R in H. destruct (tstep p rec s (mkChunk1 l (Command1 (mkCommand1 lab [])))) as [s1|e1| |] eqn:F; cbn [bind foldM] in H; try discriminate.
      + left. exact (tfinish_err _ _ H).
      + injection H as ->. cbn [tstep label1 arguments1] in F. destruct (str_eqb lab s_begin || str_eqb lab s_end) eqn:Q; cbn [negb] in F.
        * right. injection F as <-. split; [reflexivity|]. apply orb_true_iff in Q. exists l, lab, []. split; [reflexivity|]. destruct Q as [Q|Q]; apply str_eqb_eq in Q; auto.
        * destruct (is_empty (ts_stack s)); [discriminate|]. destruct (buffer_ok _ _ _ _ F).
    - rewrite R in H, H'. rewrite <- (app_nil_r args) in H' at 1. destruct (G _ _ _ _ _ _ H (or_intror (ex_intro _ l' (ex_intro _ w eq_refl))) H') as [K|(K & -> & L)]; [now left|].
      right. split; [exact K|]. repeat eexists; eauto.
    - rewrite R in H, H'. destruct (G _ _ _ _ _ _ H (or_intror (ex_intro _ l' (ex_intro _ w eq_refl))) H') as [K|(K & -> & L)]; [now left|].
      right. split; [exact K|]. repeat eexists; eauto.
  Qed.

  (** ** What is kept *)
  Lemma last_none {A} (l : list A) : last_opt l = None -> l = [].
  Proof. unfold last_opt. destruct (rev l) eqn:R; [|discriminate]. intros _. apply (f_equal (@rev _)) in R. now rewrite rev_involutive in R. Qed.
  Lemma buffer_stack s l v s' : t_push_buffer p s l v = Ok s' -> ts_stack s' = ts_stack s.
  Proof.
    unfold t_push_buffer. destruct (sub32 p l (ts_start s)) as [a| | |]; cbn [bind]; try discriminate. destruct (add32 p a 1); cbn [bind]; try discriminate. intros H. now injection H as <-.
  Qed.
  (** only an [\end] closes an environment *)
  Lemma closed_by a c e x : try_from2 p a = Err e -> try_from2 p (a ++ [c]) = Ok x -> exists l pe lab, c = end_cmd l pe lab.
  Proof.
    intros H H'. destruct (with_fuel a (a ++ [c])) as (n & E & E'). rewrite E in H. rewrite E' in H'. clear E E'. cbn [try_from2_fuel] in *. rewrite foldM_app in H'.
    set (rec := try_from2_fuel n p) in *. destruct (foldM (tstep p rec) tinit a) as [s| | |]; cbn [bind] in *; try discriminate.
    assert (S0 : ts_stack s <> []) by (intros Z; unfold tfinish in H; now rewrite Z in H).
    assert (Es : is_empty (ts_stack s) = false) by (now destruct (ts_stack s)).
    cbn [foldM] in H'. destruct (tstep p rec s c) as [s'| | |] eqn:F; cbn [bind] in H'; try discriminate.
    assert (S1 : ts_stack s' = []) by (unfold tfinish in H'; destruct (last_opt (ts_stack s')) eqn:L; [discriminate|now apply last_none]).
    destruct c as [l v]. destruct v as [t|[lab args]|sc]; cbn [tstep label1 arguments1] in F; rewrite Es in F.
    - apply buffer_stack in F. congruence.
    - destruct (negb (str_eqb lab s_begin || str_eqb lab s_end)) eqn:Q; [apply buffer_stack in F; congruence|]. apply negb_false_iff, orb_true_iff in Q.
      destruct args as [|[pr [cs v]] args]; [discriminate|]. cbn [scope_variant1 chunks1] in F. destruct (sv1_eqb v Curly1) eqn:V; cbn [negb] in F; [|discriminate].
      destruct (str_eqb lab s_begin) eqn:Lb; [apply buffer_stack in F; cbn in F; congruence|].
      destruct (negb (opt_chunks_eqb (hd_error (ts_stack s)) cs)); [discriminate|].
      destruct (1 <? N.of_nat (length ((pr, mkScope1 cs v) :: args))) eqn:L; [discriminate|]. destruct args; [|apply N.ltb_ge in L; cbn [length] in L; lia].
      exists l, pr, cs. unfold end_cmd. destruct v; try discriminate. f_equal. f_equal. f_equal.
      destruct Q as [Q|Q]; [congruence|]. now apply str_eqb_eq in Q.
    - apply buffer_stack in F. congruence.
  Qed.
  Lemma end_one a l args b x : try_from2 p (a ++ cmd l s_end args :: b) = Ok x -> length args = 1%nat.
  Proof.
    intros H'. destruct (with_fuel [] (a ++ cmd l s_end args :: b)) as (n & _ & E'). rewrite E' in H'. clear E'. cbn [try_from2_fuel] in *. rewrite foldM_app in H'.
    set (rec := try_from2_fuel n p) in *. destruct (foldM (tstep p rec) tinit a) as [s| | |]; cbn [bind] in *; try discriminate.
    cbn [foldM] in H'. destruct (tstep p rec s (cmd l s_end args)) as [s'| | |] eqn:F; cbn [bind] in H'; try discriminate. clear H'.
    unfold cmd in F. cbn [tstep label1 arguments1] in F. change (str_eqb s_end s_begin) with false in F. change (str_eqb s_end s_end) with true in F. cbn [orb negb] in F.
    destruct args as [|[pr sc] args]; [discriminate|]. destruct (negb (sv1_eqb (scope_variant1 sc) Curly1)); [discriminate|].
    destruct (negb (opt_chunks_eqb (hd_error (ts_stack s)) (chunks1 sc))); [discriminate|].
    destruct (1 <? N.of_nat (length ((pr, sc) :: args))) eqn:L; [discriminate|]. apply N.ltb_ge in L. cbn [length] in *. lia.
  Qed.
  (** the conversion of one command, and of the same command with more arguments *)
  Lemma one_cmd l lab args x : try_from2 p [cmd l lab args] = Ok x -> lab <> s_begin /\ lab <> s_end /\ exists args', x = [mkChunk2 l (Command2 (mkCommand2 lab args'))].
  Proof.
    intros H. apply try_from2_iff in H. inversion H; subst.
    - match goal with K : conv p [] _ |- _ => inversion K; subst end. eauto.
    - match goal with K : ?b ++ end_cmd _ _ _ :: _ = [] |- _ => now destruct b end.
  Qed.
  Lemma one_cmd_more l lab args more x y : try_from2 p [cmd l lab args] = Ok x -> try_from2 p [cmd l lab (args ++ more)] = Ok y ->
    exists args' more', x = [mkChunk2 l (Command2 (mkCommand2 lab args'))] /\ y = [mkChunk2 l (Command2 (mkCommand2 lab (args' ++ more')))] /\ conv_args p more more'.
  Proof.
    intros H H'. apply try_from2_iff in H, H'.
    inversion H; subst; [|match goal with K : ?b ++ end_cmd _ _ _ :: _ = [] |- _ => now destruct b end].
    inversion H'; subst; [|match goal with K : ?b ++ end_cmd _ _ _ :: _ = [] |- _ => now destruct b end].
    repeat match goal with K : conv p [] _ |- _ => inversion K; subst; clear K end.
    match goal with K : conv_args p args ?a, K' : conv_args p (args ++ more) ?b |- _ => rename K into A, K' into A'; rename a into x, b into y end.
    cut (exists more', y = x ++ more' /\ conv_args p more more'); [intros (m & -> & M); eauto|].
    clear - A A'. revert x A y A'. induction args as [|[pr [cs v]] args IH]; intros x A y A'.
    - inversion A; subst. exists y. split; [reflexivity|exact A'].
    - inversion A; subst. cbn [app] in A'. inversion A'; subst.
      match goal with K : conv p cs ?a, K' : conv p cs ?b |- _ => assert (a = b) by (apply try_from2_iff in K, K'; congruence); subst end.
      match goal with K : conv_args p args ?a, K' : conv_args p (args ++ more) ?b |- _ => destruct (IH _ K _ K') as (m & -> & M) end. eexists. split; [reflexivity|exact M].
  Qed.
  Lemma cons_split c rest y : try_from2 p (c :: rest) = Ok y -> (exists x, try_from2 p [c] = Ok x) ->
    exists x r, try_from2 p [c] = Ok x /\ y = x ++ r.
  Proof.
    intros H (x & X). change (c :: rest) with ([c] ++ rest) in H. rewrite (convert_append p [c] rest x X) in H. destruct (try_from2 p rest) as [r| | |]; cbn [bind] in H; try discriminate.
    injection H as <-. eauto.
  Qed.
  Lemma head_cmd l lab args rest y : lab <> s_begin -> lab <> s_end -> try_from2 p (cmd l lab args :: rest) = Ok y -> exists x, try_from2 p [cmd l lab args] = Ok x.
  Proof.
    intros B E H. apply try_from2_iff in H. inversion H; subst; [|now destruct B]. eexists. apply try_from2_iff. constructor; [assumption|assumption|eassumption|constructor].
  Qed.
End Prefix2.

Lemma begin_env l args rest y : try_from2 Debug (cmd l s_begin args :: rest) = Ok y -> exists l' env y', y = mkChunk2 l' (Environment2 env) :: y' /\ l <= l'.
Proof.
  intros H. apply try_from2_iff in H. inversion H; subst; [congruence|]. repeat eexists.
  match goal with K : startM Debug _ _ = Ok _ |- _ => unfold startM, add32 in K; match type of K with (if ?b then _ else _) = _ => destruct b end; cbn [overflow32] in K; [injection K as <-|discriminate] end. lia.
Qed.

Lemma kept2 same tail rest x x' : continues tail rest -> try_from2 Debug (same ++ tail) = Ok x -> try_from2 Debug (same ++ rest) = Ok x' ->
  exists same2 tail2 rest2, x = same2 ++ tail2 /\ x' = same2 ++ rest2 /\ continues2 tail2 rest2.
Proof.
  intros C H H'. set (p := Debug) in *.
  (* a closed beginning *)
  assert (N : forall a b b' x0, try_from2 p a = Ok x0 -> try_from2 p (a ++ b) = Ok x -> try_from2 p (a ++ b') = Ok x' ->
    exists y y', try_from2 p b = Ok y /\ try_from2 p b' = Ok y' /\ x = x0 ++ y /\ x' = x0 ++ y').
  { intros a b b' x0 A B B'. rewrite (convert_append p a b x0 A) in B. rewrite (convert_append p a b' x0 A) in B'.
    destruct (try_from2 p b) as [y| | |]; cbn [bind] in B; try discriminate. destruct (try_from2 p b') as [y'| | |]; cbn [bind] in B'; try discriminate.
    injection B as <-. injection B' as <-. eauto 10. }
  assert (W : forall a b b', try_from2 p a = Ok x -> same ++ rest = a ++ b' -> b = b' -> exists same2 tail2 rest2, x = same2 ++ tail2 /\ x' = same2 ++ rest2 /\ continues2 tail2 rest2).
  { intros a b b' A E _. rewrite E, (convert_append p a b' x A) in H'. destruct (try_from2 p b') as [y'| | |]; cbn [bind] in H'; try discriminate. injection H' as <-.
    exists x, [], y'. rewrite app_nil_r. repeat split. constructor. }
  assert (T : forall l w, exists z, try_from2 p [mkChunk1 l (Text1 w)] = Ok z /\ z = [mkChunk2 l (Text2 w)]) by (intros; eexists; split; reflexivity).
  destruct C as [rest|l t u rest|l lab args more rest|l lab u args rest Wd|l lab args l' l'' w u rest B|l lab args l' w u sc more rest B].
  - rewrite app_nil_r in H. exact (W same rest rest H eq_refl eq_refl).
  - destruct (try_from2 p same) as [x0|e| |] eqn:S0.
    + destruct (N _ _ _ _ S0 H H') as (y & y' & Y & Y' & -> & ->). destruct (cons_split p _ _ _ Y') as (z & r & Z & ->); [eexists; reflexivity|].
      injection Y as <-. injection Z as <-. exists x0. eexists. eexists. split; [reflexivity|]. split; [reflexivity|]. constructor.
    + destruct (closed_by p _ _ _ _ S0 H) as (? & ? & ? & ?). discriminate.
    + rewrite (panic_stays p _ _ S0) in H. discriminate.
    + now destruct (try_from2_total p same).
  - destruct (try_from2 p same) as [x0|e| |] eqn:S0.
    + destruct (N _ _ _ _ S0 H H') as (y & y' & Y & Y' & -> & ->). destruct (one_cmd p _ _ _ _ Y) as (B & E & _).
      destruct (cons_split p _ _ _ Y' (head_cmd p _ _ _ _ _ B E Y')) as (z & r & Z & ->). destruct (one_cmd_more p _ _ _ _ _ _ Y Z) as (a' & m' & -> & -> & _).
      exists x0. eexists. eexists. split; [reflexivity|]. split; [reflexivity|]. constructor.
    + destruct (closed_by p _ _ _ _ S0 H) as (l0 & pe & lb & E). injection E as -> -> ->. apply end_one in H'. destruct more; [|rewrite app_length in H'; cbn in H'; lia].
      apply (W _ rest rest H); [|reflexivity]. now rewrite <- app_assoc.
    + rewrite (panic_stays p _ _ S0) in H. discriminate.
    + now destruct (try_from2_total p same).
  - destruct (try_from2 p same) as [x0|e| |] eqn:S0.
    + destruct (N _ _ _ _ S0 H H') as (y & y' & Y & Y' & -> & ->). destruct (one_cmd p _ _ _ _ Y) as (B & E & _).
      assert (y = [mkChunk2 l (Command2 (mkCommand2 lab []))]).
      { apply try_from2_iff in Y. inversion Y; subst. match goal with K : conv_args _ [] _ |- _ => inversion K; subst end. match goal with K : conv _ [] _ |- _ => inversion K; subst end. reflexivity. }
      subst y. destruct (str_eqb (lab ++ u) s_begin) eqn:Q1; [|destruct (str_eqb (lab ++ u) s_end) eqn:Q2].
      * apply str_eqb_eq in Q1. rewrite Q1 in Y'. destruct (begin_env _ _ _ _ Y') as (l' & env & r & -> & L).
        exists x0. eexists. eexists. split; [reflexivity|]. split; [reflexivity|]. apply (ct2_begin l lab u); [exact Wd|exact Q1| |exact L]. intros ->. rewrite app_nil_r in Q1. contradiction.
      * apply str_eqb_eq in Q2. exfalso. rewrite Q2 in Y'. apply try_from2_iff in Y'. inversion Y'; subst; congruence.
      * apply str_eqb_neq in Q1, Q2. destruct (cons_split p _ _ _ Y' (head_cmd p _ _ _ _ _ Q1 Q2 Y')) as (z & r & Z & ->). destruct (one_cmd p _ _ _ _ Z) as (_ & _ & a' & ->).
        exists x0. eexists. eexists. split; [reflexivity|]. split; [reflexivity|]. now constructor.
    + destruct (closed_by p _ _ _ _ S0 H) as (l0 & pe & lb & E). discriminate.
    + rewrite (panic_stays p _ _ S0) in H. discriminate.
    + now destruct (try_from2_total p same).
  - change [mkChunk1 l (Command1 (mkCommand1 lab args)); mkChunk1 l' (Text1 w)] with ([mkChunk1 l (Command1 (mkCommand1 lab args))] ++ [mkChunk1 l' (Text1 w)]) in H. rewrite app_assoc in H.
    change (mkChunk1 l (Command1 (mkCommand1 lab args)) :: mkChunk1 l'' (Text1 (w ++ u)) :: rest) with ([mkChunk1 l (Command1 (mkCommand1 lab args))] ++ mkChunk1 l'' (Text1 (w ++ u)) :: rest) in H'. rewrite app_assoc in H'.
    destruct (try_from2 p (same ++ [mkChunk1 l (Command1 (mkCommand1 lab args))])) as [x0|e| |] eqn:S0.
    + destruct (N _ _ _ _ S0 H H') as (y & y' & Y & Y' & -> & ->). destruct (cons_split p _ _ _ Y') as (z & r & Z & ->); [eexists; reflexivity|].
      injection Y as <-. injection Z as <-. exists x0. eexists. eexists. split; [reflexivity|]. split; [reflexivity|]. now apply ct2_blanks_text.
    + destruct (closed_by p _ _ _ _ S0 H) as (? & ? & ? & ?). discriminate.
    + rewrite (panic_stays p _ _ S0) in H. discriminate.
    + now destruct (try_from2_total p _ S0).
  - destruct (try_from2 p same) as [x0|e| |] eqn:S0.
    + destruct (N _ _ _ _ S0 H H') as (y & y' & Y & Y' & -> & ->).
      assert (BE : lab <> s_begin /\ lab <> s_end).
      { clear Y' N W. apply try_from2_iff in Y. inversion Y; subst; [auto|]. exfalso. match goal with K : ?b ++ end_cmd _ _ _ :: _ = _ |- _ => destruct b as [|? [|]]; discriminate K end. }
      destruct BE as [Bb Be]. destruct (cons_split p _ _ _ Y (head_cmd p _ _ _ _ _ Bb Be Y)) as (z0 & r0 & Z0 & ->).
      destruct (cons_split p _ _ _ Y' (head_cmd p _ _ _ _ _ Bb Be Y')) as (z & r & Z & ->). destruct (one_cmd_more p _ _ _ _ _ _ Z0 Z) as (a' & m' & -> & -> & M).
      pose proof (convert_append p [mkChunk1 l (Command1 (mkCommand1 lab args))] [mkChunk1 l' (Text1 w)] _ Z0) as Q. cbn [app] in Q. rewrite Q in Y. clear Q. destruct (T l' w) as (tx & Tx & ->). rewrite Tx in Y. cbn [bind] in Y. injection Y as <-.
      inversion M; subst. exists x0. eexists. eexists. split; [reflexivity|]. split; [reflexivity|]. now apply ct2_blanks_arg.
    + exfalso. change (same ++ [mkChunk1 l (Command1 (mkCommand1 lab args)); mkChunk1 l' (Text1 w)]) with (same ++ [mkChunk1 l (Command1 (mkCommand1 lab args))] ++ [mkChunk1 l' (Text1 w)]) in H. rewrite app_assoc in H.
      destruct (try_from2 p (same ++ [mkChunk1 l (Command1 (mkCommand1 lab args))])) as [x0|e1| |] eqn:S1.
      * destruct (closed_by p _ _ _ _ S0 S1) as (l0 & pe & lb & E). injection E as -> -> ->. apply end_one in H'. cbn in H'. lia.
      * destruct (closed_by p _ _ _ _ S1 H) as (? & ? & ? & ?). discriminate.
      * rewrite (panic_stays p _ _ S1) in H. discriminate.
      * now destruct (try_from2_total p _ S1).
    + rewrite (panic_stays p _ _ S0) in H. discriminate.
    + now destruct (try_from2_total p same).
Qed.
