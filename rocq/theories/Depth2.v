(** * Depth2: how deeply the conversion to stage 2 calls itself *)
From Verif Require Fail2.
From Verif Require Import Base Ast1 Parse1 Ast2 Depth0 Depth1 SpecDepth.
Open Scope nat_scope.

Lemma depth2_app a b : depth2 (a ++ b) = Nat.max (depth2 a) (depth2 b).
Proof. apply list_max_map_app. Qed.
Definition depth_args2 (args : list (str * scope2)) : nat := list_max (map (fun a => match a with (_, sc) => depth_scope2 sc end) args).

Section Run.
  Context (p : profile) (recA recB : list chunk1 -> outcome error document2) (D : nat).
  Hypothesis Hrec : forall s, grow D 0 (fun d => S (depth2 d)) (recA s) (recB s).
  Let m (st : tstate) := depth2 (ts_chunks st).

  Lemma depth_scope s : grow D 0 depth_scope2 (scope2_try_from recA s) (scope2_try_from recB s).
  Proof. unfold scope2_try_from. eapply grow_bind; [apply Hrec|]. intros cs _. apply grow_ok. reflexivity. Qed.
  Lemma depth_args args : grow D 0 depth_args2 (args2_try_from recA args) (args2_try_from recB args).
  Proof.
    unfold args2_try_from. apply grow_mapM. intros [pr sc]. eapply grow_bind; [apply depth_scope|]. intros sc' _. apply grow_ok. reflexivity.
  Qed.
  Lemma depth_command c : grow D 0 depth_command2 (command2_try_from recA c) (command2_try_from recB c).
  Proof. unfold command2_try_from. eapply grow_bind; [apply depth_args|]. intros args _. apply grow_ok. reflexivity. Qed.
  Lemma grow_push {A} n (f : A -> nat) (x y : outcome error A) : grow D 0 f x y -> grow D n (fun a => Nat.max n (f a)) x y.
  Proof. intros H. eapply grow_eq; [| |exact (grow_max D 0 n f x y H)]; [lia|reflexivity]. Qed.
  Lemma depth_buffer st l v : grow D (m st) m (t_push_buffer p st l v) (t_push_buffer p st l v).
  Proof.
    apply grow_same. intros st' H. unfold t_push_buffer in H.
    destruct (sub32 p l (ts_start st)); cbn [bind] in H; try discriminate.
    destruct (add32 p _ _); cbn [bind] in H; try discriminate. injection H as <-. reflexivity.
  Qed.
  Ltac push1 := cbn [m ts_chunks t_push_chunk]; unfold m; cbn [ts_chunks t_push_chunk]; rewrite depth2_app; unfold depth2 at 2;
    cbn [map depth_chunk2 depth_scope2 depth_env2 list_max fold_right]; lia.
  Lemma depth_tstep st c : grow D (m st) m (tstep p recA st c) (tstep p recB st c).
  Proof.
    unfold tstep. destruct c as [l [s|c|s]].
    - destruct (is_empty (ts_stack st)); [apply grow_ok; push1|apply depth_buffer].
    - destruct (negb _).
      { destruct (is_empty (ts_stack st)); [|apply depth_buffer].
        eapply grow_bind; [apply grow_push, depth_command|]. intros c' _. apply grow_ok. push1. }
      destruct (arguments1 c) as [|[pr ct] rest]; [apply grow_err|].
      destruct (negb _); [apply grow_err|]. destruct (str_eqb _ _).
      { cbv zeta. destruct (is_empty (ts_stack st)); [apply grow_pure; intros; apply grow_ok; reflexivity|].
        apply (depth_buffer (mkT (ts_chunks st) (chunks1 ct :: ts_stack st) (ts_start st) (ts_args st) (ts_buffer st) (ts_prec st))). }
      destruct (negb _); [apply grow_err|]. destruct (_ <? _)%N; [apply grow_err|].
      destruct (ts_stack st) as [|lab stack]; [apply grow_panic|]. cbv zeta. destruct (is_empty stack).
      + eapply grow_bind; [apply grow_push, depth_args|]. intros args _.
        eapply grow_bind; [apply grow_map_err, grow_push, Hrec|]. intros body _. apply grow_ok.
        unfold m. cbn [ts_chunks]. rewrite depth2_app. unfold depth2 at 2. cbn [map depth_chunk2 depth_env2 list_max fold_right].
        fold (depth_args2 args). fold (depth2 body). lia.
      + apply (depth_buffer (mkT (ts_chunks st) stack (ts_start st) (ts_args st) (ts_buffer st) (ts_prec st))).
    - destruct (is_empty (ts_stack st)); [|apply depth_buffer].
      eapply grow_bind; [apply grow_map_err, grow_push, depth_scope|]. intros sc _. apply grow_ok. push1.
  Qed.
End Run.
Lemma depth_convert n : forall k p d, grow n 0 (fun d => S (depth2 d)) (try_from2_fuel (n + k) p d) (try_from2_fuel n p d).
Proof.
  induction n as [|n IH]; intros k p d.
  - cbn [Nat.add]. split; [right; reflexivity|]. intros d' _. cbn. split; [lia|intros [_ H]; discriminate].
  - cbn [Nat.add try_from2_fuel]. apply grow_S. eapply grow_bind.
    + exact (grow_foldM n _ _ _ d (depth_tstep p _ _ n (IH k p)) tinit).
    + intros st _. unfold tfinish. destruct (last_opt (ts_stack st)); [apply grow_err|apply grow_ok; reflexivity].
Qed.

(** ** a bound that also holds for documents that are rejected *)
Definition scopes_args1 (args : list (str * scope1)) : nat := list_sum (map (fun a => match a with (_, sc) => scopes_scope1 sc end) args).
Definition tok (k : nat) (st : tstate) : Prop :=
  match ts_stack st with [] => ts_buffer st = [] | _ => S (scopes_args1 (ts_args st) + scopes1 (ts_buffer st)) <= k end.

Lemma ends_shift {A} p off (P : A -> Prop) (x : outcome error A) : ends P x -> ends P (shift_err p off x).
Proof.
  intros [H1 H2]. unfold shift_err. destruct x as [a|e| |]; cbn [map_err]; try (split; [congruence|discriminate]); [split; [discriminate|assumption]|].
  pose proof (ends_add (E:=error) p (err_line e) off) as [K _]. destruct (add32 p (err_line e) off); cbn [bind]; try (split; discriminate). contradiction.
Qed.

Section Stop.
  Context (p : profile) (rec : list chunk1 -> outcome error document2) (n : nat).
  Hypothesis Hrec : forall d, scopes1 d < n -> ends (fun _ => True) (rec d).
  Lemma stop_scope s : scopes_scope1 s <= n -> ends (fun _ => True) (scope2_try_from rec s).
  Proof.
    intros H. unfold scope2_try_from. destruct s as [cs v]. cbn [scopes_scope1] in H.
    eapply ends_bind; [apply Hrec; unfold scopes1; cbn [chunks1]; lia|]. intros; apply ends_ok; exact I.
  Qed.
  Lemma stop_args args : scopes_args1 args <= n -> ends (fun _ => True) (args2_try_from rec args).
  Proof.
    intros H. unfold args2_try_from.
    eapply ends_weak; [|apply (ends_mapM (fun _ => 0) (fun _ => 0))]; [trivial|]. intros [pr sc] Hin.
    eapply ends_bind; [apply stop_scope|intros; apply ends_ok; lia].
    assert (K : scopes_scope1 sc <= scopes_args1 args); [|lia]. clear H.
    induction args as [|[pr' sc'] args IH]; [contradiction|].
    change (scopes_args1 ((pr', sc') :: args)) with (scopes_scope1 sc' + scopes_args1 args).
    destruct Hin as [[= -> ->]|Hin]; [lia|specialize (IH Hin); lia].
  Qed.
  Lemma stop_buffer st l v k : ts_stack st <> [] -> tok k st -> ends (tok (k + scopes_chunk1 (mkChunk1 l v))) (t_push_buffer p st l v).
  Proof.
    intros Hs H. unfold t_push_buffer. eapply ends_bind; [apply ends_sub|]. intros a _. eapply ends_bind; [apply ends_add|]. intros b _.
    apply ends_ok. unfold tok in *. cbn [ts_stack ts_args ts_buffer]. destruct (ts_stack st) as [|x xs]; [contradiction|].
    rewrite scopes1_app. unfold scopes1 at 2. cbn [map list_sum fold_right]. cbn [scopes_chunk1]. destruct v; cbn [scopes_chunk1] in *; lia.
  Qed.
  Lemma stop_tstep st c k : tok k st -> k + scopes_chunk1 c <= n -> ends (tok (k + scopes_chunk1 c)) (tstep p rec st c).
  Proof.
    intros H Hk. unfold tstep. destruct c as [l [s|c|s]].
    - destruct (ts_stack st) as [|x xs] eqn:Es; cbn [is_empty]; [|apply (stop_buffer st l (Text1 s)); [congruence|assumption]].
      apply ends_ok. unfold tok in *. cbn [t_push_chunk ts_stack ts_buffer]. rewrite Es in *. assumption.
    - destruct (negb _).
      { destruct (ts_stack st) as [|x xs] eqn:Es; cbn [is_empty]; [|apply (stop_buffer st l (Command1 c)); [congruence|assumption]].
        eapply ends_bind with (P := fun _ => True).
        - unfold command2_try_from. eapply ends_bind; [apply stop_args|intros; apply ends_ok; exact I].
          destruct c as [lab args]. cbn [arguments1 scopes_chunk1 scopes_command1] in *. unfold scopes_args1. lia.
        - intros c' _. apply ends_ok. unfold tok in *. cbn [t_push_chunk ts_stack ts_buffer]. rewrite Es in *. assumption. }
      destruct (arguments1 c) as [|[pr ct] rest] eqn:Ea; [apply ends_err|].
      destruct (negb _); [apply ends_err|]. destruct (str_eqb _ _).
      { cbv zeta. destruct (ts_stack st) as [|x xs] eqn:Es; cbn [is_empty].
        - eapply ends_bind; [apply ends_add|]. intros start _. apply ends_ok. unfold tok in *. cbn [ts_stack ts_buffer ts_args]. rewrite Es in *. rewrite H.
          destruct c as [lab args]. cbn [arguments1] in Ea. subst args. cbn [scopes_chunk1 scopes_command1 map list_sum fold_right].
          fold (scopes_args1 rest). destruct ct as [ccs cv]. cbn [scopes_scope1]. unfold scopes1. cbn [map list_sum fold_right].
          unfold scopes_args1, list_sum. lia.
        - apply (stop_buffer (mkT (ts_chunks st) (chunks1 ct :: x :: xs) (ts_start st) (ts_args st) (ts_buffer st) (ts_prec st)) l (Command1 c)); [discriminate|].
          unfold tok in *. cbn [ts_stack ts_buffer ts_args]. rewrite Es in H. assumption. }
      destruct (negb _); [apply ends_err|]. destruct (_ <? _)%N; [apply ends_err|].
      destruct (ts_stack st) as [|lab stack] eqn:Es; [apply ends_panic|]. cbv zeta. destruct stack as [|lab' stack]; cbn [is_empty].
      + unfold tok in H. rewrite Es in H.
        eapply ends_bind; [apply stop_args; lia|]. intros args _.
        eapply ends_bind; [apply ends_shift, Hrec; lia|]. intros body _. apply ends_ok. reflexivity.
      + apply (stop_buffer (mkT (ts_chunks st) (lab' :: stack) (ts_start st) (ts_args st) (ts_buffer st) (ts_prec st)) l (Command1 c)); [discriminate|].
        unfold tok in *. cbn [ts_stack ts_buffer ts_args]. rewrite Es in H. assumption.
    - destruct (ts_stack st) as [|x xs] eqn:Es; cbn [is_empty]; [|apply (stop_buffer st l (Scope1 s)); [congruence|assumption]].
      eapply ends_bind; [apply ends_shift, stop_scope; cbn [scopes_chunk1] in Hk; lia|]. intros sc _. apply ends_ok.
      unfold tok in *. cbn [t_push_chunk ts_stack ts_buffer]. rewrite Es in *. assumption.
  Qed.
  Lemma stop_tloop d : forall st k, tok k st -> k + scopes1 d <= n -> ends (tok (k + scopes1 d)) (foldM (tstep p rec) st d).
  Proof.
    induction d as [|c d IH]; intros st k H Hk; cbn [foldM].
    - apply ends_ok. unfold scopes1. cbn [map list_sum fold_right]. rewrite Nat.add_0_r. assumption.
    - change (scopes1 (c :: d)) with (scopes_chunk1 c + scopes1 d) in *.
      eapply ends_bind; [apply (stop_tstep st c k H); lia|]. intros st' H'. rewrite Nat.add_assoc. apply IH; [exact H'|lia].
  Qed.
End Stop.
Lemma convert_ends n : forall p d, scopes1 d < n -> ends (fun _ => True) (try_from2_fuel n p d).
Proof.
  induction n as [|n IH]; intros p d H; [lia|]. cbn [try_from2_fuel]. eapply ends_bind.
  - apply (stop_tloop p _ n (IH p) d tinit 0); [reflexivity|lia].
  - intros st _. unfold tfinish. destruct (last_opt (ts_stack st)); [apply ends_err|apply ends_ok; exact I].
Qed.

(** ** conclusions *)
Lemma fuel_leq2 p d n m : n <= m -> try_from2_fuel n p d = try_from2_fuel m p d \/ try_from2_fuel n p d = OutOfFuel.
Proof. intros H. replace m with (n + (m - n)) by lia. exact (grow_leq _ _ _ _ (depth_convert n (m - n) p d)). Qed.
Theorem convert_scopes p d n : scopes1 d < n -> try_from2_fuel n p d = try_from2 p d.
Proof.
  intros H. destruct (convert_ends n p d H) as [H1 _].
  pose proof (Fail2.try_from2_fuel_total (S (size1 d)) p d ltac:(lia)) as H2. unfold try_from2.
  destruct (Nat.le_ge_cases n (S (size1 d))) as [K|K]; destruct (fuel_leq2 p d _ _ K) as [K'|K']; congruence.
Qed.
Theorem convert_exact p d d' n : try_from2 p d = Ok d' ->
  (try_from2_fuel n p d = Ok d' <-> depth2 d' < n) /\ (try_from2_fuel n p d = OutOfFuel <-> n <= depth2 d').
Proof.
  intros H. pose (k := S (scopes1 d)). assert (E : try_from2_fuel (n + k) p d = Ok d').
  { rewrite (convert_scopes p d (n + k)); [exact H|unfold k; lia]. }
  destruct (grow_iff _ _ _ _ d' (depth_convert n k p d) E) as [H1 H2]. split; [rewrite H1; lia|rewrite H2; lia].
Qed.
Theorem depth_scopes2 p d d' : try_from2 p d = Ok d' -> depth2 d' <= scopes1 d.
Proof.
  intros H. destruct (convert_exact p d d' (S (scopes1 d)) H) as [H1 _]. rewrite convert_scopes in H1 by lia. apply H1 in H. lia.
Qed.
