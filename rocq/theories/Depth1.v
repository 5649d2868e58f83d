(** * Depth1: how deeply stage-1 parsing calls itself *)
From Verif Require Import Base Ast1 Parse1 Depth0 SpecDepth.
Open Scope nat_scope.

Lemma depth1_app a b : depth1 (a ++ b) = Nat.max (depth1 a) (depth1 b).
Proof. apply list_max_map_app. Qed.

Section Run.
  Context (p : profile) (recA recB : str -> outcome error document1) (D : nat).
  Hypothesis Hrec : forall s, grow D 0 (fun d => S (depth1 d)) (recA s) (recB s).
  Let m (st : pstate) := depth1 (ps_chunks st).

  Lemma depth_flush b l cs : grow D (depth1 cs) depth1 (flush recA b l cs) (flush recB b l cs).
  Proof.
    unfold flush. destruct b as [ct v d|lab sc d t|ct].
    - destruct (negb (d =? 0)%N); [apply grow_err|].
      apply grow_bind with (m := fun d => Nat.max (depth1 cs) (S (depth1 d))).
      + eapply grow_eq; [| |exact (grow_max D 0 (depth1 cs) _ _ _ (Hrec ct))]; [lia|reflexivity].
      + intros inner _. apply grow_ok. rewrite depth1_app. unfold depth1 at 2. cbn [map depth_chunk1 depth_scope1 list_max fold_right]. unfold depth1. lia.
    - destruct (negb (d =? 0)%N); [destruct (last_opt sc) as [[[? ?] ?]|]; [apply grow_err|apply grow_panic]|].
      apply grow_bind with (m := fun args => Nat.max (depth1 cs) (list_max (map (fun a : str * scope1 => match a with (_, sc) => depth_scope1 sc end) args))).
      + eapply grow_eq; [| |apply (grow_max D 0 (depth1 cs) (fun args => list_max (map (fun a : str * scope1 => match a with (_, sc) => depth_scope1 sc end) args))), grow_mapM];
          [lia|reflexivity|].
        intros [[ct v] pr]. eapply grow_bind; [apply Hrec|]. intros inner _. apply grow_ok. reflexivity.
      + intros args _. apply grow_ok. rewrite depth1_app. unfold depth1 at 2. cbn [map depth_chunk1 depth_command1 list_max fold_right]. lia.
    - destruct (negb (is_empty ct)); apply grow_ok; [|reflexivity]. rewrite depth1_app. unfold depth1 at 2. cbn. lia.
  Qed.
  Lemma depth_flush_bang st : grow D (m st) m (flush_bang p recA st) (flush_bang p recB st).
  Proof.
    unfold flush_bang. eapply grow_bind; [apply grow_map_err, depth_flush|]. intros cs _. apply grow_ok. reflexivity.
  Qed.
  Lemma depth_start st c : grow D (m st) m (start_command p recA st c) (start_command p recB st c).
  Proof.
    unfold start_command. cbv zeta. destruct (negb (is_ascii_alphabetic c)); [|apply grow_ok; reflexivity].
    eapply grow_bind; [apply (depth_flush_bang (set_buf st (buffer_push buffer_command c)))|].
    intros st' _. apply grow_ok. reflexivity.
  Qed.
  Ltac leaf := apply grow_ok; reflexivity.
  Ltac bang st := eapply (grow_bind D (m st) m); [apply (depth_flush_bang st)|].
  Lemma depth_step_main st c : grow D (m st) m (step_main p recA st c) (step_main p recB st c).
  Proof.
    unfold step_main. destruct (ps_buf st) as [ct v d|lab sc d t|ct].
    - destruct (negb (d =? 0)%N && ps_escaped st); [leaf|].
      destruct (open1 v =? c)%N; [apply grow_pure; intros; leaf|].
      destruct (close1 v =? c)%N; [|leaf].
      apply grow_pure. intros d' _. cbv zeta. destruct (d' =? 0)%N; [|leaf].
      bang (set_buf st (BScope ct v d')). intros; leaf.
    - destruct ((d =? 0)%N && is_opening c); [apply grow_pure; intros; apply grow_pure; intros; leaf|].
      destruct ((d =? 0)%N && is_whitespace c); [leaf|].
      destruct ((d =? 0)%N && ps_escaped st).
      { bang st. intros st1 _. eapply (grow_bind D (m st1) m).
        - destruct (negb (is_empty t)); [|leaf]. cbv zeta. apply grow_pure. intros l _.
          eapply grow_bind; [apply depth_flush|]. intros cs _. leaf.
        - intros st2 _. apply (depth_start (set_bline st2 (ps_line st2))). }
      destruct (negb (d =? 0)%N && ps_escaped st); [leaf|].
      destruct ((d =? 0)%N && negb (is_empty t)); [bang st; intros st1 _; cbv zeta; apply grow_pure; intros; leaf|].
      apply grow_pure. intros [b1 b2] _. cbn [fst snd].
      destruct b1; [apply grow_pure; intros; leaf|]. destruct b2; [apply grow_pure; intros; leaf|].
      destruct ((d =? 0)%N && is_closing c); [apply grow_pure; intros; apply grow_err|].
      apply grow_pure. intros ns _. destruct ((d =? 0)%N && negb ns); [bang st; intros|]; leaf.
    - destruct (ps_escaped st); [bang st; intros st1 _; apply depth_start|].
      destruct (is_opening c); [|leaf]. bang st. intros st1 _. apply grow_pure. intros; leaf.
  Qed.
  Lemma depth_step st c : grow D (m st) m (step p recA st c) (step p recB st c).
  Proof.
    unfold step. destruct (c =? c_newline)%N.
    - apply grow_pure. intros l _. eapply grow_bind; [apply (depth_step_main (set_line (set_comment st false) l))|]. intros; leaf.
    - destruct (_ && _); [leaf|]. destruct (_ && _); [leaf|]. destruct (ps_comment st); [leaf|].
      eapply grow_bind; [apply depth_step_main|]. intros; leaf.
  Qed.
  Lemma depth_finish st : grow D (m st) depth1 (finish p recA st) (finish p recB st).
  Proof.
    unfold finish. destruct (ps_buf st) as [ct v d|lab sc d t|ct]; try (bang st; intros; leaf).
    destruct (negb (is_empty t)); bang st; intros st1 _; [|leaf]. cbv zeta.
    bang (set_buf st1 (buffer_push_str buffer_text t)). intros; leaf.
  Qed.
End Run.

Lemma depth_parse n : forall k p s, grow n 0 (fun d => S (depth1 d)) (from_str1_fuel (n + k) p s) (from_str1_fuel n p s).
Proof.
  induction n as [|n IH]; intros k p s.
  - cbn [Nat.add]. split; [right; reflexivity|]. intros d _. cbn. split; [lia|intros [_ H]; discriminate].
  - cbn [Nat.add from_str1_fuel]. apply grow_S.
    eapply grow_bind.
    + exact (grow_foldM n _ _ _ s (depth_step p _ _ n (IH k p)) pinit).
    + intros st _. apply depth_finish. exact (IH k p).
Qed.

(** ** a bound that also holds for sources that are rejected *)
Lemma openings_app a b : openings (a ++ b) = openings a + openings b.
Proof. unfold openings. rewrite filter_app, app_length. reflexivity. Qed.
Lemma openings_one c : openings [c] = if is_opening c then 1 else 0.
Proof. unfold openings. cbn [filter]. destruct (is_opening c); reflexivity. Qed.

(** the opening brackets a buffer has used up: one for each scope, and those in its contents *)
Definition scopes_use (sc : list (str * sv1 * str)) : nat := list_sum (map (fun x => match x with (ct, _, _) => S (openings ct) end) sc).
Definition used (b : buffer) : nat :=
  match b with BScope ct _ _ => S (openings ct) | BCommand _ sc _ _ => scopes_use sc | BText _ => 0 end.
Lemma scopes_use_app a b : scopes_use (a ++ b) = scopes_use a + scopes_use b.
Proof. unfold scopes_use. rewrite map_app, list_sum_app. reflexivity. Qed.
Lemma scopes_use_modify s sc : scopes_use (modify_last (fun x : str * sv1 * str => match x with (ct, v, pr) => (ct ++ s, v, pr) end) sc) <= scopes_use sc + openings s.
Proof.
  induction sc as [|[[ct v] pr] [|y sc] IH]; cbn [modify_last]; [cbn; lia| |].
  - unfold scopes_use. cbn [map list_sum fold_right]. rewrite openings_app. lia.
  - change (S (openings ct) + scopes_use (modify_last (fun x : str * sv1 * str => match x with (ct, v, pr) => (ct ++ s, v, pr) end) (y :: sc))
      <= S (openings ct) + scopes_use (y :: sc) + openings s). lia.
Qed.
Lemma used_push b s : used (buffer_push_str b s) <= used b + openings s.
Proof.
  destruct b as [ct v d|lab sc d t|ct]; cbn [buffer_push_str used].
  - rewrite openings_app. lia.
  - destruct (is_empty sc); cbn [used]; [lia|]. apply scopes_use_modify.
  - lia.
Qed.
Lemma used_push_one b c : used (buffer_push b c) <= used b + openings [c].
Proof. apply used_push. Qed.

(** [ends n P x]: [x] does not run out of fuel, and its result satisfies [P] *)
Definition ends {E A} (P : A -> Prop) (x : outcome E A) : Prop := x <> OutOfFuel /\ forall a, x = Ok a -> P a.
Lemma ends_bind {E A B} (P : A -> Prop) (Q : B -> Prop) (x : outcome E A) f :
  ends P x -> (forall a, P a -> ends Q (f a)) -> ends Q (bind x f).
Proof. intros [H1 H2] H. destruct x; cbn [bind]; try (split; [discriminate|discriminate]); [exact (H a (H2 a eq_refl))|contradiction]. Qed.
Lemma ends_ok {E A} (P : A -> Prop) a : P a -> ends (E:=E) P (Ok a).
Proof. intros H. split; [discriminate|]. intros ? [= <-]. exact H. Qed.
Lemma ends_err {E A} (P : A -> Prop) e : ends (E:=E) (A:=A) P (Err e). Proof. split; discriminate. Qed.
Lemma ends_panic {E A} (P : A -> Prop) : ends (E:=E) (A:=A) P Panic. Proof. split; discriminate. Qed.
Lemma ends_add {E} p a b : ends (E:=E) (fun _ => True) (add32 p a b).
Proof. unfold add32, overflow32. destruct (_ <? _)%N; [|destruct p]; split; (discriminate || exact (fun _ _ => I)). Qed.
Lemma ends_sub {E} p a b : ends (E:=E) (fun _ => True) (sub32 p a b).
Proof. unfold sub32, overflow32. destruct (_ <=? _)%N; [|destruct p]; split; (discriminate || exact (fun _ _ => I)). Qed.
Lemma ends_weak {E A} (P Q : A -> Prop) (x : outcome E A) : (forall a, P a -> Q a) -> ends P x -> ends Q x.
Proof. intros H [H1 H2]. split; [assumption|]. auto. Qed.
Lemma ends_mapM {E A B} (m : A -> nat) (m' : B -> nat) (f : A -> outcome E B) l : (forall x, In x l -> ends (fun y => m' y <= m x) (f x)) ->
  ends (fun r => list_sum (map m' r) <= list_sum (map m l)) (mapM f l).
Proof.
  induction l as [|x l IH]; intros H; cbn [mapM]; [apply ends_ok; cbn; lia|].
  eapply ends_bind; [apply H; left; reflexivity|]. intros y Hy.
  eapply ends_bind; [apply IH; intros; apply H; right; assumption|]. intros r Hr. apply ends_ok. cbn [map list_sum fold_right] in *. unfold list_sum in *. lia.
Qed.
Lemma ends_opening {E} c : is_opening c = true -> ends (E:=E) (fun _ => True) (from_opening c).
Proof. unfold from_opening. repeat destruct (_ =? _)%N; intros; (apply ends_ok; exact I) || apply ends_panic. Qed.

Lemma scopes1_app a b : scopes1 (a ++ b) = scopes1 a + scopes1 b.
Proof. unfold scopes1. rewrite map_app, list_sum_app. reflexivity. Qed.
Section Stop.
  Context (p : profile) (rec : str -> outcome error document1) (n : nat).
  Hypothesis Hrec : forall s, openings s < n -> ends (fun d => scopes1 d <= openings s) (rec s).
  Lemma stop_flush b l cs : used b <= n -> ends (fun cs' => scopes1 cs' <= scopes1 cs + used b) (flush rec b l cs).
  Proof.
    intros H. unfold flush. destruct b as [ct v d|lab sc d t|ct]; cbn [used] in *.
    - destruct (negb (d =? 0)%N); [apply ends_err|]. eapply ends_bind; [apply Hrec; lia|]. intros inner Hi. apply ends_ok.
      rewrite scopes1_app. unfold scopes1 at 2. cbn [map scopes_chunk1 scopes_scope1 list_sum fold_right]. unfold scopes1, list_sum in *. lia.
    - destruct (negb (d =? 0)%N); [destruct (last_opt sc) as [[[? ?] ?]|]; [apply ends_err|apply ends_panic]|].
      eapply ends_bind.
      + apply (ends_mapM (fun x : str * sv1 * str => match x with (ct, _, _) => S (openings ct) end)
                 (fun a : str * scope1 => match a with (_, sc) => scopes_scope1 sc end)).
        intros [[ct v] pr] Hin. 
        assert (K : S (openings ct) <= scopes_use sc).
        { clear H. induction sc as [|x sc IH]; [contradiction|]. rewrite (scopes_use_app [x] sc : scopes_use (x :: sc) = _).
          destruct Hin as [->|Hin]; [cbn; lia|specialize (IH Hin); lia]. }
        eapply ends_bind; [apply Hrec; lia|intros inner Hi; apply ends_ok]. cbn [scopes_scope1]. unfold scopes1 in Hi. lia.
      + intros args Ha. apply ends_ok. rewrite scopes1_app. unfold scopes1 at 2. cbn [map scopes_chunk1 scopes_command1 list_sum fold_right].
        unfold scopes_use, list_sum in *. lia.
    - destruct (negb (is_empty ct)); apply ends_ok; [|lia]. rewrite scopes1_app. unfold scopes1 at 2. cbn. lia.
  Qed.
  Definition ok (k : nat) (st : pstate) : Prop := scopes1 (ps_chunks st) + used (ps_buf st) <= k.
  Lemma stop_flush_bang st k : ok k st -> k <= n -> ends (fun st' => scopes1 (ps_chunks st') <= k) (flush_bang p rec st).
  Proof.
    intros H Hk. unfold flush_bang, ok in *. eapply ends_bind with (P := fun cs => scopes1 cs <= k); [|intros cs Hc; apply ends_ok; exact Hc].
    assert (Hu : used (ps_buf st) <= n) by lia.
    assert (H1 := stop_flush (ps_buf st) (ps_bline st) (ps_chunks st) Hu).
    destruct (flush rec (ps_buf st) (ps_bline st) (ps_chunks st)) as [a|e| |] eqn:Ef; cbn [map_err]; try (destruct H1; split; [congruence|discriminate]).
    { apply ends_ok. destruct H1 as [_ H1]. specialize (H1 a eq_refl). lia. }
    assert (K : ends (fun _ => True) (let* off := sub32 p (ps_bline st) 1 in let* l := add32 p (err_line e) off in Ok (mkError l (err_type e)) : outcome error error)).
    { eapply ends_bind; [apply ends_sub|]. intros o _. eapply ends_bind; [apply ends_add|]. intros; apply ends_ok; exact I. }
    destruct K as [K _]. destruct (let* off := _ in _); try (split; discriminate). contradiction.
  Qed.
  Ltac nf := cbn [set_buf set_bline set_chunks set_comment set_escaped ps_chunks ps_buf used buffer_push_str buffer_push buffer_text buffer_scope buffer_command is_empty scopes_use map list_sum fold_right app] in *.
  Lemma stop_start st c k : scopes1 (ps_chunks st) <= k -> k <= n -> ends (ok k) (start_command p rec st c).
  Proof.
    intros H Hk. unfold start_command. cbv zeta. destruct (negb (is_ascii_alphabetic c)).
    - eapply ends_bind; [apply (stop_flush_bang _ k); [|exact Hk]; unfold ok; nf; lia|]. intros st' H'. apply ends_ok. unfold ok. cbn [set_buf ps_chunks ps_buf]. cbn [used buffer_text]. cbn beta in H'. lia.
    - apply ends_ok. unfold ok; nf; lia.
  Qed.
  Ltac leaf := apply ends_ok; unfold ok in *; cbn [set_buf set_bline set_chunks set_comment set_escaped ps_chunks ps_buf used buffer_push_str buffer_push buffer_text buffer_scope] in *; try lia.
  Lemma stop_step_main st c k : ok k st -> k + openings [c] <= n -> ends (ok (k + openings [c])) (step_main p rec st c).
  Proof.
    intros H Hk. unfold step_main.
    set (j := scopes1 (ps_chunks st)).
    assert (Hp : forall b, j + used b <= k -> j + used (buffer_push b c) <= k + openings [c]).
    { intros b Hb. pose proof (used_push_one b c). lia. }
    assert (Hq : forall b, j + used b <= k -> j + used (buffer_push (buffer_push b c_bslash) c) <= k + openings [c]).
    { intros b Hb. apply Hp. pose proof (used_push_one b c_bslash) as K. change (openings [c_bslash]) with 0 in K. lia. }
    destruct (ps_buf st) as [ct v d|lab sc d t|ct] eqn:Eb; unfold ok in H; rewrite Eb in H.
    - destruct (negb (d =? 0)%N && ps_escaped st); [apply ends_ok; apply Hq; exact H|].
      destruct (open1 v =? c)%N.
      { eapply ends_bind; [apply ends_add|]. intros d' _. apply ends_ok. apply (Hp (BScope ct v d')). exact H. }
      destruct (close1 v =? c)%N; [|apply ends_ok; apply Hp; exact H].
      eapply ends_bind; [apply ends_sub|]. intros d' _. cbv zeta. destruct (d' =? 0)%N.
      + eapply ends_bind; [eapply (stop_flush_bang _ k); [exact H|lia]|]. intros st' H'. leaf.
      + apply ends_ok. apply (Hp (BScope ct v d')). exact H.
    - destruct ((d =? 0)%N && is_opening c) eqn:Eo.
      { apply andb_true_iff in Eo as [_ Eo]. eapply ends_bind; [apply ends_opening; exact Eo|]. intros v _.
        eapply ends_bind with (P := fun b => j + used b <= k + openings [c]).
        - apply ends_ok. cbn [used]. rewrite scopes_use_app, openings_one, Eo. cbn [used] in H. fold j in H. cbn. lia.
        - intros b Hb. apply ends_ok. exact Hb. }
      destruct ((d =? 0)%N && is_whitespace c); [leaf|].
      assert (Hb : ends (fun st' => scopes1 (ps_chunks st') <= k) (flush_bang p rec st)).
      { apply (stop_flush_bang _ k); [unfold ok; rewrite Eb; exact H|lia]. }
      destruct ((d =? 0)%N && ps_escaped st).
      { eapply ends_bind; [exact Hb|]. intros st1 H1. eapply ends_bind with (P := fun st2 => scopes1 (ps_chunks st2) <= k).
        2: { intros st2 H2. apply stop_start; [nf; lia|exact Hk]. }
        destruct (negb (is_empty t)); [|apply ends_ok; exact H1]. cbv zeta. eapply ends_bind; [apply ends_sub|]. intros l _.
        eapply ends_bind; [apply stop_flush; cbn; lia|]. intros cs Hc. apply ends_ok. nf. lia. }
      destruct (negb (d =? 0)%N && ps_escaped st); [apply ends_ok; apply Hq; exact H|].
      destruct ((d =? 0)%N && negb (is_empty t)).
      { eapply ends_bind; [exact Hb|]. intros st1 H1. cbv zeta. eapply ends_bind; [apply ends_sub|]. intros l _. leaf. }
      eapply ends_bind with (P := fun _ => True).
      { destruct (negb (d =? 0)%N); [destruct (last_opt sc) as [[[? ?] ?]|]; [|apply ends_panic]|]; apply ends_ok; exact I. }
      intros [b1 b2] _. cbn [fst snd].
      destruct b1; [eapply ends_bind; [apply ends_add|]; intros; leaf|].
      destruct b2; [eapply ends_bind; [apply ends_sub|]; intros; leaf|].
      destruct ((d =? 0)%N && is_closing c).
      { eapply ends_bind with (P := fun _ => True); [|intros; apply ends_err].
        unfold from_closing. repeat destruct (_ =? _)%N; (apply ends_ok; exact I) || apply ends_panic. }
      eapply ends_bind with (P := fun _ => True); [apply ends_ok; exact I|]. intros ns _.
      destruct ((d =? 0)%N && negb ns).
      + eapply ends_bind; [exact Hb|]. intros st1 H1. leaf.
      + apply ends_ok. apply Hp. exact H.
    - assert (Hb : ends (fun st' => scopes1 (ps_chunks st') <= k) (flush_bang p rec st)).
      { apply (stop_flush_bang _ k); [unfold ok; rewrite Eb; exact H|lia]. }
      destruct (ps_escaped st).
      { eapply ends_bind; [exact Hb|]; intros st1 H1; apply stop_start; [nf; lia|exact Hk]. }
      destruct (is_opening c) eqn:Eo; [|leaf].
      eapply ends_bind; [exact Hb|]. intros st1 H1. eapply ends_bind; [apply ends_opening; exact Eo|]. intros v _. leaf.
      rewrite openings_one, Eo. cbn. lia.
  Qed.
  Lemma stop_step st c k : ok k st -> k + openings [c] <= n -> ends (ok (k + openings [c])) (step p rec st c).
  Proof.
    intros H Hk. unfold step. destruct (c =? c_newline)%N.
    - eapply ends_bind; [apply ends_add|]. intros l _.
      eapply ends_bind; [apply (stop_step_main (set_line (set_comment st false) l) c k H Hk)|]. intros st' H'. apply ends_ok. exact H'.
    - unfold ok in H. destruct ((c =? c_percent)%N && _); [leaf|]. destruct ((c =? c_bslash)%N && _); [leaf|]. destruct (ps_comment st); [leaf|].
      eapply ends_bind; [apply (stop_step_main st c k H Hk)|]. intros st' H'. apply ends_ok. exact H'.
  Qed.
  Lemma stop_loop s : forall st k, ok k st -> k + openings s <= n -> ends (ok (k + openings s)) (foldM (step p rec) st s).
  Proof.
    induction s as [|c s IH]; intros st k H Hk; cbn [foldM].
    - apply ends_ok. unfold ok in *. lia.
    - rewrite (openings_app [c] s : openings (c :: s) = _) in *.
      eapply ends_bind; [apply (stop_step st c k H); lia|]. intros st' H'. rewrite Nat.add_assoc. apply IH; [exact H'|lia].
  Qed.
  Lemma stop_finish st k : ok k st -> k <= n -> ends (fun d => scopes1 d <= k) (finish p rec st).
  Proof.
    intros H Hk. assert (Hb := stop_flush_bang st k H Hk). unfold finish.
    destruct (ps_buf st) as [ct v d|lab sc d t|ct]; try (eapply ends_bind; [exact Hb|]; intros st1 H1; apply ends_ok; exact H1).
    destruct (negb (is_empty t)); eapply ends_bind; try exact Hb; intros st1 H1; [|apply ends_ok; exact H1]. cbv zeta.
    eapply ends_bind; [apply (stop_flush_bang (set_buf st1 (buffer_push_str buffer_text t)) k); [unfold ok; nf; lia|lia]|].
    intros st2 H2. apply ends_ok. exact H2.
  Qed.
End Stop.

Lemma parse_ends n : forall p s, openings s < n -> ends (fun d => scopes1 d <= openings s) (from_str1_fuel n p s).
Proof.
  induction n as [|n IH]; intros p s H; [lia|]. cbn [from_str1_fuel].
  eapply ends_bind.
  - apply (stop_loop p _ n (IH p) s pinit 0); [unfold ok; cbn; lia|lia].
  - intros st Hs. apply (stop_finish p _ n (IH p)); [exact Hs|lia].
Qed.
Lemma parse_stops n p s : openings s < n -> from_str1_fuel n p s <> OutOfFuel.
Proof. intros H. apply (parse_ends n p s H). Qed.
(** ** conclusions *)
Lemma fuel_leq p s n m : n <= m -> from_str1_fuel n p s = from_str1_fuel m p s \/ from_str1_fuel n p s = OutOfFuel.
Proof. intros H. replace m with (n + (m - n)) by lia. exact (grow_leq _ _ _ _ (depth_parse n (m - n) p s)). Qed.
Lemma openings_length s : openings s <= length s.
Proof. unfold openings. induction s as [|c s IH]; cbn [filter length]; [lia|]. destruct (is_opening c); cbn [length]; lia. Qed.
Theorem parse_openings p s n : openings s < n -> from_str1_fuel n p s = from_str1 p s.
Proof.
  intros H. pose proof (openings_length s) as L. pose proof (parse_stops n p s H) as H1.
  pose proof (parse_stops (S (length s)) p s ltac:(lia)) as H2. unfold from_str1.
  destruct (Nat.le_ge_cases n (S (length s))) as [K|K]; destruct (fuel_leq p s _ _ K) as [K'|K']; congruence.
Qed.
Theorem parse_exact p s d n : from_str1 p s = Ok d ->
  (from_str1_fuel n p s = Ok d <-> depth1 d < n) /\ (from_str1_fuel n p s = OutOfFuel <-> n <= depth1 d).
Proof.
  intros H. pose proof (openings_length s) as L.
  pose (k := S (length s)). assert (E : from_str1_fuel (n + k) p s = Ok d).
  { rewrite (parse_openings p s (n + k)); [exact H|unfold k; lia]. }
  destruct (grow_iff _ _ _ _ d (depth_parse n k p s) E) as [H1 H2]. split; [rewrite H1; lia|rewrite H2; lia].
Qed.
Theorem depth_openings p s d : from_str1 p s = Ok d -> depth1 d <= openings s.
Proof.
  intros H. destruct (parse_exact p s d (S (openings s)) H) as [H1 _]. rewrite parse_openings in H1 by lia. apply H1 in H. lia.
Qed.
Theorem scopes_openings p s d : from_str1 p s = Ok d -> scopes1 d <= openings s.
Proof.
  intros H. destruct (parse_ends (S (length s)) p s) as [_ K]; [pose proof (openings_length s); lia|]. exact (K d H).
Qed.
