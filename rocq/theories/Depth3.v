(** * Depth3: how deeply maths recognition calls itself *)
From Verif Require MathsRun.
From Verif Require Import Base Ast1 Parse1 Ast2 Ast3 Depth0 SpecDepth.
Open Scope nat_scope.

Lemma depth3_app a b : depth3 (a ++ b) = Nat.max (depth3 a) (depth3 b).
Proof. apply list_max_map_app. Qed.
Lemma depth3_text a l s : depth3 (a ++ [mkChunk3 l (Text3 s)]) = depth3 a.
Proof. rewrite depth3_app. unfold depth3 at 2. cbn [map depth_chunk3 list_max fold_right]. lia. Qed.
Lemma depth3_break a l s : depth3 (a ++ [mkChunk3 l (ParagraphBreak3 s)]) = depth3 a.
Proof. rewrite depth3_app. unfold depth3 at 2. cbn [map depth_chunk3 list_max fold_right]. lia. Qed.

(** ** paragraphs do not change the depth *)
Lemma par_step_depth {E} p st c st' : @par_step E p st c = Ok st' -> depth3 (pa_new st') = depth3 (pa_new st).
Proof.
  destruct st as [new line text tline buf bline consec]. unfold par_step.
  assert (F : forall (x : outcome E Z) (y : outcome E N) (g : Z -> N -> parstate), (forall a b, depth3 (pa_new (g a b)) = depth3 new) ->
    (let* a := x in let* b := y in Ok (g a b)) = Ok st' -> depth3 (pa_new st') = depth3 new).
  { intros x y g Hg. destruct x; cbn [bind]; try discriminate. destruct y; cbn [bind]; try discriminate. intros [= <-]. apply Hg. }
  cbn [pa_new]. destruct (_ && _).
  { intros H. eapply (F _ _ (fun a b => mkPar (if negb (is_empty text) then new ++ [mkChunk3 tline (Text3 text)] else new) b [] tline (buf ++ [c]) bline a)); [|exact H].
    intros a b. cbn [pa_new]. destruct (negb _); [apply depth3_text|reflexivity]. }
  destruct (c =? c_newline)%N.
  { intros H. eapply (F _ _ (fun a b => mkPar new b text tline (buf ++ [c]) line a)); [|exact H]. reflexivity. }
  repeat match goal with |- context [if ?b then Ok _ else _] => destruct b end; intros [= <-]; cbn [pa_new]; try reflexivity.
  apply depth3_break.
Qed.
Lemma par_finish_depth st : depth3 (par_finish st) = depth3 (pa_new st).
Proof.
  destruct st as [new line text tline buf bline consec]. cbn [par_finish pa_new].
  repeat match goal with |- context [if ?b then _ else _] => destruct b end; rewrite ?depth3_text, ?depth3_break; reflexivity.
Qed.
Lemma par_chunk_depth {E} p new c out : @par_chunk E p new c = Ok out -> depth3 out = depth3 (new ++ [c]).
Proof.
  destruct c as [l v]. cbn [par_chunk]. destruct v; try (intros [= <-]; reflexivity). rewrite depth3_text.
  intros H. destruct (foldM (par_step p) _ s) as [st|e| |] eqn:F; cbn [bind] in H; try discriminate. injection H as <-.
  rewrite par_finish_depth. change new with (pa_new (mkPar new l [] l [] l 0%Z)).
  revert F. generalize (mkPar new l [] l [] l 0%Z). induction s as [|c s IH]; intros st0 F; cbn [foldM] in F; [injection F as <-; reflexivity|].
  destruct (par_step p st0 c) as [st1|e| |] eqn:F1; cbn [bind] in F; try discriminate. rewrite (IH _ F). apply (par_step_depth _ _ _ _ F1).
Qed.
Lemma par_depth {E} p cs out : @paragraph_from_chunks E p cs = Ok out -> depth3 out = depth3 cs.
Proof.
  unfold paragraph_from_chunks. change cs with ([] ++ cs) at 2. generalize (@nil chunk3).
  induction cs as [|c cs IH]; intros new H; cbn [foldM] in H; [injection H as <-; rewrite app_nil_r; reflexivity|].
  destruct (par_chunk p new c) as [o|e| |] eqn:F; cbn [bind] in H; try discriminate.
  rewrite (IH _ H), !depth3_app, (par_chunk_depth _ _ _ _ F), depth3_app. change (c :: cs) with ([c] ++ cs). rewrite depth3_app. lia.
Qed.

Definition depth_args3 (args : list (str * scope3)) : nat := list_max (map (fun a => match a with (_, sc) => depth_scope3 sc end) args).

Section Run.
  Context (p : profile) (recA recB : list chunk2 -> outcome error (list chunk3)) (D : nat).
  Hypothesis Hrec : forall s, grow D 0 (fun d => S (depth3 d)) (recA s) (recB s).
  Let m (st : mstate) := depth3 (ms_out st).

  Lemma grow_push {A} n (f : A -> nat) (x y : outcome error A) : grow D 0 f x y -> grow D n (fun a => Nat.max n (f a)) x y.
  Proof. intros H. eapply grow_eq; [| |exact (grow_max D 0 n f x y H)]; [lia|reflexivity]. Qed.
  Lemma depth_par {B} n (f : B -> nat) cs (g g' : list chunk3 -> outcome error B) :
    (forall out, depth3 out = depth3 cs -> grow D n f (g out) (g' out)) ->
    grow D n f (bind (paragraph_from_chunks p cs) g) (bind (paragraph_from_chunks p cs) g').
  Proof. intros H. apply grow_pure. intros out E. apply H. exact (par_depth _ _ _ E). Qed.
  Lemma depth_scope s : grow D 0 depth_scope3 (scope3_try_from p recA s) (scope3_try_from p recB s).
  Proof.
    unfold scope3_try_from. destruct s as [cs v]. eapply grow_bind; [apply Hrec|]. intros out _. apply depth_par.
    intros out' E. apply grow_ok. cbn [depth_scope3]. f_equal. exact E.
  Qed.
  Lemma depth_args args : grow D 0 depth_args3 (args3_try_from p recA args) (args3_try_from p recB args).
  Proof.
    unfold args3_try_from. apply grow_mapM. intros [pr sc]. eapply grow_bind; [apply depth_scope|]. intros sc' _. apply grow_ok. reflexivity.
  Qed.
  Lemma depth_command c : grow D 0 depth_command3 (command3_try_from p recA c) (command3_try_from p recB c).
  Proof. unfold command3_try_from. destruct c. eapply grow_bind; [apply depth_args|]. intros args _. apply grow_ok. reflexivity. Qed.
  Lemma depth_env e : grow D 0 depth_env3 (env3_try_from p recA e) (env3_try_from p recB e).
  Proof.
    unfold env3_try_from. destruct e as [lab args content pb pe]. eapply grow_bind; [apply depth_args|]. intros args' _.
    eapply grow_bind; [apply grow_push, Hrec|]. intros out _. apply depth_par. intros out' E. apply grow_ok.
    cbn [depth_env3]. fold (depth_args3 args'). fold (depth3 out'). rewrite E. reflexivity.
  Qed.
  Ltac push1 := unfold m; cbn [ms_out m_push_out m_push_buffer m_set_depth]; rewrite ?depth3_app; try unfold depth3 at 2;
    cbn [map depth_chunk3 depth_scope3 depth_env3 depth_command3 depth_maths3 list_max fold_right]; try lia.
  Definition m' (t : mtext) := m (mt_st t).
  Lemma push_str_depth t : m' (mt_push_str t) = m' t.
  Proof. unfold mt_push_str. destruct (negb _); [|reflexivity]. unfold m', m. cbn [mt_st m_push_out ms_out]. apply depth3_text. Qed.
  Lemma depth_close t ty : grow D (m' t) m' (mt_close p recA t ty) (mt_close p recB t ty).
  Proof.
    unfold mt_close. cbv zeta. apply grow_pure. intros sh _. eapply grow_bind; [apply grow_push, Hrec|]. intros content _. apply grow_ok.
    unfold m'. cbn [mt_st]. push1. fold (depth3 content). lia.
  Qed.
  Lemma depth_mt_step t c : grow D (m' t) m' (mt_step p recA t c) (mt_step p recB t c).
  Proof.
    unfold mt_step. apply grow_bind with (m := m').
    { destruct (c =? c_newline)%N; [apply grow_pure; intros|]; apply grow_ok; reflexivity. }
    intros t' _. destruct (c =? c_dollar)%N; [|apply grow_ok; reflexivity].
    destruct (ms_mode (mt_st t')) as [[|]|[|]| |]; try (apply grow_ok; reflexivity); try apply depth_close.
    - destruct (_ && _); [apply grow_ok; reflexivity|apply depth_close].
    - cbv zeta. apply grow_ok. etransitivity; [|exact (push_str_depth t')]. reflexivity.
  Qed.
  Lemma depth_m_step st c : grow D (m st) m (m_step p recA st c) (m_step p recB st c).
  Proof.
    unfold m_step. destruct c as [l [s|c|s|e]]; cbv zeta.
    - destruct (negb _); [|apply grow_ok; reflexivity]. unfold m_text. eapply grow_bind.
      + exact (grow_foldM D m' _ _ s depth_mt_step (mkMT st l [] l)).
      + intros t _. apply grow_ok. apply (push_str_depth t).
    - repeat match goal with |- context [if ?b then _ else _] => destruct b end;
        try apply grow_err; try (apply grow_ok; reflexivity); try (apply grow_pure; intros; apply grow_ok; reflexivity).
      + unfold m_close_brackets. eapply grow_bind; [apply grow_push, Hrec|]. intros content _. apply grow_ok. push1. fold (depth3 content). lia.
      + unfold m_close_brackets. eapply grow_bind; [apply grow_push, Hrec|]. intros content _. apply grow_ok. push1. fold (depth3 content). lia.
      + eapply grow_bind; [apply grow_push, depth_command|]. intros c' _. apply grow_ok. push1.
    - destruct (is_none _); [|apply grow_ok; reflexivity].
      eapply grow_bind; [apply grow_push, depth_scope|]. intros s' _. apply grow_ok. push1.
    - destruct (is_none _); [|apply grow_ok; reflexivity].
      eapply grow_bind; [apply grow_push, depth_env|]. intros s' _. apply grow_ok. push1.
  Qed.
End Run.
Lemma depth_maths n : forall k p d, grow n 0 (fun d => S (depth3 d)) (maths_fuel (n + k) p d) (maths_fuel n p d).
Proof.
  induction n as [|n IH]; intros k p d.
  - cbn [Nat.add]. split; [right; reflexivity|]. intros d' _. cbn. split; [lia|intros [_ H]; discriminate].
  - cbn [Nat.add maths_fuel]. apply grow_S. eapply grow_bind.
    + exact (grow_foldM n _ _ _ d (depth_m_step p _ _ n (IH k p)) minit).
    + intros st _. unfold m_finish. destruct (negb _); [apply grow_err|]. apply grow_same. intros out E. exact (par_depth _ _ _ E).
Qed.

(** ** conclusions *)
Lemma fuel_leq3 p d n m : n <= m -> maths_fuel n p d = maths_fuel m p d \/ maths_fuel n p d = OutOfFuel.
Proof. intros H. replace m with (n + (m - n)) by lia. exact (grow_leq _ _ _ _ (depth_maths n (m - n) p d)). Qed.
Theorem maths_size p d n : size2 d < n -> maths_fuel n p d = maths_from_chunks p d.
Proof.
  intros H. unfold maths_from_chunks. destruct (MathsRun.maths_fuel_runs p (S (size2 d)) d ltac:(lia)) as [K _].
  destruct (fuel_leq3 p d (S (size2 d)) n H); congruence.
Qed.
Theorem maths_exact p d d' n : maths_from_chunks p d = Ok d' ->
  (maths_fuel n p d = Ok d' <-> depth3 d' < n) /\ (maths_fuel n p d = OutOfFuel <-> n <= depth3 d').
Proof.
  intros H. pose (k := S (size2 d)). assert (E : maths_fuel (n + k) p d = Ok d').
  { rewrite (maths_size p d (n + k)); [exact H|unfold k; lia]. }
  destruct (grow_iff _ _ _ _ d' (depth_maths n k p d) E) as [H1 H2]. split; [rewrite H1; lia|rewrite H2; lia].
Qed.
