(** * MathsRun: maths recognition and the conversion to stage 3 always return *)
From Verif Require Import Base Ast1 Parse1 Ast2 Ast3 SpecDoc1 SpecDoc2 SpecDoc3 SpecPar3 SpecMaths3
  Tok Refine1 Ind Lines Facts1 Valid1 Valid2 Valid3 Eqb Conv2 Fail2 Env2 Par3 Maths3 MathsFwd.
From Coq Require Import Lia Arith.
Open Scope N_scope.

(** the run ends, and without overflow checks it does not panic *)
Definition runs {E A} (p : profile) (x : outcome E A) : Prop := x <> OutOfFuel /\ (p = Release -> x <> Panic).
Lemma runs_ok {E A} p (a : A) : @runs E A p (Ok a). Proof. split; discriminate. Qed.
Lemma runs_err {E A} p e : @runs E A p (Err e). Proof. split; discriminate. Qed.
Lemma runs_bind {E A B} p (x : outcome E A) (f : A -> outcome E B) : runs p x -> (forall a, x = Ok a -> runs p (f a)) -> runs p (bind x f).
Proof.
  intros [H1 H2] H. destruct x as [a|e| |]; cbn [bind]; [apply H; reflexivity|apply runs_err| |now elim H1].
  split; [discriminate|]. intros K. now elim (H2 K).
Qed.
Lemma runs_add {E} p a b : @runs E N p (add32 p a b).
Proof. split; [apply add32_not_oof|]. intros ->. destruct (@add32_release E a b) as [c ->]. discriminate. Qed.
Lemma runs_sub {E} p a b : @runs E N p (sub32 p a b).
Proof. split; [apply sub32_not_oof|]. intros ->. destruct (@sub32_release E a b) as [c ->]. discriminate. Qed.
Lemma runs_mapM {E A B} p (f : A -> outcome E B) l : (forall x, In x l -> runs p (f x)) -> runs p (mapM f l).
Proof.
  induction l as [|x l IH]; intros H; cbn [mapM]; [apply runs_ok|]. apply runs_bind; [apply H; now left|]. intros y _. apply runs_bind; [apply IH; intros; apply H; now right|]. intros ys _. apply runs_ok.
Qed.
Lemma runs_inc {E} p z : @runs E Z p (inc_i32 p z).
Proof. unfold inc_i32. destruct (z + 1 <? 2147483648)%Z; [apply runs_ok|]. destruct p; split; discriminate. Qed.
Lemma runs_par {E} p cs : @runs E _ p (paragraph_from_chunks p cs).
Proof.
  unfold paragraph_from_chunks. generalize (@nil chunk3). induction cs as [|[L v] cs IH]; intros new; cbn [foldM]; [apply runs_ok|].
  apply runs_bind; [|intros; apply IH]. destruct v; try apply runs_ok. cbn [par_chunk]. apply runs_bind; [|intros; apply runs_ok].
  generalize (mkPar new L [] L [] L 0%Z). induction s as [|c s IHs]; intros st; cbn [foldM]; [apply runs_ok|]. apply runs_bind; [|intros; apply IHs].
  destruct st as [n line text tline buf bline consec]. unfold par_step.
  destruct ((c =? c_newline) && (consec =? 1)%Z); [apply runs_bind; [apply runs_inc|]; intros; apply runs_bind; [apply runs_add|]; intros; apply runs_ok|].
  destruct (c =? c_newline); [apply runs_bind; [apply runs_inc|]; intros; apply runs_bind; [apply runs_add|]; intros; apply runs_ok|].
  repeat match goal with |- context [if ?b then _ else _] => destruct b end; apply runs_ok.
Qed.

Definition asize (a : matom) : nat := match a with MB _ => 0 | MC _ => 1 | ME _ => 1 | MO _ v => S (size_variant2 v) end.
Definition msize (M : list matom) : nat := list_sum (map asize M).
Lemma msize_app a b : msize (a ++ b) = (msize a + msize b)%nat.
Proof. unfold msize. now rewrite map_app, list_sum_app. Qed.
Lemma size2_cons c cs : size2 (c :: cs) = (size_chunk2 c + size2 cs)%nat. Proof. reflexivity. Qed.
Lemma size2_app a b : size2 (a ++ b) = (size2 a + size2 b)%nat.
Proof. unfold size2. now rewrite map_app, list_sum_app. Qed.
Lemma msize_matoms cs : msize (matoms cs) = size2 cs.
Proof.
  unfold matoms. induction cs as [|[l v] cs IH]; [reflexivity|]. cbn [map concat]. rewrite msize_app, IH, size2_cons. f_equal.
  destruct v; try (cbn; lia). cbn [matoms_chunk size_chunk2 size_variant2]. change (msize (MB l :: map MC s ++ [ME l])) with (msize (map MC s ++ [ME l])).
  rewrite msize_app. replace (msize (map MC s)) with (length s); [cbn; lia|]. unfold msize. induction s; [reflexivity|]. cbn [length map list_sum asize]. cbn. f_equal. exact IHs.
Qed.
Lemma list_sum_in {A} (f : A -> nat) x l : In x l -> (f x <= list_sum (map f l))%nat.
Proof. induction l as [|y l IH]; intros H; [destruct H|]. cbn. destruct H as [->|H]; [lia|]. specialize (IH H). unfold list_sum in IH. lia. Qed.
Lemma inside_size v cs : inside v cs -> (size2 cs < size_variant2 v)%nat.
Proof.
  intros H. inversion H as [cs0 v0|lab args pre cs0 v0 Hi|lab args content pb pe pre cs0 v0 Hi|lab args content pb pe]; subst.
  - cbn [size_variant2 size_scope2]. unfold size2. lia.
  - cbn [size_variant2 size_command2]. apply (list_sum_in (fun a => match a with (_, sc) => size_scope2 sc end)) in Hi. cbn [size_scope2] in Hi. unfold size2. lia.
  - cbn [size_variant2 size_env2]. apply (list_sum_in (fun a => match a with (_, sc) => size_scope2 sc end)) in Hi. cbn [size_scope2] in Hi. unfold size2. lia.
  - cbn [size_variant2 size_env2]. unfold size2. lia.
Qed.
Lemma size2_variants a b : map variant_of2 a = map variant_of2 b -> size2 a = size2 b.
Proof.
  revert b. induction a as [|[l v] a IH]; intros [|[l' v'] b] H; try discriminate H; [reflexivity|]. cbn [map variant_of2] in H. injection H as -> H.
  rewrite !size2_cons, (IH b H). reflexivity.
Qed.

Section Run.
  Context (p : profile) (rec : list chunk2 -> outcome error (list chunk3)) (n : nat).
  Context (HR : forall cs, (size2 cs < n)%nat -> runs p (rec cs)).
  Lemma scope_runs s : (size_scope2 s <= n)%nat -> runs p (scope3_try_from p rec s).
  Proof.
    destruct s as [cs v]. cbn [size_scope2 scope3_try_from]. fold (size2 cs). intros H. apply runs_bind; [apply HR; unfold size2 in *; lia|]. intros o _.
    apply runs_bind; [apply runs_par|]. intros; apply runs_ok.
  Qed.
  Lemma args_runs args : (list_sum (map (fun a : str * scope2 => match a with (_, sc) => size_scope2 sc end) args) <= n)%nat -> runs p (args3_try_from p rec args).
  Proof.
    intros H. apply runs_mapM. intros [pre sc] Hi. apply (list_sum_in (fun a : str * scope2 => match a with (_, sc) => size_scope2 sc end)) in Hi.
    apply runs_bind; [apply scope_runs; lia|]. intros; apply runs_ok.
  Qed.
  Lemma env_runs e : (size_env2 e <= n)%nat -> runs p (env3_try_from p rec e).
  Proof.
    destruct e as [lab args content pb pe]. cbn [size_env2 env3_try_from]. intros H. apply runs_bind; [apply args_runs; lia|]. intros a _.
    apply runs_bind; [apply HR; unfold size2; lia|]. intros; apply runs_bind; [apply runs_par|]. intros; apply runs_ok.
  Qed.
  Lemma conv_runs v : (size_variant2 v <= n)%nat -> runs p (conv_variant p rec v).
  Proof.
    destruct v as [s|[lab args]|s|e]; cbn [conv_variant size_variant2 size_command2 command3_try_from]; intros H.
    - apply runs_ok.
    - apply runs_bind; [apply runs_bind; [apply args_runs; lia|intros; apply runs_ok]|intros; apply runs_ok].
    - apply runs_bind; [now apply scope_runs|intros; apply runs_ok].
    - apply runs_bind; [now apply env_runs|intros; apply runs_ok].
  Qed.
  Definition cost (d : maths_mode) : nat := match d with MNone => 0 | SingleDollar Dollars => 1 | DoubleDollar Dollars => 2 | DoubleClosing => 3 | _ => 2 end.
  Definition sz (m : mtext) : nat := (size2 (ms_buffer (mt_st m)) + length (mt_text m) + cost (ms_mode (mt_st m)))%nat.
  Lemma close_runs m t : (sz m < n)%nat -> (1 <= cost (ms_mode (mt_st m)))%nat -> runs p (mt_close p rec m t) /\
    forall m', mt_close p rec m t = Ok m' -> sz m' = 0%nat.
  Proof.
    intros H Hc. split.
    - unfold mt_close. set (b := if negb (is_empty (mt_text m)) then _ else _). apply runs_bind.
      + apply runs_mapM. intros [l v] _. apply runs_bind; [apply runs_sub|intros]. apply runs_bind; [apply runs_sub|intros]. apply runs_ok.
      + intros sh Em. apply runs_bind; [|intros; apply runs_ok]. apply HR.
        assert (size2 sh = size2 b) as ->.
        { apply size2_variants. revert sh Em. induction b as [|[l v] b IH]; intros sh Em; cbn [mapM] in Em; [injection Em as <-; reflexivity|].
          destruct (sub32 p (mt_line m) 1) as [o|e| |]; cbn [bind] in Em; try discriminate. destruct (sub32 p l o) as [l'|e| |]; cbn [bind] in Em; try discriminate.
          destruct (mapM _ b) as [sh'|e| |] eqn:Eb; cbn [bind] in Em; try discriminate. injection Em as <-. cbn [map variant_of2]. f_equal. now apply IH. }
        unfold b, sz in *. destruct (mt_text m) as [|c T]; cbn [is_empty negb] in *; [cbn [length] in *; lia|]. rewrite size2_app. change (size2 [mkChunk2 (mt_line m) (Text2 (c :: T))]) with (S (length (c :: T)) + 0)%nat. lia.
    - intros m' E. apply mt_close_ok in E as (sh & co & _ & _ & ->). reflexivity.
  Qed.
  Lemma push_str_sz m : (sz (mt_push_str m) <= sz m)%nat.
  Proof. unfold sz, mt_push_str. destruct (mt_text m) eqn:Et; cbn [is_empty negb]; [rewrite Et; lia|]. cbn [mt_st mt_text m_push_out ms_buffer ms_mode length]. lia. Qed.
  Lemma astep_runs m a : wf_atom a -> (sz m + asize a <= n)%nat -> runs p (astep p rec m a) /\ forall m', astep p rec m a = Ok m' -> (sz m' <= sz m + asize a)%nat.
  Proof.
    intros Hwf H. destruct a as [l|c|l|l v]; unfold astep; cbn [asize] in *.
    - split; [apply runs_ok|]. intros m' E. injection E as <-. destruct (is_br _); [unfold sz; cbn [mt_st mt_text]; lia|]. pose proof (push_str_sz m) as K. revert K. unfold sz. cbn [mt_st mt_text]. lia.
    - destruct (is_br (ms_mode (mt_st m))) eqn:Eb; [split; [apply runs_ok|]; intros m' E; injection E as <-; unfold sz; cbn [mt_st mt_text]; rewrite app_length; cbn [length]; lia|].
      destruct (N.eq_dec c c_dollar) as [->|Hc].
      + rewrite mt_step_dollar. destruct (ms_mode (mt_st m)) as [[|]|[|]| |] eqn:Em; try discriminate Eb.
        * destruct (is_empty (mt_text m) && is_empty (ms_buffer (mt_st m))) eqn:Ee.
          -- split; [apply runs_ok|]. intros m' E. injection E as <-. unfold sz, mt_set_mode. cbn [mt_st mt_text ms_buffer ms_mode]. rewrite Em. cbn [cost]. lia.
          -- destruct (close_runs m Inline) as [C1 C2]; [lia|rewrite Em; cbn; lia|]. split; [exact C1|]. intros m' E. rewrite (C2 _ E). lia.
        * split; [apply runs_ok|]. intros m' E. injection E as <-. unfold sz, mt_set_mode. cbn [mt_st mt_text ms_buffer ms_mode]. rewrite Em. cbn [cost]. lia.
        * destruct (close_runs m Outline) as [C1 C2]; [lia|rewrite Em; cbn; lia|]. split; [exact C1|]. intros m' E. rewrite (C2 _ E). lia.
        * split; [apply runs_ok|]. intros m' E. injection E as <-. pose proof (push_str_sz m) as K. revert K. unfold sz, mt_set_mode. cbn [mt_st mt_text ms_buffer ms_mode]. rewrite Em, push_str_mode, Em. cbn [cost]. lia.
      + rewrite mt_step_char by exact Hc. split.
        * apply runs_bind; [destruct (c =? c_newline); [apply runs_add|apply runs_ok]|]. intros; apply runs_ok.
        * intros m'. destruct (if c =? c_newline then _ else _) as [x|e| |]; cbn [bind]; try discriminate. intros E. injection E as <-. unfold sz. cbn [mt_st mt_text]. rewrite app_length. cbn [length]. lia.
    - destruct (is_br (ms_mode (mt_st m))); (split; [apply runs_ok|]); intros m' E; injection E as <-.
      + unfold sz, m_push_buffer. cbn [mt_st mt_text ms_buffer ms_mode length]. rewrite size2_app. change (size2 [mkChunk2 l (Text2 (mt_text m))]) with (S (length (mt_text m)) + 0)%nat. lia.
      + pose proof (push_str_sz m). lia.
    - assert (X : runs p (m_step p rec (mt_st m) (mkChunk2 l v)) /\ forall st', m_step p rec (mt_st m) (mkChunk2 l v) = Ok st' ->
        (size2 (ms_buffer st') + cost (ms_mode st') <= size2 (ms_buffer (mt_st m)) + cost (ms_mode (mt_st m)) + S (size_variant2 v))%nat).
      { rewrite m_step_other by exact Hwf. unfold m_other.
        assert (PB : forall st', Ok (m_push_buffer (mt_st m) (mkChunk2 l v)) = @Ok error _ st' ->
          (size2 (ms_buffer st') + cost (ms_mode st') <= size2 (ms_buffer (mt_st m)) + cost (ms_mode (mt_st m)) + S (size_variant2 v))%nat).
        { intros st' E. injection E as <-. unfold m_push_buffer. cbn [ms_buffer ms_mode]. rewrite size2_app. change (size2 [mkChunk2 l v]) with (S (size_variant2 v) + 0)%nat. lia. }
        assert (BR : forall t, (2 <= cost (ms_mode (mt_st m)))%nat -> let x :=
          match kind v with
          | Some (o, t0) => if teqb t0 t then if o then let* d := add32 p (ms_depth (mt_st m)) 1 in Ok (m_set_depth (mt_st m) d)
              else if ms_depth (mt_st m) =? 1 then m_close_brackets rec (mt_st m) t else let* d := sub32 p (ms_depth (mt_st m)) 1 in Ok (m_set_depth (mt_st m) d)
              else Ok (m_push_buffer (mt_st m) (mkChunk2 l v))
          | None => Ok (m_push_buffer (mt_st m) (mkChunk2 l v)) end in
          runs p x /\ forall st', x = Ok st' -> (size2 (ms_buffer st') + cost (ms_mode st') <= size2 (ms_buffer (mt_st m)) + cost (ms_mode (mt_st m)) + S (size_variant2 v))%nat).
        { intros t Hc x. unfold x. clear x. destruct (kind v) as [[[|] t0]|]; [destruct (teqb t0 t)|destruct (teqb t0 t)|]; try (split; [apply runs_ok|exact PB]).
          - split; [apply runs_bind; [apply runs_add|intros; apply runs_ok]|]. intros st'. destruct (add32 p _ 1) as [d|e| |]; cbn [bind]; try discriminate. intros E. injection E as <-. unfold m_set_depth. cbn [ms_buffer ms_mode]. lia.
          - destruct (ms_depth (mt_st m) =? 1).
            + unfold m_close_brackets. split; [apply runs_bind; [apply HR; unfold sz in H; lia|intros; apply runs_ok]|]. intros st'. destruct (rec _) as [d|e| |]; cbn [bind]; try discriminate. intros E. injection E as <-. cbn [ms_buffer ms_mode cost]. change (size2 []) with 0%nat. lia.
            + split; [apply runs_bind; [apply runs_sub|intros; apply runs_ok]|]. intros st'. destruct (sub32 p _ 1) as [d|e| |]; cbn [bind]; try discriminate. intros E. injection E as <-. unfold m_set_depth. cbn [ms_buffer ms_mode]. lia. }
        destruct (ms_mode (mt_st m)) as [[|]|[|]| |] eqn:Em; try (split; [apply runs_ok|exact PB]); try (apply BR; cbn [cost]; lia).
        destruct (kind v) as [[[|] t]|] eqn:Ek.
        - split; [apply runs_ok|]. intros st' E. injection E as <-. cbn [ms_buffer ms_mode]. unfold kind in Ek. destruct v as [s|[lab args]|s|e]; try discriminate Ek. cbn [size_variant2 size_command2]. destruct t; cbn [br cost]; lia.
        - split; [apply runs_err|discriminate].
        - split; [apply runs_bind; [apply conv_runs; lia|intros; apply runs_ok]|]. intros st'. destruct (conv_variant p rec v) as [v3|e| |]; cbn [bind]; try discriminate. intros E. injection E as <-.
          unfold m_push_out. cbn [ms_buffer ms_mode]. rewrite Em. lia. }
      destruct X as [X1 X2]. split; [apply runs_bind; [exact X1|intros; apply runs_ok]|]. intros m'. destruct (m_step p rec (mt_st m) (mkChunk2 l v)) as [st'|e| |] eqn:Es; cbn [bind]; try discriminate.
      intros E. injection E as <-. specialize (X2 st' eq_refl). unfold sz, set_st. cbn [mt_st mt_text]. lia.
  Qed.
  Lemma fold_runs M : Forall wf_atom M -> forall m, (sz m + msize M <= n)%nat -> runs p (foldM (astep p rec) m M).
  Proof.
    induction 1 as [|a M Ha HM IH]; intros m H; cbn [foldM]; [apply runs_ok|]. change (msize (a :: M)) with (asize a + msize M)%nat in H.
    destruct (astep_runs m a Ha) as [A1 A2]; [lia|]. apply runs_bind; [exact A1|]. intros m' E. specialize (A2 _ E). apply IH. lia.
  Qed.
End Run.

Theorem maths_fuel_runs p n : forall cs, (size2 cs < n)%nat -> runs p (maths_fuel n p cs).
Proof.
  induction n as [|n IH]; intros cs H; [lia|]. cbn [maths_fuel].
  destruct (foldM_atoms p (maths_fuel n p) cs minit 0 0) as [EF _]. rewrite EF.
  apply runs_bind; [|intros st _; unfold m_finish; destruct (negb _); [apply runs_err|apply runs_par]].
  apply runs_bind; [|intros; apply runs_ok]. apply (fold_runs p (maths_fuel n p) n IH (matoms cs) (matoms_wf cs)). rewrite msize_matoms. unfold sz. cbn. change (size2 []) with 0%nat. lia.
Qed.
Theorem maths_runs p cs : runs p (maths_from_chunks p cs).
Proof. apply maths_fuel_runs. lia. Qed.
Theorem try_from3_runs p d : runs p (try_from3 p d).
Proof.
  unfold try_from3. apply runs_bind.
  - generalize dinit. induction d as [|[l v] d IH]; intros st; cbn [foldM]; [apply runs_ok|]. apply runs_bind; [|intros; apply IH].
    unfold d_step. destruct v as [s|c|s|e]; try apply runs_ok.
    + destruct (str_eqb _ _ && _); [|apply runs_ok]. destruct (d_class _); [apply runs_err|]. apply runs_bind; [|intros; apply runs_ok].
      generalize (d_options (ds_construct st)). generalize (@None str). induction (arguments2 c) as [|[pre [cs v]] args IHa]; intros o os; cbn [foldM]; [apply runs_ok|].
      apply runs_bind; [|intros [? ?] _; apply IHa]. cbn [class_arg_step]. destruct v; [destruct o; [apply runs_err|apply runs_ok]|apply runs_ok..].
    + destruct (str_eqb _ _); [|apply runs_ok]. apply runs_bind; [|intros [] _; apply runs_ok]. apply (env_runs p _ (size_env2 e)); [|lia]. intros; apply maths_runs.
  - intros st _. apply runs_bind; [apply maths_runs|intros]. apply runs_bind; [apply runs_par|intros]. apply runs_bind; [apply maths_runs|intros]. apply runs_bind; [apply runs_par|intros]. apply runs_ok.
Qed.
Lemma runs_release {E A} (x : outcome E A) : runs Release x -> (exists a, x = Ok a) \/ (exists e, x = Err e).
Proof. intros [H1 H2]. specialize (H2 eq_refl). destruct x; eauto; contradiction. Qed.
Theorem from_str3_release s : source_fits s -> (exists d, from_str3 Release s = Ok d) \/ (exists e, from_str3 Release s = Err e).
Proof.
  intros Hs. apply runs_release. unfold from_str3. apply runs_bind; [|intros; apply try_from3_runs].
  destruct (from_str2_total Release s Hs) as [[d ->]|[e ->]]; [apply runs_ok|apply runs_err].
Qed.
Theorem from_str3_not_oof p s : source_fits s -> from_str3 p s <> OutOfFuel.
Proof.
  intros Hs. assert (R : runs p (from_str3 p s)); [|apply R]. unfold from_str3. apply runs_bind; [|intros; apply try_from3_runs].
  destruct (from_str2_total p s Hs) as [[d ->]|[e ->]]; [apply runs_ok|apply runs_err].
Qed.
