(** * Cost2: the stage-1 to stage-2 conversion with a step counter (C66)

    A copy of the conversion of Ast2.v in which every function also returns the number of iterations of the loop
    [for original in originals] (src/ast2/document.rs:209) that were started, in this call and in all the recursive
    calls.  [counted2_erase] ties the copy to the model: forgetting the counter gives [try_from2] back. *)
From Verif Require Import Base Ast1 Parse1 Spec1 Tok Refine1 Gram1 Facts1 Valid1 SpecDoc1 SpecCanon1 Canon1 Ast2 Spec2 Conv2 Good2 Cost1.

Section TryFrom2.
  Context (p : profile).
  Context (rec : list chunk1 -> counted document2).

  (** src/ast2/scope.rs:105-115 *)
  Definition cscope2_try_from (s : scope1) : counted scope2 :=
    let$ cs := rec (chunks1 s) in
    free (Ok (mkScope2 cs (sv2_of_sv1 (scope_variant1 s)))).
  (** src/ast2/command.rs:87-89 and document.rs:334-336 *)
  Definition cargs2_try_from (args : list (str * scope1)) : counted (list (str * scope2)) :=
    cmapM (fun a => match a with (prec, sc) =>
            let$ sc := cscope2_try_from sc in free (Ok (prec, sc)) end) args.
  (** src/ast2/command.rs:79-93 *)
  Definition ccommand2_try_from (c : command1) : counted command2 :=
    let$ args := cargs2_try_from (arguments1 c) in
    free (Ok (mkCommand2 (label1 c) args)).

  (** src/ast2/document.rs:209-360, body of the loop *)
  Definition ctstep (st : tstate) (original : chunk1) : counted tstate :=
    match original with
    | mkChunk1 line_no variant =>
      match variant with
      | Text1 s =>
          if is_empty (ts_stack st) then free (Ok (t_push_chunk st (mkChunk2 line_no (Text2 s))))
          else free (t_push_buffer p st line_no (Text1 s))
      | Scope1 s =>
          if is_empty (ts_stack st) then
            let$ sc := (fst (cscope2_try_from s), shift_err p line_no (snd (cscope2_try_from s))) in
            free (Ok (t_push_chunk st (mkChunk2 line_no (Scope2 sc))))
          else free (t_push_buffer p st line_no (Scope1 s))
      | Command1 c =>
          if negb (str_eqb (label1 c) s_begin || str_eqb (label1 c) s_end) then
            if is_empty (ts_stack st) then
              let$ c' := ccommand2_try_from c in
              free (Ok (t_push_chunk st (mkChunk2 line_no (Command2 c'))))
            else free (t_push_buffer p st line_no (Command1 c))
          else
            match arguments1 c with
            | [] => free (Err (mkError line_no NoEnvironmentLabel))
            | (prec, content) :: rest =>
              if negb (sv1_eqb (scope_variant1 content) Curly1)
              then free (Err (mkError line_no NoEnvironmentLabel))
              else if str_eqb (label1 c) s_begin then
                let st' := mkT (ts_chunks st) (chunks1 content :: ts_stack st) (ts_start st)
                               (ts_args st) (ts_buffer st) (ts_prec st) in
                if is_empty (ts_stack st) then
                  let$ start :=
                    free (add32 p line_no
                      (as_u32 (fold_right N.add 0
                         (map (fun a => match a with (prec, arg) =>
                                 count_newlines prec + count_newlines (show_scope1 arg) end)
                              (arguments1 c))))) in
                  free (Ok (mkT (ts_chunks st') (ts_stack st') start rest (ts_buffer st') prec))
                else free (t_push_buffer p st' line_no (Command1 c))
              else if negb (opt_chunks_eqb (hd_error (ts_stack st)) (chunks1 content)) then
                free (Err (mkError line_no (UnexpectedEnd (show1 (chunks1 content)))))
              else if 1 <? N.of_nat (length (arguments1 c)) then
                free (Err (mkError line_no TooManyArgsEnd))
              else
                match ts_stack st with
                | [] => free Panic
                | _ :: stack =>
                  let st' := mkT (ts_chunks st) stack (ts_start st) (ts_args st) (ts_buffer st) (ts_prec st) in
                  if is_empty stack then
                    let$ args_new := cargs2_try_from (ts_args st) in
                    let$ body := (fst (rec (ts_buffer st)), shift_err p (ts_start st) (snd (rec (ts_buffer st)))) in
                    free (Ok (mkT (ts_chunks st ++
                               [mkChunk2 (ts_start st)
                                  (Environment2 (mkEnv2 (show1 (chunks1 content)) args_new body
                                                        (ts_prec st) prec))])
                            stack (ts_start st) [] [] []))
                  else free (t_push_buffer p st' line_no (Command1 c))
                end
            end
      end
    end.
End TryFrom2.

Fixpoint counted2_fuel (fuel : nat) (p : profile) (d : list chunk1) : counted document2 :=
  match fuel with
  | O => free OutOfFuel
  | S fuel =>
      let rec := counted2_fuel fuel p in
      let$ st := cloop (ctstep p rec) tinit d in
      free (tfinish st)
  end.
Definition counted2 (p : profile) (d : document1) : counted document2 := counted2_fuel (S (size1 d)) p d.
(** The number of loop iterations of [ast2::Document::try_from] on [d], recursive calls included *)
Definition steps2 (p : profile) (d : document1) : nat := fst (counted2 p d).

(** ** Measures *)
(** The number of chunks of a stage-1 document, at every depth *)
Fixpoint count_chunk1 (c : chunk1) : nat :=
  match c with mkChunk1 _ v =>
    match v with
    | Text1 _ => 1
    | Scope1 sc => S (count_scope1 sc)
    | Command1 (mkCommand1 _ args) => S (list_sum (map (fun a => count_scope1 (snd a)) args))
    end
  end
with count_scope1 (s : scope1) : nat := match s with mkScope1 cs _ => list_sum (map count_chunk1 cs) end.
Definition count1 (d : list chunk1) : nat := list_sum (map count_chunk1 d).

(** How deep environments are nested in a stage-2 document *)
Definition max_of (l : list nat) : nat := fold_right Nat.max O l.
Fixpoint env_depth_chunk (c : chunk2) : nat :=
  match c with mkChunk2 _ v =>
    match v with
    | Text2 _ => O
    | Scope2 sc => env_depth_scope sc
    | Command2 (mkCommand2 _ args) => max_of (map (fun a => env_depth_scope (snd a)) args)
    | Environment2 (mkEnv2 _ args content _ _) =>
        Nat.max (max_of (map (fun a => env_depth_scope (snd a)) args)) (S (max_of (map env_depth_chunk content)))
    end
  end
with env_depth_scope (s : scope2) : nat := match s with mkScope2 cs _ => max_of (map env_depth_chunk cs) end.
Definition env_depth (d : list chunk2) : nat := max_of (map env_depth_chunk d).

(** The stage-1 chunks that a list of stage-2 chunks was made of, without what is inside them *)
Fixpoint own_chunk (c : chunk2) : nat :=
  match c with mkChunk2 _ v =>
    match v with
    | Environment2 (mkEnv2 _ _ content _ _) => S (S (list_sum (map own_chunk content)))
    | _ => 1%nat
    end
  end.
(** How often these and the chunks inside them are visited: once, and once more for each environment they are in *)
Fixpoint visits_chunk (c : chunk2) : nat :=
  match c with mkChunk2 _ v =>
    match v with
    | Text2 _ => 1%nat
    | Scope2 sc => S (visits_scope sc)
    | Command2 (mkCommand2 _ args) => S (list_sum (map (fun a => visits_scope (snd a)) args))
    | Environment2 (mkEnv2 _ args content _ _) =>
        (2 + list_sum (map (fun a => visits_scope (snd a)) args)
         + (list_sum (map own_chunk content) + list_sum (map visits_chunk content)))%nat
    end
  end
with visits_scope (s : scope2) : nat := match s with mkScope2 cs _ => list_sum (map visits_chunk cs) end.
Definition own (d : list chunk2) : nat := list_sum (map own_chunk d).
Definition visits (d : list chunk2) : nat := list_sum (map visits_chunk d).

(** ** Forgetting the counter *)
Section Erase.
  Context (p : profile) (crec : list chunk1 -> counted document2) (rec : list chunk1 -> outcome error document2).
  Hypothesis Hrec : forall s, snd (crec s) = rec s.
  Lemma erase_scope2 s : snd (cscope2_try_from crec s) = scope2_try_from rec s.
  Proof. unfold cscope2_try_from, scope2_try_from. rewrite erase_bind, Hrec. reflexivity. Qed.
  Lemma erase_args2 a : snd (cargs2_try_from crec a) = args2_try_from rec a.
  Proof.
    unfold cargs2_try_from, args2_try_from. rewrite erase_mapM. apply mapM_ext. intros [pr sc].
    rewrite erase_bind, erase_scope2. reflexivity.
  Qed.
  Lemma erase_command2 c : snd (ccommand2_try_from crec c) = command2_try_from rec c.
  Proof. unfold ccommand2_try_from, command2_try_from. rewrite erase_bind, erase_args2. reflexivity. Qed.
  Lemma erase_tstep st c : snd (ctstep p crec st c) = tstep p rec st c.
  Proof.
    destruct c as [l v]. cbn [ctstep tstep]. destruct v as [s|c|s].
    - destruct (is_empty (ts_stack st)); reflexivity.
    - destruct (negb (_ || _)).
      + destruct (is_empty (ts_stack st)); [|reflexivity]. rewrite erase_bind, erase_command2. reflexivity.
      + destruct (arguments1 c) as [|[pr ct] rest]; [reflexivity|]. destruct (negb _); [reflexivity|].
        destruct (str_eqb _ _).
        * destruct (is_empty (ts_stack st)); [|reflexivity]. cbv zeta. rewrite erase_bind. reflexivity.
        * destruct (negb _); [reflexivity|]. destruct (1 <? _); [reflexivity|].
          destruct (ts_stack st) as [|x stack]; [reflexivity|]. destruct (is_empty stack); [|reflexivity].
          cbv zeta. rewrite erase_bind, erase_args2. apply bind_ext. intros args _. rewrite erase_bind. cbn [snd]. rewrite Hrec. reflexivity.
    - destruct (is_empty (ts_stack st)); [|reflexivity]. rewrite erase_bind. cbn [snd]. rewrite erase_scope2. reflexivity.
  Qed.
End Erase.
Lemma erase2_fuel fuel p s : snd (counted2_fuel fuel p s) = try_from2_fuel fuel p s.
Proof.
  revert s. induction fuel as [|fuel IH]; intros s; [reflexivity|]. cbn [counted2_fuel try_from2_fuel].
  rewrite erase_bind, erase_loop.
  rewrite (foldM_ext _ (tstep p (try_from2_fuel fuel p))) by (intros; apply erase_tstep; auto). reflexivity.
Qed.
Lemma counted2_erase p d : snd (counted2 p d) = try_from2 p d.
Proof. apply erase2_fuel. Qed.

(** ** The quadratic bound *)
Local Open Scope nat_scope.
Definition count_args (args : list (str * scope1)) : nat := list_sum (map (fun a => count_scope1 (snd a)) args).
Lemma count_scope_eq s : count_scope1 s = count1 (chunks1 s).
Proof. destruct s; reflexivity. Qed.
Lemma count1_app a b : count1 (a ++ b) = count1 a + count1 b.
Proof. unfold count1. rewrite map_app, list_sum_app. reflexivity. Qed.
Lemma count1_cons c d : count1 (c :: d) = count_chunk1 c + count1 d.
Proof. reflexivity. Qed.
Lemma count_chunk_pos c : 1 <= count_chunk1 c.
Proof. destruct c as [l [s|[lab args]|sc]]; cbn; lia. Qed.
Lemma count_line l l' v : count_chunk1 (mkChunk1 l v) = count_chunk1 (mkChunk1 l' v).
Proof. reflexivity. Qed.
Lemma count_length d : length d <= count1 d.
Proof. induction d as [|c d IH]; [cbn; lia|]. rewrite count1_cons. pose proof (count_chunk_pos c). cbn [length]. lia. Qed.


Section Bound.
  Context (p : profile) (rec : list chunk1 -> counted document2).
  Hypothesis Hrec : forall s, fst (rec s) <= count1 s * count1 s.

  Lemma scope_cost s : fst (cscope2_try_from rec s) <= count_scope1 s * count_scope1 s.
  Proof.
    rewrite count_scope_eq. specialize (Hrec (chunks1 s)). unfold cscope2_try_from, cbind.
    destruct (snd (rec (chunks1 s))); cbn; lia.
  Qed.
  Lemma args_cost args : fst (cargs2_try_from rec args) <= count_args args * count_args args.
  Proof.
    unfold cargs2_try_from, count_args. induction args as [|[pr sc] args IH]; [cbn; lia|].
    cbn [cmapM map snd list_sum fold_right]. pose proof (scope_cost sc) as H. unfold cbind at 2.
    destruct (snd (cscope2_try_from rec sc)) as [sc'| | |]; unfold cbind at 1; cbn [fst snd free]; try (unfold list_sum in *; nia).
    match goal with |- context[cmapM ?f args] => set (F := f) in * end.
    unfold cbind. destruct (snd (cmapM F args)); cbn [fst snd free]; unfold list_sum in *; nia.
  Qed.
  Lemma command_cost c : fst (ccommand2_try_from rec c) <= count_args (arguments1 c) * count_args (arguments1 c).
  Proof.
    pose proof (args_cost (arguments1 c)). unfold ccommand2_try_from, cbind.
    destruct (snd (cargs2_try_from rec (arguments1 c))); cbn; lia.
  Qed.

  Definition pending (st : tstate) : nat :=
    count_args (ts_args st) + count1 (ts_buffer st) + if is_empty (ts_stack st) then 0 else 1.
  Lemma within_one {A} b (q : A -> nat) x m :
    fst x <= m * m -> S m <= b -> (forall a, snd x = Ok a -> q a + S m <= b) -> within b q x.
  Proof.
    intros H1 H2 H3. exists (S m). split; [nia|]. destruct (snd x); auto.
  Qed.
  Lemma within_push_buffer st st' l v : is_empty (ts_stack st) = false ->
    ts_args st' = ts_args st -> ts_buffer st' = ts_buffer st ->
    within (pending st + count_chunk1 (mkChunk1 l v)) pending (free (t_push_buffer p st' l v)).
  Proof.
    intros E Ea Eb. apply within_free. unfold t_push_buffer. intros a H.
    destruct (sub32 p l (ts_start st')) as [x| | |]; cbn [bind] in H; try discriminate.
    destruct (add32 p x 1) as [y| | |]; cbn [bind] in H; try discriminate. injection H as <-.
    unfold pending. cbn [ts_args ts_buffer ts_stack]. rewrite E, Ea, Eb, count1_app. cbn [count1 map list_sum fold_right].
    rewrite (count_line y l). destruct (is_empty (ts_stack st')); lia.
  Qed.
  Lemma within_tstep st c : within (pending st + count_chunk1 c) pending (ctstep p rec st c).
  Proof.
    destruct c as [l v]. cbn [ctstep]. destruct v as [s|c|s].
    - destruct (is_empty (ts_stack st)) eqn:E; [|apply within_push_buffer; auto].
      apply within_ok. unfold pending. cbn [ts_args ts_buffer ts_stack t_push_chunk]. lia.
    - assert (Ec : count_chunk1 (mkChunk1 l (Command1 c)) = S (count_args (arguments1 c))) by (destruct c; reflexivity).
      destruct (negb (_ || _)).
      + destruct (is_empty (ts_stack st)) eqn:E; [|apply within_push_buffer; auto].
        apply (within_one _ _ _ (count_args (arguments1 c))).
        * pose proof (command_cost c). unfold cbind. destruct (snd (ccommand2_try_from rec c)); cbn; lia.
        * lia.
        * rewrite Ec. unfold cbind. destruct (snd (ccommand2_try_from rec c)); cbn; try discriminate.
          intros a' [= <-]. unfold pending. cbn [ts_args ts_buffer ts_stack t_push_chunk]. lia.
      + destruct (arguments1 c) as [|[pr ct] rest] eqn:Ea; [apply within_free; discriminate|].
        destruct (negb _); [apply within_free; discriminate|].
        destruct (str_eqb _ _).
        * destruct (is_empty (ts_stack st)) eqn:E.
          -- cbv zeta. apply (within_bind _ (fun _ => pending st + count_chunk1 (mkChunk1 l (Command1 c)))); [apply within_free; intros; lia|].
             intros start _. apply within_ok. rewrite Ec. unfold pending. cbn [ts_args ts_buffer ts_stack is_empty]. rewrite E. unfold count_args, list_sum. cbn [map fold_right]. lia.
          -- cbv zeta. apply within_push_buffer; auto.
        * destruct (negb _); [apply within_free; discriminate|]. destruct (1 <? _)%N; [apply within_free; discriminate|].
          destruct (ts_stack st) as [|x stack] eqn:Es; [apply within_free; discriminate|].
          cbv zeta. destruct (is_empty stack) eqn:E.
          -- apply (within_one _ _ _ (count_args (ts_args st) + count1 (ts_buffer st))).
             ++ pose proof (args_cost (ts_args st)) as H. pose proof (Hrec (ts_buffer st)) as H'. unfold cbind. cbn [fst snd].
                destruct (snd (cargs2_try_from rec (ts_args st))); cbn [fst snd]; try nia.
                destruct (shift_err p _ _); cbn [fst snd free]; nia.
             ++ unfold pending. rewrite Es. cbn [is_empty]. lia.
             ++ unfold cbind. cbn [fst snd]. destruct (snd (cargs2_try_from rec (ts_args st))); cbn [fst snd]; try discriminate.
                destruct (shift_err p _ _); cbn [fst snd free]; try discriminate. intros ? [= <-].
                unfold pending. cbn [ts_args ts_buffer ts_stack]. rewrite E, Es. cbn. lia.
          -- apply within_push_buffer; auto. rewrite Es. reflexivity.
    - destruct (is_empty (ts_stack st)) eqn:E; [|apply within_push_buffer; auto].
      apply (within_one _ _ _ (count_scope1 s)).
      + pose proof (scope_cost s). unfold cbind. cbn [fst snd]. destruct (shift_err p _ _); cbn; lia.
      + cbn. lia.
      + unfold cbind. cbn [fst snd]. destruct (shift_err p _ _); cbn [snd fst free]; try discriminate.
        intros ? [= <-]. unfold pending. cbn [ts_args ts_buffer ts_stack t_push_chunk count_chunk1]. lia.
  Qed.
  Lemma loop_bound2 d st : exists w, fst (cloop (ctstep p rec) st d) + w <= length d + w * w /\
    w <= pending st + count1 d.
  Proof.
    revert st. induction d as [|c d IH]; intros st; [exists 0; cbn; lia|]. cbn [cloop]. rewrite count1_cons.
    destruct (within_tstep st c) as (w & H1 & H2). unfold cbind. cbn [fst snd].
    destruct (snd (ctstep p rec st c)) as [st1|e| |]; cbn [fst snd].
    2-4: exists w; cbn [length]; split; lia.
    destruct (IH st1) as (w' & H3 & H4). exists (w + w'). cbn [length]. split; [nia|]. lia.
  Qed.
End Bound.
Lemma counted2_bound fuel p d : fst (counted2_fuel fuel p d) <= count1 d * count1 d.
Proof.
  revert d. induction fuel as [|fuel IH]; intros d; [cbn; lia|]. cbn [counted2_fuel].
  destruct (loop_bound2 p _ IH d tinit) as (w & H1 & H2). cbn in H2. pose proof (count_length d).
  assert (fst (cloop (ctstep p (counted2_fuel fuel p)) tinit d) <= count1 d * count1 d) by
    (pose proof (square_mono w (count1 d)); lia).
  unfold cbind. destruct (snd (cloop _ _ _)); cbn [fst free]; lia.
Qed.
Lemma steps2_bound p d : steps2 p d <= count1 d * count1 d.
Proof. apply counted2_bound. Qed.

(** ** The exact number of steps of a successful conversion *)
Lemma own_app a b : own (a ++ b) = own a + own b.
Proof. unfold own. rewrite map_app, list_sum_app. reflexivity. Qed.
Lemma visits_app a b : visits (a ++ b) = visits a + visits b.
Proof. unfold visits. rewrite map_app, list_sum_app. reflexivity. Qed.
Definition visits_args (args : list (str * scope2)) : nat := list_sum (map (fun a => visits_scope (snd a)) args).
Section Exact.
  Context (p : profile) (rec : list chunk1 -> counted document2).
  Hypothesis Hrec : forall s d, snd (rec s) = Ok d -> fst (rec s) = visits d /\ length s = own d.
  Lemma scope_exact s s' : snd (cscope2_try_from rec s) = Ok s' -> fst (cscope2_try_from rec s) = visits_scope s'.
  Proof.
    unfold cscope2_try_from, cbind. destruct (snd (rec (chunks1 s))) as [d| | |] eqn:E; cbn; try discriminate.
    intros [= <-]. destruct (Hrec _ _ E) as [-> _]. cbn. fold (visits d). lia.
  Qed.
  Lemma args_exact args args' : snd (cargs2_try_from rec args) = Ok args' -> fst (cargs2_try_from rec args) = visits_args args'.
  Proof.
    unfold cargs2_try_from, visits_args. revert args'. induction args as [|[pr sc] args IH]; intros args'; [cbn; intros [= <-]; reflexivity|].
    cbn [cmapM]. match goal with |- context[cmapM ?f args] => set (F := f) in * end.
    unfold cbind. destruct (snd (cscope2_try_from rec sc)) as [sc'| | |] eqn:E; cbn [fst snd free]; try discriminate.
    destruct (snd (cmapM F args)) as [r| | |]; cbn [fst snd free]; try discriminate.
    intros [= <-]. rewrite (IH _ eq_refl), (scope_exact _ _ E). unfold list_sum. cbn [map fold_right snd]. lia.
  Qed.
  (** all of the [n] chunks so far are in the result or in the buffer *)
  Definition taken (n : nat) (st : tstate) : Prop :=
    if is_empty (ts_stack st) then ts_buffer st = [] /\ n = own (ts_chunks st)
    else n = own (ts_chunks st) + 1 + length (ts_buffer st).

  Lemma push_buffer_taken n st st' l v st1 : is_empty (ts_stack st) = false -> is_empty (ts_stack st') = false ->
    ts_buffer st' = ts_buffer st -> ts_chunks st' = ts_chunks st ->
    taken n st -> t_push_buffer p st' l v = Ok st1 -> taken (S n) st1 /\ ts_chunks st1 = ts_chunks st.
  Proof.
    intros E E' Eb Ec T H. unfold t_push_buffer in H.
    destruct (sub32 p l (ts_start st')) as [x| | |]; cbn [bind] in H; try discriminate.
    destruct (add32 p x 1) as [y| | |]; cbn [bind] in H; try discriminate. injection H as <-.
    unfold taken in *. cbn [ts_stack ts_buffer ts_chunks]. rewrite E in T. rewrite E', Eb, Ec, app_length. cbn [length]. split; [lia|reflexivity].
  Qed.
  Lemma shift_err_ok {A} off (x : outcome error A) a : shift_err p off x = Ok a -> x = Ok a.
  Proof. unfold shift_err. destruct x as [b|e| |]; cbn; try discriminate; auto. destruct (let* _ := _ in _); discriminate. Qed.

  Lemma tstep_exact n st c st1 : taken n st -> snd (ctstep p rec st c) = Ok st1 ->
    taken (S n) st1 /\ exists out, ts_chunks st1 = ts_chunks st ++ out /\ fst (ctstep p rec st c) + own out = visits out.
  Proof.
    intros T. destruct c as [l v].
    assert (Hpush : forall st' v, is_empty (ts_stack st) = false -> is_empty (ts_stack st') = false ->
      ts_buffer st' = ts_buffer st -> ts_chunks st' = ts_chunks st -> t_push_buffer p st' l v = Ok st1 ->
      taken (S n) st1 /\ exists out, ts_chunks st1 = ts_chunks st ++ out /\ 0 + own out = visits out).
    { intros st' v' E E' Eb Ec H. destruct (push_buffer_taken n st st' l v' st1 E E' Eb Ec T H) as [H1 H2].
      split; [exact H1|]. exists []. rewrite app_nil_r. split; [exact H2|reflexivity]. }
    assert (Hout : forall v, is_empty (ts_stack st) = true -> own_chunk (mkChunk2 l v) = 1 -> taken (S n) (t_push_chunk st (mkChunk2 l v))).
    { intros v' E Eo. unfold taken in *. cbn [ts_stack ts_buffer ts_chunks t_push_chunk]. rewrite E in *. destruct T as [T1 T2].
      split; [exact T1|]. rewrite own_app. unfold own at 2. cbn [map list_sum fold_right]. lia. }
    cbn [ctstep]. destruct v as [s|c|s].
    - destruct (is_empty (ts_stack st)) eqn:E; cbn [free snd fst].
      + intros [= <-]. split; [apply Hout; auto|]. eexists. split; [reflexivity|reflexivity].
      + intros H. eapply Hpush; eauto.
    - destruct (negb (_ || _)).
      + destruct (is_empty (ts_stack st)) eqn:E; cbn [free snd fst]; [|intros H; eapply Hpush; eauto].
        unfold cbind, ccommand2_try_from, cbind.
        destruct (snd (cargs2_try_from rec (arguments1 c))) as [args'| | |] eqn:Ea; cbn [free snd fst]; try discriminate.
        intros [= <-]. split; [apply Hout; auto|]. eexists. split; [reflexivity|].
        rewrite (args_exact _ _ Ea). cbn. unfold visits_args, list_sum. lia.
      + destruct (arguments1 c) as [|[pr ct] rest] eqn:Ea; [discriminate|].
        destruct (negb _); [discriminate|].
        destruct (str_eqb _ _).
        * destruct (is_empty (ts_stack st)) eqn:E; cbv zeta.
          -- unfold cbind. cbn [free snd fst]. destruct (add32 p l _); cbn [free snd fst]; try discriminate.
             intros [= <-]. split.
             ++ unfold taken in *. cbn [ts_stack ts_buffer ts_chunks is_empty]. rewrite E in T. destruct T as [T1 T2]. rewrite T1, T2. cbn. lia.
             ++ exists []. cbn [ts_chunks]. rewrite app_nil_r. auto.
          -- cbn [free fst snd]. intros H. eapply Hpush; [reflexivity| | | |exact H]; reflexivity.
        * destruct (negb _); [discriminate|]. destruct (1 <? _)%N; [discriminate|].
          destruct (ts_stack st) as [|x stack] eqn:Es; [discriminate|].
          cbv zeta. destruct (is_empty stack) eqn:E.
          -- unfold cbind. cbn [free snd fst].
             destruct (snd (cargs2_try_from rec (ts_args st))) as [args'| | |] eqn:Ea'; cbn [free snd fst]; try discriminate.
             destruct (shift_err p _ _) as [body| | |] eqn:Eb; cbn [free snd fst]; try discriminate.
             apply shift_err_ok in Eb. destruct (Hrec _ _ Eb) as [H1 H2].
             intros [= <-]. split.
             ++ unfold taken in *. rewrite Es in T. cbn [ts_stack ts_buffer ts_chunks is_empty] in *. rewrite E. split; [reflexivity|].
                rewrite own_app. unfold own at 2. cbn [map list_sum fold_right own_chunk]. fold (own body). unfold own, list_sum in *. lia.
             ++ eexists. split; [reflexivity|]. rewrite (args_exact _ _ Ea'), H1. cbn. unfold visits_args, own, visits, list_sum. lia.
          -- cbn [free fst snd]. intros H. eapply Hpush; [reflexivity| | | |exact H]; [exact E|reflexivity|reflexivity].
    - destruct (is_empty (ts_stack st)) eqn:E; cbn [free snd fst]; [|intros H; eapply Hpush; eauto].
      unfold cbind. cbn [fst snd]. destruct (shift_err p _ _) as [sc| | |] eqn:Eb; cbn [free snd fst]; try discriminate.
      apply shift_err_ok in Eb. intros [= <-]. split; [apply Hout; auto|]. eexists. split; [reflexivity|].
      rewrite (scope_exact _ _ Eb). cbn. lia.
  Qed.
  Lemma loop_exact d n st st1 : taken n st -> snd (cloop (ctstep p rec) st d) = Ok st1 ->
    taken (n + length d) st1 /\ exists out, ts_chunks st1 = ts_chunks st ++ out /\
      fst (cloop (ctstep p rec) st d) + own out = length d + visits out.
  Proof.
    revert n st. induction d as [|c d IH]; intros n st T.
    - cbn. intros [= <-]. rewrite Nat.add_0_r. split; [exact T|]. exists []. rewrite app_nil_r. auto.
    - cbn [cloop]. unfold cbind. cbn [fst snd]. destruct (snd (ctstep p rec st c)) as [st'| | |] eqn:E; cbn [fst snd]; try discriminate.
      destruct (tstep_exact n st c st' T E) as (T' & o1 & E1 & V1). intros H.
      destruct (IH (S n) st' T' H) as (T2 & o2 & E2 & V2). cbn [length]. split; [now replace (n + S (length d)) with (S n + length d) by lia|].
      exists (o1 ++ o2). rewrite app_assoc, <- E1. split; [exact E2|]. rewrite own_app, visits_app. lia.
  Qed.
End Exact.
Lemma counted2_exact fuel p s d : snd (counted2_fuel fuel p s) = Ok d -> fst (counted2_fuel fuel p s) = visits d /\ length s = own d.
Proof.
  revert s d. induction fuel as [|fuel IH]; intros s d; [discriminate|]. cbn [counted2_fuel]. unfold cbind.
  destruct (snd (cloop _ _ _)) as [st| | |] eqn:E; cbn [fst snd free]; try discriminate.
  destruct (loop_exact p _ IH s 0 tinit st ltac:(cbn; auto) E) as (T & out & E1 & V). cbn [tinit ts_chunks app] in E1.
  unfold tfinish. destruct (ts_stack st) as [|x stk] eqn:Es.
  - cbn [last_opt]. intros [= <-]. unfold taken in T. rewrite Es in T. cbn in T. destruct T as [_ T]. rewrite E1 in *. split; lia.
  - destruct (nonempty_snoc (x :: stk) ltac:(discriminate)) as (l0 & y & ->). rewrite last_opt_snoc. discriminate.
Qed.
Lemma steps2_exact p s d : try_from2 p s = Ok d -> steps2 p s = visits d.
Proof. intros H. rewrite <- counted2_erase in H. exact (proj1 (counted2_exact _ _ _ _ H)). Qed.

(** ** Linear for a fixed depth of environments *)
Lemma max_of_le l n : max_of l <= n <-> Forall (fun m => m <= n) l.
Proof.
  unfold max_of. induction l as [|m l IH]; cbn [fold_right]; [split; [constructor|lia]|].
  rewrite Nat.max_lub_iff, IH. split; [intros []; constructor; auto|intros H; inversion H; auto].
Qed.
Lemma env_depth_cons c d : env_depth (c :: d) = Nat.max (env_depth_chunk c) (env_depth d).
Proof. reflexivity. Qed.
Definition env_depth_args (args : list (str * scope2)) : nat := max_of (map (fun a => env_depth_scope (snd a)) args).
Lemma rebaseM_count p start b b1 : mapM (rebaseM p start) b = Ok b1 -> count1 b1 = count1 b /\ length b1 = length b.
Proof.
  revert b1. induction b as [|[l v] b IH]; intros b1; cbn [mapM]; [intros [= <-]; auto|]. unfold rebaseM at 1.
  destruct (sub32 p l start) as [x| | |]; cbn [bind]; try discriminate.
  destruct (add32 p x 1) as [y| | |]; cbn [bind]; try discriminate.
  destruct (mapM (rebaseM p start) b) as [b'| | |]; cbn [bind]; try discriminate.
  intros [= <-]. destruct (IH _ eq_refl) as [H1 H2]. rewrite !count1_cons, H1, (count_line y l). cbn [length]. auto.
Qed.
Lemma conv_own p :
  (forall d d2, conv p d d2 -> own d2 = length d) /\ (forall a a', conv_args p a a' -> True).
Proof.
  apply conv_conv_args_ind; auto; unfold own in *; cbn [map list_sum fold_right own_chunk length].
  - intros. unfold list_sum in *. lia.
  - intros. unfold list_sum in *. lia.
  - intros. unfold list_sum in *. lia.
  - intros. apply rebaseM_count in e0 as [_ E]. rewrite app_length. cbn [length]. unfold list_sum in *. lia.
Qed.
Lemma conv_linear p :
  (forall d d2, conv p d d2 -> forall D, env_depth d2 <= D -> visits d2 <= count1 d * S D) /\
  (forall a a', conv_args p a a' -> forall D, env_depth_args a' <= D -> visits_args a' <= count_args a * S D).
Proof.
  apply conv_conv_args_ind.
  - cbn. lia.
  - intros l s d d' _ IH D H. rewrite env_depth_cons in H. specialize (IH D ltac:(lia)). rewrite count1_cons.
    change (visits (mkChunk2 l (Text2 s) :: d')) with (1 + visits d'). cbn [count_chunk1]. nia.
  - intros l cs v cs' d d' _ IHc _ IH D H. rewrite env_depth_cons in H. cbn [env_depth_chunk env_depth_scope] in H.
    fold (env_depth cs') in H. specialize (IHc D ltac:(lia)). specialize (IH D ltac:(lia)). rewrite count1_cons.
    change (visits (mkChunk2 l (Scope2 (mkScope2 cs' (sv2_of_sv1 v))) :: d')) with (S (visits cs') + visits d').
    cbn [count_chunk1 count_scope1]. fold (count1 cs). nia.
  - intros l lab args args' d d' _ _ _ IHa _ IH D H. rewrite env_depth_cons in H. cbn [env_depth_chunk] in H.
    fold (env_depth_args args') in H. specialize (IHa D ltac:(lia)). specialize (IH D ltac:(lia)). rewrite count1_cons.
    change (visits (mkChunk2 l (Command2 (mkCommand2 lab args')) :: d')) with (S (visits_args args') + visits d').
    cbn [count_chunk1]. fold (count_args args). nia.
  - intros l pb lab args args' body body1 content l' pe d d' start Ho Hst Hb _ IHa Cb IHb _ IH D H.
    rewrite env_depth_cons in H. cbn [env_depth_chunk] in H. fold (env_depth_args args') in H. fold (env_depth content) in H.
    destruct D as [|D]; [lia|]. specialize (IHa (S D) ltac:(lia)). specialize (IHb D ltac:(lia)). specialize (IH (S D) ltac:(lia)).
    pose proof (proj1 (conv_own p) _ _ Cb) as Ho'. apply rebaseM_count in Hb as [E1 E2].
    rewrite count1_cons, count1_app, count1_cons.
    change (visits (mkChunk2 start (Environment2 (mkEnv2 (show1 lab) args' content pb pe)) :: d'))
      with (2 + visits_args args' + (own content + visits content) + visits d').
    assert (Ec : 1 + count_args args <= count_chunk1 (begin_cmd l pb lab args)).
    { unfold begin_cmd, count_args, list_sum. cbn [count_chunk1 map list_sum fold_right]. unfold list_sum. lia. }
    pose proof (count_chunk_pos (end_cmd l' pe lab)). pose proof (count_length body). rewrite E1 in IHb.
    set (CB := count_chunk1 (begin_cmd l pb lab args)) in *. set (CE := count_chunk1 (end_cmd l' pe lab)) in *.
    clearbody CB CE. nia.
  - cbn. lia.
  - intros pre cs v cs' args args' _ IHc _ IHa D H. unfold env_depth_args in H. cbn [map max_of fold_right snd env_depth_scope] in H.
    fold (max_of (map (fun a : str * scope2 => env_depth_scope (snd a)) args')) in H. fold (env_depth_args args') in H.
    fold (max_of (map env_depth_chunk cs')) in H. fold (env_depth cs') in H.
    specialize (IHc D ltac:(lia)). specialize (IHa D ltac:(lia)).
    change (visits_args ((pre, mkScope2 cs' (sv2_of_sv1 v)) :: args')) with (visits cs' + visits_args args').
    change (count_args ((pre, mkScope1 cs v) :: args)) with (count1 cs + count_args args). nia.
Qed.
Lemma steps2_linear p d d2 : try_from2 p d = Ok d2 -> steps2 p d <= count1 d * S (env_depth d2).
Proof.
  intros H. rewrite (steps2_exact p d d2 H). apply try_from2_iff in H. exact (proj1 (conv_linear p) _ _ H _ (le_n _)).
Qed.

(** ** A document has at most as many chunks as its source has characters *)
Lemma parses_count :
  (forall L ts d, parses L ts d -> count1 d <= length ts) /\ (forall ts args, parses_args ts args -> count_args args <= length ts).
Proof.
  apply parses_parses_args_ind.
  - cbn. lia.
  - intros L run rest cs Hne _ _ _ IH. rewrite count1_cons, app_length. destruct run; [contradiction|]. cbn [count_chunk1 length]. lia.
  - intros L v body rest inner cs _ _ IHi _ IH. rewrite count1_cons. cbn [count_chunk1 count_scope1 length]. fold (count1 inner).
    rewrite app_length. cbn [length]. lia.
  - intros L c rest cs _ _ IH. rewrite count1_cons. cbn [count_chunk1 map list_sum fold_right length]. unfold list_sum. cbn. lia.
  - intros L a lab argtoks args ws rest cs _ _ _ IHa _ _ _ _ IH. rewrite count1_cons. cbn [count_chunk1]. fold (count_args args).
    rewrite app_length, map_length in IH. unfold chars in IH. rewrite map_length in IH. cbn [length]. rewrite !app_length. lia.
  - intros L a lab argtoks args ws _ _ _ IHa _ Hne. rewrite !count1_cons. cbn [count_chunk1]. fold (count_args args).
    cbn [length]. rewrite !app_length. destruct ws; [contradiction|]. cbn [length]. cbn. lia.
  - cbn. lia.
  - intros pre o v body inner rest args _ _ _ _ IHi _ IHa.
    change (count_args ((chars pre, mkScope1 inner v) :: args)) with (count1 inner + count_args args).
    rewrite app_length. cbn [length]. rewrite app_length. cbn [length].
    assert (length (drop_own v body) <= length body) by (unfold drop_own; clear; induction body as [|t b IH]; cbn [filter length]; [lia|destruct (negb _); cbn [length]; lia]). lia.
Qed.
Lemma untoks_length ts : length ts <= length (untoks ts).
Proof.
  induction ts as [|t ts IH]; [cbn; lia|]. unfold untoks in *. cbn [map concat length]. rewrite app_length. destruct t; cbn [untok length]; lia.
Qed.
Lemma from_str1_count p s d : source_fits s -> from_str1 p s = Ok d -> count1 d <= length s.
Proof.
  intros B H. destruct (from_str1_has_parse p s d B H) as [_ Hp]. pose proof (proj1 parses_count _ _ _ Hp).
  pose proof (untoks_length (tokens s)). pose proof (tokens_length s). lia.
Qed.

(** ** The documented worst case: [k] times [\begin{a}] and [k] times [\end{a}] *)
Definition worst2 (k : nat) : str := concat (repeat (S! "\begin{a}") k) ++ concat (repeat (S! "\end{a}") k).
Definition lab_a : list chunk1 := [mkChunk1 1 (Text1 (S! "a"))].
Definition worst_d1 (k : nat) (d : list chunk1) : list chunk1 :=
  repeat (begin_cmd 1 [] lab_a []) k ++ repeat (end_cmd 1 [] lab_a) k ++ d.
Fixpoint worst_d2 (k : nat) : list chunk2 :=
  match k with O => [] | S k => [mkChunk2 1 (Environment2 (mkEnv2 (S! "a") [] (worst_d2 k) [] []))] end.

Lemma worst_show k : show1 (worst_d1 k []) = worst2 k.
Proof.
  unfold worst_d1, worst2. rewrite app_nil_r, show1_app. f_equal.
  - induction k as [|k IH]; [reflexivity|]. cbn [repeat concat]. rewrite show1_cons, IH. reflexivity.
  - induction k as [|k IH]; [reflexivity|]. cbn [repeat concat]. rewrite show1_cons, IH. reflexivity.
Qed.
Lemma canonical_lab_a v : canonical_args [([], mkScope1 lab_a v)].
Proof.
  apply cna_cons; [reflexivity| | |constructor].
  - apply (cn_text 1 (S! "a") []); [discriminate|reflexivity|reflexivity|constructor].
  - unfold lab_a. apply everywhere_cons. split; [|split; [exact I|apply everywhere_nil]].
    cbn. intros [F|[]]. destruct v; discriminate F.
Qed.
Lemma worst_canonical k : canonical 1 (worst_d1 k []).
Proof.
  assert (He : forall j, canonical 1 (repeat (end_cmd 1 [] lab_a) j)).
  { induction j as [|j IH]; [constructor|]. cbn [repeat].
    apply (cn_word 1 101%N (S! "nd") [([], mkScope1 lab_a Curly1)]); [reflexivity|reflexivity|apply canonical_lab_a| |exact IH].
    destruct j; reflexivity. }
  unfold worst_d1. rewrite app_nil_r. generalize k at 2. intros j. induction k as [|k IH]; [apply He|]. cbn [repeat app].
  apply (cn_word 1 98%N (S! "egin") [([], mkScope1 lab_a Curly1)]); [reflexivity|reflexivity|apply canonical_lab_a| |exact IH].
  destruct k; [|reflexivity]. destruct j; reflexivity.
Qed.
Lemma rebase_worst k : map (rebase 1) (worst_d1 k []) = worst_d1 k [].
Proof. unfold worst_d1. rewrite !app_nil_r, map_app. f_equal; induction k as [|k IH]; cbn [repeat map]; rewrite ?IH; reflexivity. Qed.
Lemma repeat_snoc {A} (x : A) k l : repeat x k ++ x :: l = x :: repeat x k ++ l.
Proof. induction k as [|k IH]; [reflexivity|]. cbn [repeat app]. now rewrite IH. Qed.
Lemma worst_converts k : converts (worst_d1 k []) (worst_d2 k).
Proof.
  induction k as [|k IH]; [constructor|].
  replace (worst_d1 (S k) []) with (begin_cmd 1 [] lab_a [] :: worst_d1 k [] ++ end_cmd 1 [] lab_a :: []).
  2: { unfold worst_d1. cbn [repeat app]. rewrite !app_nil_r, <- app_assoc, repeat_snoc, app_nil_r. reflexivity. }
  cbn [worst_d2]. apply (cs_env 1 [] lab_a [] [] (worst_d1 k []) (worst_d2 k) 1 [] [] [] 1); try constructor.
  rewrite rebase_worst. exact IH.
Qed.
Lemma worst_own k : own (worst_d2 k) = 2 * k.
Proof. induction k as [|k IH]; [reflexivity|]. unfold own in *. cbn [worst_d2 map own_chunk list_sum fold_right]. unfold list_sum in *. lia. Qed.
Lemma worst_visits k : visits (worst_d2 k) = k * k + k.
Proof.
  induction k as [|k IH]; [reflexivity|]. pose proof (worst_own k) as H. unfold own, visits in *.
  cbn [worst_d2 map visits_chunk list_sum fold_right]. unfold list_sum in *. nia.
Qed.
Lemma worst_length k : length (worst2 k) = 16 * k.
Proof.
  unfold worst2. rewrite app_length. induction k as [|k IH]; [reflexivity|]. cbn [repeat concat]. rewrite !app_length.
  change (length (S! "\begin{a}")) with 9. change (length (S! "\end{a}")) with 7. lia.
Qed.
Lemma worst_steps p k : source_fits (worst2 k) -> exists d d2, from_str1 p (worst2 k) = Ok d /\ try_from2 p d = Ok d2 /\
  env_depth d2 = k /\ steps2 p d = k * k + k.
Proof.
  intros B. exists (worst_d1 k []), (worst_d2 k).
  assert (H : forall q, from_str1 q (worst2 k) = Ok (worst_d1 k [])).
  { intros q. rewrite <- worst_show. apply from_str1_show_iff; [rewrite worst_show; exact B|apply worst_canonical]. }
  assert (H' : try_from2 p (worst_d1 k []) = Ok (worst_d2 k)).
  { apply try_from2_converts; [exists p, (worst2 k); auto|apply worst_converts]. }
  split; [apply H|]. split; [exact H'|]. split.
  - clear. induction k as [|k IH]; [reflexivity|]. cbn [worst_d2]. unfold env_depth in *. cbn [map max_of fold_right env_depth_chunk].
    fold (max_of (map env_depth_chunk (worst_d2 k))). rewrite IH. cbn. lia.
  - rewrite (steps2_exact _ _ _ H'). apply worst_visits.
Qed.
