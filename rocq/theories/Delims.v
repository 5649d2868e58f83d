(** * Delims: what maths recognition leaves nowhere *)
From Coq Require Import Lia.
From Verif Require Import Base Ast1 Parse1 Ast2 Ast3 Valid1 Valid2 SpecDoc2 SpecDoc3 SpecDelims MathsRun MathsRec.
Local Open Scope N_scope.

Section Delims.
  Context (p : profile) (P : str -> Prop).
  (** the commands of a stage-2 tree have labels in [P] *)
  Inductive lab2 : chunk2 -> Prop :=
  | l2_text l s : lab2 (mkChunk2 l (Text2 s))
  | l2_command l lab args : P lab -> (forall pre cs v, In (pre, mkScope2 cs v) args -> Forall lab2 cs) -> lab2 (mkChunk2 l (Command2 (mkCommand2 lab args)))
  | l2_scope l cs v : Forall lab2 cs -> lab2 (mkChunk2 l (Scope2 (mkScope2 cs v)))
  | l2_env l lab args content pb pe : (forall pre cs v, In (pre, mkScope2 cs v) args -> Forall lab2 cs) -> Forall lab2 content ->
      lab2 (mkChunk2 l (Environment2 (mkEnv2 lab args content pb pe))).
  Inductive fine : chunk3 -> Prop :=
  | f_text l s : s <> [] -> ~ In c_dollar s -> fine (mkChunk3 l (Text3 s))
  | f_break l b : Forall (fun x => is_whitespace x = true) b -> fine (mkChunk3 l (ParagraphBreak3 b))
  | f_command l lab args : P lab -> ~ maths_label lab -> (forall pre cs v, In (pre, mkScope3 cs v) args -> Forall fine cs) -> fine (mkChunk3 l (Command3 (mkCommand3 lab args)))
  | f_scope l cs v : Forall fine cs -> fine (mkChunk3 l (Scope3 (mkScope3 cs v)))
  | f_env l lab args content pb pe : (forall pre cs v, In (pre, mkScope3 cs v) args -> Forall fine cs) -> Forall fine content ->
      fine (mkChunk3 l (Environment3 (mkEnv3 lab args content pb pe)))
  | f_maths l v t content : Forall fine content -> fine (mkChunk3 l (Maths3 (mkMaths3 v t content))).

  (** *** Paragraphs *)
  Definition par_fine (st : parstate) : Prop :=
    match st with mkPar new _ text _ buf _ _ => Forall fine new /\ ~ In c_dollar text /\ Forall (fun x => is_whitespace x = true) buf end.
  Lemma ws_dollar b : Forall (fun x => is_whitespace x = true) b -> ~ In c_dollar b.
  Proof. intros F I. rewrite Forall_forall in F. specialize (F _ I). discriminate F. Qed.
  Lemma fine_text new l t : Forall fine new -> ~ In c_dollar t -> Forall fine (if negb (is_empty t) then new ++ [mkChunk3 l (Text3 t)] else new).
  Proof. intros F N. destruct t as [|c t]; cbn [is_empty negb]; [exact F|]. apply Forall_app. split; [exact F|]. repeat constructor; [discriminate|exact N]. Qed.
  Lemma par_step_fine st c st' : @par_step error p st c = Ok st' -> c <> c_dollar -> par_fine st -> par_fine st'.
  Proof.
    destruct st as [new line text tl buf bl k]. cbn [par_fine]. unfold par_step. intros H D (A & B & C).
    assert (W : is_whitespace c = true -> Forall (fun x => is_whitespace x = true) (buf ++ [c])) by (intros K; apply Forall_app; auto).
    assert (T : ~ In c_dollar (text ++ [c])) by (rewrite in_app_iff; intros [K|[K|[]]]; auto).
    assert (NL : (c =? c_newline) = true -> is_whitespace c = true) by (intros K; apply N.eqb_eq in K; now subst c).
    destruct ((c =? c_newline) && (k =? 1)%Z) eqn:E1.
    { apply andb_true_iff in E1 as [E1 _]. destruct (inc_i32 p k) as [k1| | |]; cbn [bind] in H; try discriminate. destruct (add32 p line 1) as [l1| | |]; cbn [bind] in H; try discriminate. injection H as <-.
      split; [now apply fine_text|]. split; [intros []|auto]. }
    destruct (c =? c_newline) eqn:E2.
    { destruct (inc_i32 p k) as [k1| | |]; cbn [bind] in H; try discriminate. destruct (add32 p line 1) as [l1| | |]; cbn [bind] in H; try discriminate. injection H as <-. cbn. auto. }
    destruct (is_whitespace c && (k =? 0)%Z); [injection H as <-; cbn; auto|]. destruct (is_whitespace c) eqn:E3; [injection H as <-; cbn; auto|].
    destruct (k =? 0)%Z; [injection H as <-; cbn; auto|]. destruct (k =? 1)%Z; injection H as <-; cbn.
    - split; [exact A|]. split; [|constructor]. rewrite !in_app_iff. intros [K|[K|[K|[]]]]; auto. exact (ws_dollar _ C K).
    - split; [|split; [exact T|constructor]]. apply Forall_app. split; [exact A|]. now repeat constructor.
  Qed.
  Lemma par_steps_fine s : forall st st', foldM (@par_step error p) st s = Ok st' -> ~ In c_dollar s -> par_fine st -> par_fine st'.
  Proof.
    induction s as [|c s IH]; intros st st'; cbn [foldM]; [intros H; now injection H as <-|]. destruct (par_step p st c) as [s1| | |] eqn:E; cbn [bind]; try discriminate.
    intros H N K. apply (IH s1 st' H); [intros I; apply N; now right|]. apply (par_step_fine _ _ _ E); [|exact K]. intros ->. apply N. now left.
  Qed.
  Lemma par_finish_fine st : par_fine st -> Forall fine (par_finish st).
  Proof.
    destruct st as [new line text tl buf bl k]. cbn [par_fine par_finish]. intros (A & B & C).
    assert (D : ~ In c_dollar (text ++ buf)) by (rewrite in_app_iff; intros [K|K]; [auto|exact (ws_dollar _ C K)]).
    destruct (negb (is_empty buf)); [|destruct (negb (is_empty text)); [now apply fine_text|exact A]].
    destruct (k >? 1)%Z; [|now apply fine_text]. apply Forall_app. split; [exact A|]. now repeat constructor.
  Qed.
  Lemma par_all_fine cs : forall new out, foldM (@par_chunk error p) new cs = Ok out -> Forall fine new -> Forall fine cs -> Forall fine out.
  Proof.
    induction cs as [|c cs IH]; intros new out; cbn [foldM]; [intros H; now injection H as <-|]. destruct (par_chunk p new c) as [n1| | |] eqn:E; cbn [bind]; try discriminate.
    intros H N F. inversion F as [|? ? Fc F']; subst. apply (IH n1 out H); [|exact F']. clear H IH F F' out cs.
    assert (O : Ok (new ++ [c]) = @Ok error _ n1 -> Forall fine n1) by (intros H; injection H as <-; apply Forall_app; auto).
    destruct c as [l v]. destruct v as [s|b|m|cm|sc|e]; cbn [par_chunk] in E; auto. inversion Fc; subst.
    destruct (foldM (par_step p) (mkPar new l [] l [] l 0%Z) s) as [st| | |] eqn:G; cbn [bind] in E; try discriminate. injection E as <-. apply par_finish_fine. apply (par_steps_fine _ _ _ G); [assumption|]. cbn. auto.
  Qed.
  Lemma par_fine_all cs out : paragraph_from_chunks p cs = @Ok error _ out -> Forall fine cs -> Forall fine out.
  Proof. intros H F. exact (par_all_fine cs [] out H (Forall_nil _) F). Qed.

  (** *** Maths *)
  Section Step.
    Context (rec : list chunk2 -> outcome error (list chunk3)).
    Context (R : forall cs out, Forall lab2 cs -> rec cs = Ok out -> Forall fine out).
    Definition m_fine (st : mstate) : Prop := Forall fine (ms_out st) /\ Forall lab2 (ms_buffer st).
    Definition mt_fine (m : mtext) : Prop := m_fine (mt_st m) /\ ~ In c_dollar (mt_text m).
    Lemma push_fine m : mt_fine m -> mt_fine (mt_push_str m).
    Proof.
      intros [[A B] C]. unfold mt_push_str. destruct (mt_text m) as [|c t] eqn:T; cbn [is_empty negb].
      - split; [now split|]. rewrite T. intros [].
      - split; [|intros []]. split; [|exact B]. cbn. apply Forall_app. split; [exact A|]. repeat constructor; [discriminate|exact C].
    Qed.
    Lemma shifted_lab (o : N) cs cs' : mapM (fun c => match c with mkChunk2 l v => let* o := sub32 p o 1 in let* l := sub32 p l o in @Ok error _ (mkChunk2 l v) end) cs = Ok cs' -> Forall lab2 cs -> Forall lab2 cs'.
    Proof.
      revert cs'. induction cs as [|[l v] cs IH]; intros cs'; cbn [mapM]; [intros H; injection H as <-; constructor|].
      destruct (sub32 p o 1) as [o1| | |]; cbn [bind]; try discriminate. destruct (sub32 p l o1) as [l1| | |]; cbn [bind]; try discriminate.
      match goal with |- bind ?f _ = _ -> _ => destruct f as [r| | |] eqn:E; cbn [bind]; try discriminate end. intros H F. injection H as <-. inversion F as [|? ? Fc F']; subst.
      constructor; [inversion Fc; subst; now constructor|now apply IH].
    Qed.
    Lemma close_fine m t m' : mt_close p rec m t = Ok m' -> mt_fine m -> mt_fine m'.
    Proof.
      intros H [[A B] C]. unfold mt_close in H. match type of H with bind ?f _ = _ => destruct f as [sh| | |] eqn:S; cbn [bind] in H; try discriminate end.
      destruct (rec sh) as [co| | |] eqn:E; cbn [bind] in H; try discriminate. injection H as <-. split; [|intros []]. split; [|constructor]. cbn. apply Forall_app. split; [exact A|]. constructor; [|constructor]. constructor.
      apply (R sh co); [|exact E]. apply (shifted_lab _ _ _ S). destruct (negb (is_empty (mt_text m))); [|exact B]. apply Forall_app. split; [exact B|]. repeat constructor.
    Qed.
    Lemma mt_step_fine m c m' : mt_step p rec m c = Ok m' -> mt_fine m -> mt_fine m'.
    Proof.
      unfold mt_step. intros H F. match type of H with bind ?f _ = _ => destruct f as [m0| | |] eqn:G; cbn [bind] in H; try discriminate end.
      assert (F0 : mt_fine m0). { destruct (c =? c_newline); [|now injection G as <-]. destruct (add32 p (mt_cursor m) 1); cbn [bind] in G; try discriminate. injection G as <-. exact F. }
      clear G F m. destruct (N.eqb_spec c c_dollar) as [->|N].
      - destruct (ms_mode (mt_st m0)) as [[|]|[|]| |]; try (injection H as <-; exact F0).
        + destruct (is_empty (mt_text m0) && is_empty (ms_buffer (mt_st m0))); [injection H as <-; exact F0|exact (close_fine _ _ _ H F0)].
        + exact (close_fine _ _ _ H F0).
        + injection H as <-. exact (push_fine _ F0).
      - injection H as <-. destruct F0 as [A B]. split; [exact A|]. cbn. rewrite in_app_iff. intros [K|[K|[]]]; auto.
    Qed.
    Lemma mt_steps_fine s : forall m m', foldM (mt_step p rec) m s = Ok m' -> mt_fine m -> mt_fine m'.
    Proof.
      induction s as [|c s IH]; intros m m'; cbn [foldM]; [intros H; now injection H as <-|]. destruct (mt_step p rec m c) as [m1| | |] eqn:E; cbn [bind]; try discriminate.
      intros H K. apply (IH m1 m' H). exact (mt_step_fine _ _ _ E K).
    Qed.
    Lemma scope_fine cs v x : scope3_try_from p rec (mkScope2 cs v) = Ok x -> Forall lab2 cs -> exists cs' v', x = mkScope3 cs' v' /\ Forall fine cs'.
    Proof.
      cbn [scope3_try_from]. destruct (rec cs) as [a| | |] eqn:E; cbn [bind]; try discriminate. destruct (paragraph_from_chunks p a) as [b| | |] eqn:E'; cbn [bind]; try discriminate.
      intros H F. injection H as <-. do 2 eexists. split; [reflexivity|]. apply (par_fine_all _ _ E'). exact (R _ _ F E).
    Qed.
    Lemma args_fine args : forall out, args3_try_from p rec args = Ok out -> (forall pre cs v, In (pre, mkScope2 cs v) args -> Forall lab2 cs) -> forall pre cs v, In (pre, mkScope3 cs v) out -> Forall fine cs.
    Proof.
      unfold args3_try_from. induction args as [|[pre0 [cs0 v0]] args IH]; intros out; cbn [mapM]; [intros H; injection H as <-; intros _ ? ? ? []|].
      destruct (scope3_try_from p rec (mkScope2 cs0 v0)) as [x| | |] eqn:E; cbn [bind]; try discriminate.
      match goal with |- bind ?f _ = _ -> _ => destruct f as [r| | |] eqn:E'; cbn [bind]; try discriminate end. intros H F. injection H as <-. intros pre cs v [I|I].
      - injection I as -> ->. destruct (scope_fine _ _ _ E (F _ _ _ (or_introl eq_refl))) as (cs' & v' & K & K'). injection K as -> ->. exact K'.
      - apply (IH r eq_refl (fun pre cs v I => F pre cs v (or_intror I)) pre cs v I).
    Qed.
    Lemma env_fine lab args content pb pe x : env3_try_from p rec (mkEnv2 lab args content pb pe) = Ok x -> (forall pre cs v, In (pre, mkScope2 cs v) args -> Forall lab2 cs) -> Forall lab2 content ->
      exists args' content', x = mkEnv3 lab args' content' pb pe /\ (forall pre cs v, In (pre, mkScope3 cs v) args' -> Forall fine cs) /\ Forall fine content'.
    Proof.
      cbn [env3_try_from]. destruct (args3_try_from p rec args) as [a| | |] eqn:A; cbn [bind]; try discriminate. destruct (rec content) as [b| | |] eqn:B; cbn [bind]; try discriminate.
      destruct (paragraph_from_chunks p b) as [c| | |] eqn:C; cbn [bind]; try discriminate. intros H F G. injection H as <-. do 2 eexists. split; [reflexivity|]. split; [exact (args_fine _ _ A F)|]. apply (par_fine_all _ _ C). exact (R _ _ G B).
    Qed.
    Lemma m_step_fine st c st' : m_step p rec st c = Ok st' -> lab2 c -> m_fine st -> m_fine st'.
    Proof.
      intros H L [A B]. assert (Buf : m_fine (m_push_buffer st c)) by (split; [exact A|cbn; apply Forall_app; auto]).
      assert (Out : forall c', fine c' -> m_fine (m_push_out st c')) by (intros c' F; split; [cbn; apply Forall_app; auto|exact B]).
      assert (Cl : forall t, m_close_brackets rec st t = Ok st' -> m_fine st').
      { intros t K. unfold m_close_brackets in K. destruct (rec (ms_buffer st)) as [co| | |] eqn:E; cbn [bind] in K; try discriminate. injection K as <-. split; [|constructor]. cbn. apply Forall_app. split; [exact A|].
        constructor; [|constructor]. constructor. exact (R _ _ B E). }
      assert (Dp : forall f : outcome error N, (let* d := f in Ok (m_set_depth st d)) = Ok st' -> m_fine st') by (intros f K; destruct f; cbn [bind] in K; try discriminate; injection K as <-; now split).
      destruct L as [l s|l lab args Pl La|l cs v Lc|l lab args content pb pe La Lc]; cbn [m_step label2] in H.
      - destruct (negb (is_single_br (ms_mode st) || is_double_br (ms_mode st))); [|injection H as <-; exact Buf]. unfold m_text in H.
        destruct (foldM (mt_step p rec) (mkMT st l [] l) s) as [m| | |] eqn:F; cbn [bind] in H; try discriminate. injection H as <-. apply push_fine. apply (mt_steps_fine _ _ _ F). split; [now split|intros []].
      - assert (M : is_none (ms_mode st) = true -> maths_label lab -> exists e s, (if is_none (ms_mode st) && (str_eqb lab [c_rround] || str_eqb lab [c_rsquare]) then Err e else
            if str_eqb lab [c_lround] && is_none (ms_mode st) then Ok s else if str_eqb lab [c_lsquare] && is_none (ms_mode st) then Ok s else Panic) <> @Panic error mstate).
        { intros -> M. exists (mkError 0 UnclosedMaths), st. destruct M as [->|[->|[->| ->]]]; discriminate. }
        destruct (is_none (ms_mode st) && (str_eqb lab [c_rround] || str_eqb lab [c_rsquare])) eqn:Q1; [discriminate|].
        destruct (str_eqb lab [c_lround] && is_none (ms_mode st)) eqn:Q2; [injection H as <-; now split|].
        destruct (str_eqb lab [c_lsquare] && is_none (ms_mode st)) eqn:Q3; [injection H as <-; now split|].
        repeat match type of H with (if ?b && _ && is_single_br _ then _ else _) = _ => idtac | (if ?b then m_close_brackets _ _ _ else _) = _ => destruct b; [exact (Cl _ H)|] | (if ?b then bind (_ p _ _) _ else _) = _ => destruct b; [exact (Dp _ H)|] end.
        destruct (is_none (ms_mode st)) eqn:N; [|injection H as <-; exact Buf].
        destruct (command3_try_from p rec (mkCommand2 lab args)) as [c3| | |] eqn:E; cbn [bind] in H; try discriminate. injection H as <-. apply Out. cbn [command3_try_from] in E.
        destruct (args3_try_from p rec args) as [a| | |] eqn:Ea; cbn [bind] in E; try discriminate. injection E as <-. constructor; [exact Pl| |exact (args_fine _ _ Ea La)].
        intros M'. destruct (M eq_refl M') as (e & s & X). now apply X.
      - destruct (is_none (ms_mode st)); [|injection H as <-; exact Buf]. destruct (scope3_try_from p rec (mkScope2 cs v)) as [x| | |] eqn:E; cbn [bind] in H; try discriminate. injection H as <-. apply Out.
        destruct (scope_fine _ _ _ E Lc) as (cs' & v' & -> & F). now constructor.
      - destruct (is_none (ms_mode st)); [|injection H as <-; exact Buf]. destruct (env3_try_from p rec (mkEnv2 lab args content pb pe)) as [x| | |] eqn:E; cbn [bind] in H; try discriminate. injection H as <-. apply Out.
        destruct (env_fine _ _ _ _ _ _ E La Lc) as (a' & c' & -> & F & G). now constructor.
    Qed.
    Lemma m_steps_fine cs : forall st st', foldM (m_step p rec) st cs = Ok st' -> Forall lab2 cs -> m_fine st -> m_fine st'.
    Proof.
      induction cs as [|c cs IH]; intros st st'; cbn [foldM]; [intros H; now injection H as <-|]. destruct (m_step p rec st c) as [s1| | |] eqn:E; cbn [bind]; try discriminate.
      intros H F K. inversion F; subst. apply (IH s1 st' H); [assumption|]. apply (m_step_fine _ _ _ E); assumption.
    Qed.
  End Step.
  Lemma fuel_fine n : forall cs out, Forall lab2 cs -> maths_fuel n p cs = Ok out -> Forall fine out.
  Proof.
    induction n as [|n IH]; intros cs out L; cbn [maths_fuel]; [discriminate|]. destruct (foldM (m_step p (maths_fuel n p)) minit cs) as [st| | |] eqn:F; cbn [bind]; try discriminate.
    destruct (m_steps_fine (maths_fuel n p) IH cs _ _ F L) as [A _]; [split; constructor|]. unfold m_finish. destruct (negb (is_none (ms_mode st))); [discriminate|]. intros H. exact (par_fine_all _ _ H A).
  Qed.
  Lemma maths_fine cs out : Forall lab2 cs -> maths_from_chunks p cs = Ok out -> Forall fine out.
  Proof. apply fuel_fine. Qed.
End Delims.
