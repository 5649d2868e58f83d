(** * Size3: texts and paragraph breaks of stage 3 are not empty, and documents are not larger than their sources *)
From Verif Require Import Base Ast1 Parse1 Ast2 Ast3 SpecDoc1 SpecDoc2 SpecDoc3 SpecMaths3 SpecSize SpecDepth Lines Tok Par3 Maths3 MathsFwd MathsBwd MathsRun Keep3 Doc3 Class3 Depth0 Depth1 Depth2 Depth3 Depth3b Size Order.
From Coq Require Import Lia Arith.
Open Scope nat_scope.

(** ** stage 2 has no more nodes than stage 1 *)
Definition nodes_args1 (args : list (str * scope1)) : nat := list_sum (map (fun a => match a with (_, sc) => nodes_scope1 sc end) args).
Definition nodes_args2 (args : list (str * scope2)) : nat := list_sum (map (fun a => match a with (_, sc) => nodes_scope2 sc end) args).
Lemma nodes1_app a b : nodes1 (a ++ b) = nodes1 a + nodes1 b.
Proof. unfold nodes1. rewrite map_app, list_sum_app. reflexivity. Qed.
Lemma nodes2_app a b : nodes2 (a ++ b) = nodes2 a + nodes2 b.
Proof. unfold nodes2. rewrite map_app, list_sum_app. reflexivity. Qed.
Lemma nodes2_one c : nodes2 [c] = nodes_chunk2 c.
Proof. unfold nodes2. cbn [map list_sum fold_right]. lia. Qed.
Lemma nodes1_one c : nodes1 [c] = nodes_chunk1 c.
Proof. unfold nodes1. cbn [map list_sum fold_right]. lia. Qed.
Lemma post_map_err {E A} (P : A -> Prop) f (x : outcome E A) : post P x -> post P (map_err f x).
Proof. intros H a. destruct x as [b|e| |]; cbn [map_err]; try discriminate; [apply H|]. destruct (f e); discriminate. Qed.
Section Run2.
  Context (p : profile) (rec : list chunk1 -> outcome error document2).
  Hypothesis HR : forall d, post (fun d2 => nodes2 d2 <= nodes1 d) (rec d).
  Lemma scope_nodes s : post (fun s2 => nodes_scope2 s2 <= nodes_scope1 s) (scope2_try_from rec s).
  Proof.
    unfold scope2_try_from. destruct s as [cs v]. cbn [chunks1]. eapply post_bind; [apply HR|]. intros cs2 H. apply post_ok.
    change (S (nodes2 cs2) <= S (nodes1 cs)). blia.
  Qed.
  Lemma args_nodes args : post (fun args2 => nodes_args2 args2 <= nodes_args1 args) (args2_try_from rec args).
  Proof.
    unfold args2_try_from. induction args as [|[pr s] args IH]; cbn [mapM]; [apply post_ok; reflexivity|].
    eapply post_bind with (P := fun a => match a with (_, s') => nodes_scope2 s' <= nodes_scope1 s end).
    { eapply post_bind; [apply scope_nodes|]. intros s' H. apply post_ok. exact H. }
    intros [pr' s'] H. eapply post_bind; [exact IH|]. intros args' H'. apply post_ok.
    change (nodes_scope2 s' + nodes_args2 args' <= nodes_scope1 s + nodes_args1 args). blia.
  Qed.
  (** what is collected is not converted yet *)
  Definition due (st : tstate) : nat :=
    nodes2 (ts_chunks st) + match ts_stack st with [] => 0 | _ => S (S (nodes_args1 (ts_args st))) + nodes1 (ts_buffer st) end.
  Definition okt2 (k : nat) (st : tstate) : Prop := due st <= k /\ (ts_stack st = [] -> ts_buffer st = []).
  Lemma buffer_nodes st l v k : ts_stack st <> [] -> okt2 k st -> post (okt2 (k + nodes_chunk1 (mkChunk1 l v))) (t_push_buffer p st l v).
  Proof.
    intros Hs [H1 H2]. unfold t_push_buffer. eapply post_bind; [apply post_any|intros a _]. eapply post_bind; [apply post_any|intros b _].
    apply post_ok. split; [|cbn [ts_stack]; congruence]. unfold due in *. cbn [ts_chunks ts_stack ts_args ts_buffer].
    destruct (ts_stack st); [congruence|]. rewrite nodes1_app, nodes1_one.
    replace (nodes_chunk1 (mkChunk1 b v)) with (nodes_chunk1 (mkChunk1 l v)) by (destruct v; reflexivity). blia.
  Qed.
  Lemma tstep_nodes st c k : okt2 k st -> post (okt2 (k + nodes_chunk1 c)) (tstep p rec st c).
  Proof.
    intros H. unfold tstep. destruct c as [l v].
    assert (PC : ts_stack st = [] -> forall c2, nodes_chunk2 c2 <= nodes_chunk1 (mkChunk1 l v) -> okt2 (k + nodes_chunk1 (mkChunk1 l v)) (t_push_chunk st c2)).
    { intros Es c2 Hc. destruct H as [H1 H2]. split; [|exact H2]. unfold due in *. cbn [t_push_chunk ts_chunks ts_stack]. rewrite Es in *. rewrite nodes2_app, nodes2_one. blia. }
    destruct v as [s|c|s].
    - destruct (ts_stack st) eqn:Es; cbn [is_empty]; [|apply buffer_nodes; [congruence|exact H]]. apply post_ok, PC; [reflexivity|reflexivity].
    - destruct (negb _).
      { destruct (ts_stack st) eqn:Es; cbn [is_empty]; [|apply buffer_nodes; [congruence|exact H]].
        destruct c as [lab args]. unfold command2_try_from. cbn [arguments1 label1]. eapply post_bind with (P := fun c2 => nodes_command2 c2 <= nodes_args1 args).
        - eapply post_bind; [apply args_nodes|]. intros a Ha. apply post_ok. exact Ha.
        - intros c2 Hc. apply post_ok, PC; [reflexivity|]. change (S (nodes_command2 c2) <= S (nodes_args1 args)). blia. }
      destruct c as [lab args]. cbn [arguments1]. destruct args as [|[pr ct] rest]; [apply post_err|].
      destruct (negb _); [apply post_err|].
      change (nodes_chunk1 (mkChunk1 l (Command1 (mkCommand1 lab ((pr, ct) :: rest))))) with (S (nodes_scope1 ct + nodes_args1 rest)).
      destruct ct as [ccs cv]. change (nodes_scope1 (mkScope1 ccs cv)) with (S (nodes1 ccs)).
      destruct (str_eqb _ _).
      { cbv zeta. destruct (ts_stack st) as [|x xs] eqn:Es; cbn [is_empty].
        - eapply post_bind; [apply post_any|]. intros start _. apply post_ok. destruct H as [H1 H2]. split; [|cbn [ts_stack]; discriminate].
          unfold due in *. cbn [ts_chunks ts_stack ts_args ts_buffer]. rewrite Es in *. rewrite (H2 eq_refl). change (nodes1 []) with 0. blia.
        - apply (buffer_nodes (mkT (ts_chunks st) (chunks1 (mkScope1 ccs cv) :: x :: xs) (ts_start st) (ts_args st) (ts_buffer st) (ts_prec st)) l (Command1 (mkCommand1 lab ((pr, mkScope1 ccs cv) :: rest)))); [discriminate|].
          destruct H as [H1 H2]. split; [|discriminate]. unfold due in *. cbn [ts_chunks ts_stack ts_args ts_buffer]. rewrite Es in H1. exact H1. }
      destruct (negb _); [apply post_err|]. destruct (_ <? _)%N; [apply post_err|].
      destruct (ts_stack st) as [|lab0 stack] eqn:Es; [intros a E; discriminate|]. cbv zeta. destruct stack as [|lab' stack]; cbn [is_empty].
      + destruct H as [H1 _]. unfold due in H1. rewrite Es in H1.
        eapply post_bind; [apply args_nodes|]. intros args Ha. eapply post_bind; [apply post_map_err, HR|]. intros body Hb. apply post_ok. split; [|reflexivity].
        unfold due. cbn [ts_chunks ts_stack]. rewrite nodes2_app, nodes2_one.
        match goal with |- context [nodes_chunk2 ?c] => change (nodes_chunk2 c) with (S (nodes_args2 args + nodes2 body)) end. blia.
      + apply (buffer_nodes (mkT (ts_chunks st) (lab' :: stack) (ts_start st) (ts_args st) (ts_buffer st) (ts_prec st)) l (Command1 (mkCommand1 lab ((pr, mkScope1 ccs cv) :: rest)))); [discriminate|].
        destruct H as [H1 H2]. split; [|discriminate]. unfold due in *. cbn [ts_chunks ts_stack ts_args ts_buffer]. rewrite Es in H1. exact H1.
    - destruct (ts_stack st) eqn:Es; cbn [is_empty]; [|apply buffer_nodes; [congruence|exact H]].
      eapply post_bind; [apply post_map_err, scope_nodes|]. intros s2 Hs. apply post_ok, PC; [reflexivity|]. exact Hs.
  Qed.
  Lemma tloop_nodes d : forall st k, okt2 k st -> post (okt2 (k + nodes1 d)) (foldM (tstep p rec) st d).
  Proof.
    induction d as [|c d IH]; intros st k H; cbn [foldM].
    - apply post_ok. change (nodes1 []) with 0. rewrite Nat.add_0_r. exact H.
    - eapply post_bind; [apply (tstep_nodes st c k H)|]. intros st' H'. change (nodes1 (c :: d)) with (nodes_chunk1 c + nodes1 d). rewrite Nat.add_assoc. apply IH. exact H'.
  Qed.
End Run2.
Lemma convert_nodes p d d2 : try_from2 p d = Ok d2 -> nodes2 d2 <= nodes1 d.
Proof.
  unfold try_from2. generalize (S (size1 d)). intros n. revert d d2.
  enough (G : forall n d, post (fun d2 => nodes2 d2 <= nodes1 d) (try_from2_fuel n p d)) by (intros d d2; apply G).
  clear n. induction n as [|n IH]; intros d; cbn [try_from2_fuel]; [intros a E; discriminate|].
  eapply post_bind; [apply (tloop_nodes p _ IH d tinit 0); split; [reflexivity|reflexivity]|]. intros st [H _].
  unfold tfinish. destruct (last_opt (ts_stack st)); [apply post_err|]. apply post_ok. unfold due in H. blia.
Qed.

(** ** nothing is empty *)
Definition full (out : list chunk3) : Prop := forall es, within3 out es -> filled es.
Lemma full_intro out : filled out -> (forall l v inner, In (mkChunk3 l v) out -> inside3 v inner -> full inner) -> full out.
Proof. intros H1 H2 es W. destruct (within3_cases out es W) as [->|(l & v & inner & A & B & D)]; [exact H1|]. exact (H2 _ _ _ A B _ D). Qed.
Lemma full_inside out l v inner : full out -> In (mkChunk3 l v) out -> inside3 v inner -> full inner.
Proof. intros H Hi Hv es W. apply H. eapply within3_inside; eassumption. Qed.
Lemma full_app a b : full a -> full b -> full (a ++ b).
Proof.
  intros A B. apply full_intro.
  - intros l t. destruct (A a (w3_self _) l t), (B b (w3_self _) l t). split; intros Hi; apply in_app_or in Hi as [Hi|Hi]; auto.
  - intros l v inner Hi Hv. apply in_app_or in Hi as [Hi|Hi]; [exact (full_inside _ _ _ _ A Hi Hv)|exact (full_inside _ _ _ _ B Hi Hv)].
Qed.
Lemma full_sub a b : (forall c, In c a -> In c b) -> full b -> full a.
Proof.
  intros S B. apply full_intro.
  - intros l t. destruct (B b (w3_self _) l t). split; auto.
  - intros l v inner Hi Hv. exact (full_inside _ _ _ _ B (S _ Hi) Hv).
Qed.
Lemma full_nil : full [].
Proof. apply full_intro; [intros l t; split; intros []|intros l v inner []]. Qed.
Lemma full_text l t : t <> [] -> full [mkChunk3 l (Text3 t)].
Proof. intros H. apply full_intro; [intros l' t'; split; intros [E|[]]; [injection E as <- <-; exact H|discriminate]|]. intros l' v inner [E|[]] K. injection E as <- <-. inversion K. Qed.
Lemma full_break l t : t <> [] -> full [mkChunk3 l (ParagraphBreak3 t)].
Proof. intros H. apply full_intro; [intros l' t'; split; intros [E|[]]; [discriminate|injection E as <- <-; exact H]|]. intros l' v inner [E|[]] K. injection E as <- <-. inversion K. Qed.
Lemma full_one l v : (forall s, v <> Text3 s) -> (forall s, v <> ParagraphBreak3 s) -> (forall inner, inside3 v inner -> full inner) -> full [mkChunk3 l v].
Proof.
  intros H1 H2 H3. apply full_intro; [intros l' t; split; intros [E|[]]; injection E as _ E; [now elim (H1 t)|now elim (H2 t)]|].
  intros l' v' inner [E|[]] K. injection E as <- <-. apply H3, K.
Qed.
Definition okp (st : parstate) : Prop := full (pa_new st) /\ (pa_consec st <> 0%Z -> pa_buf st <> []).
Lemma snoc_not_nil {A} (a : list A) x : a ++ [x] <> [].
Proof. destruct a; discriminate. Qed.
Lemma full_snoc_text a l s : full a -> full (if negb (is_empty s) then a ++ [mkChunk3 l (Text3 s)] else a).
Proof. intros H. destruct s as [|x s]; cbn [is_empty negb]; [exact H|]. apply full_app; [exact H|]. apply full_text. discriminate. Qed.
Lemma par_step_full {E} p st c : okp st -> @post E _ okp (par_step p st c).
Proof.
  destruct st as [new line text tline buf bline consec]. intros [H1 H2]. cbn [pa_new pa_consec pa_buf] in *. unfold par_step.
  destruct (_ && _). { eapply post_bind; [apply post_any|intros z _]. eapply post_bind; [apply post_any|intros l _]. cbv zeta. apply post_ok. split; cbn [pa_new pa_buf]; [apply full_snoc_text, H1|intros _; apply snoc_not_nil]. }
  destruct (c =? c_newline)%N. { eapply post_bind; [apply post_any|intros z _]. eapply post_bind; [apply post_any|intros l _]. apply post_ok. split; cbn [pa_new pa_buf]; [exact H1|intros _; apply snoc_not_nil]. }
  destruct (is_whitespace c && (consec =? 0)%Z). { apply post_ok. split; [exact H1|exact H2]. }
  destruct (is_whitespace c). { apply post_ok. split; [exact H1|intros _; apply snoc_not_nil]. }
  destruct (Z.eqb_spec consec 0) as [->|Hc]. { apply post_ok. split; [exact H1|exact H2]. }
  destruct (consec =? 1)%Z. { apply post_ok. split; [exact H1|]. cbn [pa_consec]. congruence. }
  apply post_ok. split; cbn [pa_new pa_consec]; [|congruence]. apply full_app; [exact H1|]. apply full_break, H2, Hc.
Qed.
Lemma par_finish_full st : okp st -> full (par_finish st).
Proof.
  destruct st as [new line text tline buf bline consec]. intros [H1 H2]. cbn [pa_new pa_consec pa_buf] in *. cbn [par_finish].
  destruct buf as [|b buf]; cbn [is_empty negb].
  - destruct (negb (is_empty text)); [|exact H1]. apply full_snoc_text, H1.
  - destruct (consec >? 1)%Z; [apply full_app; [exact H1|apply full_break; discriminate]|]. cbv zeta. apply full_snoc_text, H1.
Qed.
Lemma par_full {E} p cs : full cs -> @post E _ full (paragraph_from_chunks p cs).
Proof.
  intros F. unfold paragraph_from_chunks. apply post_foldM; [|apply full_nil]. intros new c Hc Hn. destruct c as [l v].
  assert (G : full (new ++ [mkChunk3 l v])). { apply full_app; [exact Hn|]. apply (full_sub _ cs); [|exact F]. intros c [<-|[]]. exact Hc. }
  destruct v; try (apply post_ok; exact G). cbn [par_chunk]. eapply post_bind with (P := okp).
  - apply post_foldM; [intros st c _; apply par_step_full|]. split; cbn [pa_new pa_consec]; [exact Hn|congruence].
  - intros st Hs. apply post_ok, par_finish_full, Hs.
Qed.

Section Run3.
  Context (p : profile) (rec : list chunk2 -> outcome error (list chunk3)).
  Hypothesis HR : forall cs, post full (rec cs).
  Lemma scope_full s : post (fun s' => full (match s' with mkScope3 cs _ => cs end)) (scope3_try_from p rec s).
  Proof. unfold scope3_try_from. destruct s as [cs v]. eapply post_bind; [apply HR|]. intros o H. eapply post_bind; [apply par_full, H|]. intros o' H'. apply post_ok. exact H'. Qed.
  Lemma args_full args : post (fun args' => forall pre cs v, In (pre, mkScope3 cs v) args' -> full cs) (args3_try_from p rec args).
  Proof.
    unfold args3_try_from. induction args as [|[pr s] args IH]; cbn [mapM]; [apply post_ok; intros ? ? ? []|].
    eapply post_bind with (P := fun a => match a with (_, mkScope3 cs _) => full cs end).
    { eapply post_bind; [apply scope_full|]. intros [cs v] H. apply post_ok. exact H. }
    intros [pr' [cs' v']] H. eapply post_bind; [exact IH|]. intros args' H'. apply post_ok. intros pre cs v [E|Hi]; [injection E as <- <- <-; exact H|exact (H' _ _ _ Hi)].
  Qed.
  Lemma env_full e : post (fun e' => forall inner, inside3 (Environment3 e') inner -> full inner) (env3_try_from p rec e).
  Proof.
    unfold env3_try_from. destruct e as [lab args content pb pe]. eapply post_bind; [apply args_full|]. intros args' Ha.
    eapply post_bind; [apply HR|]. intros o H. eapply post_bind; [apply par_full, H|]. intros o' H'. apply post_ok. intros inner K. inversion K; subst; [eapply Ha; eassumption|exact H'].
  Qed.
  Definition okm (st : mstate) : Prop := full (ms_out st).
  Lemma push_str_full m : okm (mt_st m) -> okm (mt_st (mt_push_str m)).
  Proof. unfold mt_push_str, okm. intros H. pose proof (full_snoc_text (ms_out (mt_st m)) (mt_line m) (mt_text m) H) as K. destruct (negb _); exact K. Qed.
  Lemma close_full m t : okm (mt_st m) -> post (fun m => okm (mt_st m)) (mt_close p rec m t).
  Proof.
    intros H. unfold mt_close. cbv zeta. eapply post_bind; [apply post_any|intros sh _]. eapply post_bind; [apply HR|]. intros co Hc. apply post_ok.
    apply full_app; [exact H|]. apply full_one; [discriminate|discriminate|]. intros inner K. inversion K; subst. exact Hc.
  Qed.
  Lemma mt_step_full m c : okm (mt_st m) -> post (fun m => okm (mt_st m)) (mt_step p rec m c).
  Proof.
    intros H. unfold mt_step. eapply post_bind with (P := fun m => okm (mt_st m)).
    { destruct (c =? c_newline)%N; [eapply post_bind; [apply post_any|intros l _]|]; apply post_ok; exact H. }
    intros m1 H1. destruct (c =? c_dollar)%N; [|apply post_ok; exact H1].
    destruct (ms_mode (mt_st m1)) as [[|]|[|]| |]; try (apply post_ok; exact H1); try (apply close_full; exact H1).
    - destruct (_ && _); [apply post_ok; exact H1|apply close_full; exact H1].
    - cbv zeta. apply post_ok. exact (push_str_full _ H1).
  Qed.
  Lemma m_step_full st c : okm st -> post okm (m_step p rec st c).
  Proof.
    intros H. unfold m_step. destruct c as [l v].
    assert (PO : forall l v, (forall s, v <> Text3 s) -> (forall s, v <> ParagraphBreak3 s) -> (forall inner, inside3 v inner -> full inner) -> okm (m_push_out st (mkChunk3 l v))).
    { intros l0 v0 A B K. apply full_app; [exact H|]. now apply full_one. }
    assert (CB : forall t, post okm (m_close_brackets rec st t)).
    { intros t. unfold m_close_brackets. eapply post_bind; [apply HR|]. intros co Hk. apply post_ok.
      apply full_app; [exact H|]. apply full_one; [discriminate|discriminate|]. intros inner K. inversion K; subst. exact Hk. }
    destruct v as [s|c|s|e]; cbv zeta.
    - destruct (negb _); [|apply post_ok; exact H]. unfold m_text. eapply post_bind with (P := fun m => okm (mt_st m)).
      + apply post_foldM; [|exact H]. intros m c _ Hm. apply mt_step_full, Hm.
      + intros m Hm. apply post_ok. apply (push_str_full m Hm).
    - repeat match goal with |- context [if ?b then _ else _] => destruct b end;
        try apply post_err; try apply CB; try (apply post_ok; exact H); try (eapply post_bind; [apply post_any|intros d _; apply post_ok; exact H]).
      destruct c as [lab args]. unfold command3_try_from. eapply post_bind with (P := fun c => forall inner, inside3 (Command3 c) inner -> full inner).
      + eapply post_bind; [apply args_full|]. intros args' Ha. apply post_ok. intros inner K. inversion K; subst. eapply Ha. eassumption.
      + intros c Hk. apply post_ok, PO; [discriminate|discriminate|exact Hk].
    - destruct (is_none _); [|apply post_ok; exact H]. eapply post_bind; [apply scope_full|]. intros [cs v] Hs. apply post_ok, PO; [discriminate|discriminate|].
      intros inner K. inversion K; subst. exact Hs.
    - destruct (is_none _); [|apply post_ok; exact H]. eapply post_bind; [apply env_full|]. intros e' Hs. apply post_ok, PO; [discriminate|discriminate|exact Hs].
  Qed.
End Run3.
Lemma maths_fuel_full p n : forall cs, post full (maths_fuel n p cs).
Proof.
  induction n as [|n IH]; intros cs; cbn [maths_fuel]; [intros a H; discriminate|].
  eapply post_bind with (P := okm).
  - apply post_foldM; [|apply full_nil]. intros st c _ Hs. apply (m_step_full p _ IH _ c Hs).
  - intros st H. unfold m_finish. destruct (negb _); [apply post_err|]. apply par_full, H.
Qed.
(** ** documents *)
Lemma document_full p d : post (fun d3 => (forall sec, full (get_section sec d3)) /\ forall pre cs v, In (pre, mkScope3 cs v) (d_body_args d3) -> full cs) (try_from3 p d).
Proof.
  unfold try_from3. eapply post_bind with (P := fun st => full (d_body (ds_construct st)) /\ forall pre cs v, In (pre, mkScope3 cs v) (d_body_args (ds_construct st)) -> full cs).
  - apply post_foldM; [|split; [apply full_nil|intros ? ? ? []]]. intros st [l v] _ H.
    assert (PO : post (fun st => full (d_body (ds_construct st)) /\ forall pre cs v, In (pre, mkScope3 cs v) (d_body_args (ds_construct st)) -> full cs) (@Ok error _ (d_push_other st (mkChunk2 l v)))).
    { apply post_ok. unfold d_push_other. destruct (negb _); exact H. }
    unfold d_step. destruct v as [s|c|s|e]; try exact PO.
    + destruct (_ && _); [|exact PO]. cbv zeta. destruct (d_class _); [apply post_err|]. eapply post_bind; [apply post_any|]. intros co _. apply post_ok. exact H.
    + destruct (str_eqb _ _); [|exact PO]. eapply post_bind; [apply env_full; intros cs; apply maths_fuel_full|]. intros [lab args content pb pe] He. apply post_ok.
      cbn [ds_construct d_body d_body_args]. split; [apply He, in3_env|]. intros pre cs v Hi. apply He. eapply in3_env_arg. exact Hi.
  - intros st [H1 H2]. cbv zeta. eapply post_bind; [apply maths_fuel_full|]. intros pre P1. eapply post_bind; [apply par_full, P1|]. intros pre' P2.
    eapply post_bind; [apply maths_fuel_full|]. intros tr P3. eapply post_bind; [apply par_full, P3|]. intros tr' P4. apply post_ok.
    split; [|exact H2]. intros []; cbn [get_section d_preamable d_body d_trailing]; assumption.
Qed.
Definition dlen (st : dstate) : nat :=
  length (show2 (ds_pre st)) + length (show2 (ds_trail st)) + length (show_chunks3 (d_body (ds_construct st))) + length (show_args3 (d_body_args (ds_construct st))).
Lemma env_length p l e e3 : small (show2 [mkChunk2 l (Environment2 e)]) -> env3_try_from p (maths_from_chunks p) e = Ok e3 ->
  length (show_env3 e3) <= length (show_env2 e).
Proof.
  intros S H. apply (maths_single_env p l) in H. apply maths_not_longer in H; [|exact S].
  unfold show_chunks3, show2 in H. cbn [map concat] in H. rewrite !app_nil_r in H. exact H.
Qed.
Lemma show2_snoc a c : show2 (a ++ [c]) = show2 a ++ show_chunk2 c.
Proof. unfold show2. rewrite map_app, concat_app. cbn [map concat]. rewrite app_nil_r. reflexivity. Qed.
Lemma d_step_length p st c k : small (show2 [c]) -> dlen st <= k -> post (fun st' => dlen st' <= k + length (show_chunk2 c)) (d_step p st c).
Proof.
  intros S H. destruct c as [l v].
  assert (PP : forall c', ds_pre c' = ds_pre st -> ds_trail c' = ds_trail st -> d_body (ds_construct c') = d_body (ds_construct st) -> d_body_args (ds_construct c') = d_body_args (ds_construct st) ->
    dlen (d_push_pre c' (mkChunk2 l v)) <= k + length (show_chunk2 (mkChunk2 l v))).
  { intros c' E1 E2 E3 E4. unfold dlen in *. cbn [d_push_pre ds_pre ds_trail ds_construct]. rewrite E1, E2, E3, E4, show2_snoc, app_length. lia. }
  assert (PO : @post error _ (fun st' => dlen st' <= k + length (show_chunk2 (mkChunk2 l v))) (Ok (d_push_other st (mkChunk2 l v)))).
  { apply post_ok. unfold d_push_other. destruct (negb _); [now apply PP|]. unfold dlen in *. cbn [ds_pre ds_trail ds_construct]. rewrite show2_snoc, app_length. lia. }
  unfold d_step. destruct v as [s|c|s|e]; try exact PO.
  - destruct (_ && _); [|exact PO]. cbv zeta. destruct (d_class _); [apply post_err|]. eapply post_bind; [apply post_any|]. intros co _. apply post_ok. now apply PP.
  - destruct (str_eqb _ _); [|exact PO]. eapply post_bind; [intros e3 He; exact (env_length p l e e3 S He)|]. intros [lab args content pb pe] He. apply post_ok.
    cbv beta in He. unfold dlen in *. cbn [ds_pre ds_trail ds_construct d_body d_body_args].
    change (length (show_chunk2 (mkChunk2 l (Environment2 e)))) with (length (show_env2 e)).
    enough (length (show_args3 args) + length (show_chunks3 content) <= length (show_env3 (mkEnv3 lab args content pb pe))) by lia.
    change (show_env3 (mkEnv3 lab args content pb pe)) with ((c_bslash :: s_begin) ++ pb ++ [c_lcurly] ++ lab ++ [c_rcurly] ++ show_args3 args ++ show_chunks3 content ++ (c_bslash :: s_end) ++ pe ++ [c_lcurly] ++ lab ++ [c_rcurly]).
    rewrite !app_length. lia.
Qed.
Lemma small_cons c d : small (show2 (c :: d)) -> small (show2 [c]) /\ small (show2 d).
Proof. intros H. change (c :: d) with ([c] ++ d) in H. rewrite show2_app in H. apply small_app in H as [H1 H2]. split; assumption. Qed.
Lemma document_length p d d3 : small (show2 d) -> try_from3 p d = Ok d3 ->
  length (show_chunks3 (d_preamable d3)) + length (show_chunks3 (d_body d3)) + length (show_chunks3 (d_trailing d3)) + length (show_args3 (d_body_args d3)) <= length (show2 d).
Proof.
  intros S. rewrite try_from3_sections.
  assert (G : forall d st k, small (show2 d) -> dlen st <= k -> small (show2 (ds_pre st)) -> small (show2 (ds_trail st)) ->
    (nl (show2 (ds_pre st)) + nl (show2 (ds_trail st)) + nl (show2 d) < 2147483648)%N ->
    post (fun st' => dlen st' <= k + length (show2 d) /\ small (show2 (ds_pre st')) /\ small (show2 (ds_trail st'))) (foldM (d_step p) st d)).
  { clear. induction d as [|c d IH]; intros st k S H Sp St Sb; cbn [foldM]; [apply post_ok; unfold show2; cbn; split; [lia|split; assumption]|].
    apply small_cons in S as [S1 S2]. intros st2 E. destruct (d_step p st c) as [st1|e| |] eqn:E1; cbn [bind] in E; try discriminate.
    pose proof (d_step_length p st c k S1 H _ E1) as H1. cbv beta in H1.
    assert (N1 : (nl (show2 (ds_pre st1)) + nl (show2 (ds_trail st1)) + nl (show2 d) < 2147483648)%N).
    { assert (M : (nl (show2 (ds_pre st1)) + nl (show2 (ds_trail st1)) <= nl (show2 (ds_pre st)) + nl (show2 (ds_trail st)) + nl (show_chunk2 c))%N).
      { clear - E1. unfold d_step in E1. destruct c as [l v].
        assert (PO : forall st1, Ok (d_push_other st (mkChunk2 l v)) = @Ok error _ st1 -> (nl (show2 (ds_pre st1)) + nl (show2 (ds_trail st1)) <= nl (show2 (ds_pre st)) + nl (show2 (ds_trail st)) + nl (show_chunk2 (mkChunk2 l v)))%N).
        { intros st' E. injection E as <-. unfold d_push_other. destruct (negb _); cbn [d_push_pre ds_pre ds_trail]; rewrite show2_snoc, nl_app; lia. }
        destruct v as [s|c|s|e]; try (apply PO; exact E1).
        - destruct (_ && _); [|apply PO; exact E1]. cbv zeta in E1. destruct (d_class _); [discriminate|]. destruct (foldM _ _ (arguments2 c)); cbn [bind] in E1; try discriminate.
          injection E1 as <-. cbn [d_push_pre ds_pre ds_trail]. rewrite show2_snoc, nl_app. lia.
        - destruct (str_eqb _ _); [|apply PO; exact E1]. destruct (env3_try_from _ _ _) as [[]|e'| |]; cbn [bind] in E1; try discriminate. injection E1 as <-. cbn [ds_pre ds_trail]. lia. }
      change (c :: d) with ([c] ++ d) in Sb. rewrite show2_app, nl_app in Sb. unfold show2 at 3 in Sb. cbn [map concat] in Sb. rewrite app_nil_r in Sb. lia. }
    specialize (IH st1 (k + length (show_chunk2 c)) S2 H1 ltac:(unfold small; lia) ltac:(unfold small; lia) N1 st2 E). cbv beta in IH.
    replace (k + length (show2 (c :: d))) with (k + length (show_chunk2 c) + length (show2 d)); [exact IH|].
    change (show2 (c :: d)) with (show_chunk2 c ++ show2 d). rewrite app_length. lia. }
  intros H. destruct (foldM (d_step p) dinit d) as [st|e| |] eqn:E; cbn [bind] in H; try discriminate.
  specialize (G d dinit 0 S ltac:(reflexivity) ltac:(reflexivity) ltac:(reflexivity) ltac:(exact S) st E) as (G1 & G2 & G3).
  apply sections_show in H; [|exact G2|exact G3]. destruct H as (o & o2 & M1 & M2 & Sh1 & Sh2 & B1 & B2 & _ & _).
  apply maths_not_longer in M1; [|exact G2]. apply maths_not_longer in M2; [|exact G3]. rewrite Sh1, Sh2, B1, B2. unfold dlen in G1. cbn [Nat.add] in G1. lia.
Qed.
Lemma document_nodes p d d3 : try_from3 p d = Ok d3 ->
  document_nodes3 d3 <= length (show_chunks3 (d_preamable d3)) + length (show_args3 (d_body_args d3)) + length (show_chunks3 (d_body d3)) + length (show_chunks3 (d_trailing d3)).
Proof.
  intros H. destruct (document_full p d d3 H) as [F1 F2].
  assert (N : forall sec, nodes3 (get_section sec d3) <= length (show_chunks3 (get_section sec d3))) by (intros sec; apply (nodes3_show _ _ (le_n _)), F1).
  assert (A : list_sum (map (fun a => match a with (_, sc) => nodes_scope3 sc end) (d_body_args d3)) <= length (show_args3 (d_body_args d3))).
  { apply sum_concat. intros [pre [cs v]] Hi. change (S (nodes3 cs) <= length (pre ++ open3 v :: show_chunks3 cs ++ [close3 v])).
    rewrite app_length. cbn [length]. rewrite app_length. pose proof (nodes3_show _ cs (le_n _) (F2 _ _ _ Hi)). lia. }
  unfold document_nodes3. pose proof (N Preamable). pose proof (N Body). pose proof (N Trailing). cbn [get_section] in *. lia.
Qed.
