(** * Depth3b: maths blocks multiply the depth by four at most *)
From Verif Require Import Base Ast1 Parse1 Ast2 Ast3 SpecDoc1 SpecDoc3 SpecMaths3 SpecDepth SpecChain Depth0 Depth3.
From Coq Require Import Lia Arith.
Open Scope nat_scope.

(** the depth without maths blocks *)
Fixpoint bare_chunk (c : chunk3) : nat :=
  match c with
  | mkChunk3 _ (Text3 _) => 0
  | mkChunk3 _ (ParagraphBreak3 _) => 0
  | mkChunk3 _ (Maths3 m) => bare_maths m
  | mkChunk3 _ (Command3 c) => bare_command c
  | mkChunk3 _ (Scope3 sc) => bare_scope sc
  | mkChunk3 _ (Environment3 e) => bare_env e
  end
with bare_command (c : command3) : nat :=
  match c with mkCommand3 _ args => list_max (map (fun a => match a with (_, sc) => bare_scope sc end) args) end
with bare_scope (sc : scope3) : nat :=
  match sc with mkScope3 cs _ => S (list_max (map bare_chunk cs)) end
with bare_env (e : environment3) : nat :=
  match e with
  | mkEnv3 _ args content _ _ =>
      Nat.max (list_max (map (fun a => match a with (_, sc) => bare_scope sc end) args))
              (S (list_max (map bare_chunk content)))
  end
with bare_maths (m : maths3) : nat :=
  match m with mkMaths3 _ _ content => list_max (map bare_chunk content) end.
Definition bare (d : list chunk3) : nat := list_max (map bare_chunk d).
Definition bare_args (args : list (str * scope3)) : nat := list_max (map (fun a => match a with (_, sc) => bare_scope sc end) args).

Lemma bare_app a b : bare (a ++ b) = Nat.max (bare a) (bare b).
Proof. apply list_max_map_app. Qed.
Lemma bare_one c : bare [c] = bare_chunk c.
Proof. unfold bare. cbn [map list_max fold_right]. lia. Qed.

Ltac blia := cbv beta in *; lia.
Definition post {E A} (P : A -> Prop) (x : outcome E A) : Prop := forall a, x = Ok a -> P a.
Lemma post_ok {E A} (P : A -> Prop) a : P a -> post (E:=E) P (Ok a).
Proof. intros H b [= <-]. exact H. Qed.
Lemma post_err {E A} (P : A -> Prop) e : post (E:=E) P (Err e).
Proof. intros b H. discriminate. Qed.
Lemma post_bind {E A B} (P : A -> Prop) (Q : B -> Prop) (x : outcome E A) f : post P x -> (forall a, P a -> post Q (f a)) -> post Q (bind x f).
Proof. intros H K b. destruct x as [a|e| |]; cbn [bind]; try discriminate. apply K. exact (H a eq_refl). Qed.
Lemma post_any {E A} (x : outcome E A) : post (fun _ => True) x.
Proof. intros a _. exact I. Qed.
Lemma post_foldM {E A S} (P : S -> Prop) (f : S -> A -> outcome E S) l :
  (forall st x, In x l -> P st -> post P (f st x)) -> forall st, P st -> post P (foldM f st l).
Proof.
  induction l as [|x l IH]; intros H st Hs; cbn [foldM]; [apply post_ok, Hs|].
  eapply post_bind; [apply H; [left; reflexivity|exact Hs]|]. intros st' Hs'. apply IH; [|exact Hs']. intros s y Hy. apply H. right. exact Hy.
Qed.

Lemma par_step_bare {E} p st c st' : @par_step E p st c = Ok st' -> bare (pa_new st') <= bare (pa_new st).
Proof.
  revert st'. change (post (fun st' => bare (pa_new st') <= bare (pa_new st)) (@par_step E p st c)).
  assert (T : forall a l s, bare (a ++ [mkChunk3 l (Text3 s)]) <= bare a) by (intros; rewrite bare_app, bare_one; cbn [bare_chunk]; blia).
  assert (B : forall a l s, bare (a ++ [mkChunk3 l (ParagraphBreak3 s)]) <= bare a) by (intros; rewrite bare_app, bare_one; cbn [bare_chunk]; blia).
  destruct st as [new line text tline buf bline consec]. unfold par_step. cbn [pa_new].
  destruct (_ && _). { eapply post_bind; [apply post_any|intros z _]. eapply post_bind; [apply post_any|intros l _]. cbv zeta. apply post_ok. cbn [pa_new]. destruct (negb _); [apply T|reflexivity]. }
  destruct (c =? c_newline)%N. { eapply post_bind; [apply post_any|intros z _]. eapply post_bind; [apply post_any|intros l _]. apply post_ok. reflexivity. }
  repeat match goal with |- context [if ?b then Ok _ else _] => destruct b end; apply post_ok; cbn [pa_new]; try reflexivity. apply B.
Qed.
Lemma par_finish_bare st : bare (par_finish st) <= bare (pa_new st).
Proof.
  destruct st as [new line text tline buf bline consec]. cbn [par_finish pa_new].
  repeat match goal with |- context [if ?b then _ else _] => destruct b end; rewrite ?bare_app, ?bare_one; cbn [bare_chunk]; blia.
Qed.
Lemma par_bare {E} p cs : @post E _ (fun out => bare out <= bare cs) (paragraph_from_chunks p cs).
Proof.
  unfold paragraph_from_chunks. apply (post_foldM (fun out => bare out <= bare cs)); [|unfold bare at 1; cbn; blia].
  intros new c Hc Hn.
  assert (K : bare_chunk c <= bare cs).
  { unfold bare. apply (in_map bare_chunk) in Hc. pose proof (proj1 (list_max_le (map bare_chunk cs) _) (le_n _)) as F. rewrite Forall_forall in F. exact (F _ Hc). }
  destruct c as [l v]. destruct v as [s| | | | |]; try (apply post_ok; rewrite bare_app, bare_one; blia). cbn [par_chunk].
  eapply post_bind with (P := fun st => bare (pa_new st) <= bare cs).
  - apply post_foldM; [|exact Hn]. intros st c _ Hs st' E'. apply par_step_bare in E'. blia.
  - intros st Hs. apply post_ok. pose proof (par_finish_bare st). blia.
Qed.

Section Run.
  Context (p : profile) (rec : list chunk2 -> outcome error (list chunk3)).
  Hypothesis HR : forall cs, post (fun out => bare out <= depth2 cs) (rec cs).
  Lemma depth2_app' a b : depth2 (a ++ b) = Nat.max (depth2 a) (depth2 b).
  Proof. apply list_max_map_app. Qed.
  Lemma depth2_one c : depth2 [c] = depth_chunk2 c.
  Proof. unfold depth2. cbn [map list_max fold_right]. blia. Qed.
  Lemma bare_scope_post s : post (fun s' => bare_scope s' <= depth_scope2 s) (scope3_try_from p rec s).
  Proof.
    unfold scope3_try_from. destruct s as [cs v]. eapply post_bind; [apply HR|]. intros o H. eapply post_bind; [apply par_bare|]. intros o' H'.
    apply post_ok. change (S (bare o') <= S (depth2 cs)). blia.
  Qed.
  Lemma bare_args_post args : post (fun args' => bare_args args' <= list_max (map (fun a => match a with (_, sc) => depth_scope2 sc end) args)) (args3_try_from p rec args).
  Proof.
    unfold args3_try_from. induction args as [|[pr s] args IH]; cbn [mapM]; [apply post_ok; reflexivity|].
    eapply post_bind with (P := fun a => match a with (_, s') => bare_scope s' <= depth_scope2 s end).
    { eapply post_bind; [apply bare_scope_post|]. intros s' H. apply post_ok. exact H. }
    intros [pr' s'] H. eapply post_bind; [exact IH|]. intros args' H'. apply post_ok. change (Nat.max (bare_scope s') (bare_args args') <= Nat.max (depth_scope2 s) (list_max (map (fun a => match a with (_, sc) => depth_scope2 sc end) args))). blia.
  Qed.
  Lemma bare_env_post e : post (fun e' => bare_env e' <= depth_env2 e) (env3_try_from p rec e).
  Proof.
    unfold env3_try_from. destruct e as [lab args content pb pe]. eapply post_bind; [apply bare_args_post|]. intros args' Ha.
    eapply post_bind; [apply HR|]. intros o H. eapply post_bind; [apply par_bare|]. intros o' H'. apply post_ok.
    change (Nat.max (bare_args args') (S (bare o')) <= Nat.max (list_max (map (fun a => match a with (_, sc) => depth_scope2 sc end) args)) (S (depth2 content))). blia.
  Qed.
  Context (K : nat).
  Definition ok (st : mstate) : Prop := bare (ms_out st) <= K /\ depth2 (ms_buffer st) <= K.
  Definition okt (m : mtext) : Prop := ok (mt_st m).
  Lemma push_str_ok m : okt m -> okt (mt_push_str m).
  Proof.
    unfold mt_push_str, okt, ok. destruct (negb _); [|tauto]. cbn [mt_st m_push_out ms_out ms_buffer]. rewrite bare_app, bare_one. cbn [bare_chunk]. blia.
  Qed.
  Lemma close_ok m t : okt m -> post okt (mt_close p rec m t).
  Proof.
    intros [H1 H2]. unfold mt_close. cbv zeta. set (b := if negb (is_empty (mt_text m)) then _ else _).
    assert (Hb : depth2 b <= K). { unfold b. destruct (negb _); [|exact H2]. rewrite depth2_app', depth2_one. cbn [depth_chunk2]. blia. }
    eapply post_bind with (P := fun sh => depth2 sh <= K).
    - clearbody b. revert Hb. induction b as [|[l v] b IH]; intros Hb; cbn [mapM]; [apply post_ok; exact Hb|].
      change (mkChunk2 l v :: b) with ([mkChunk2 l v] ++ b) in Hb. rewrite depth2_app', depth2_one in Hb.
      eapply post_bind with (P := fun c => depth_chunk2 c <= K).
      + eapply post_bind; [apply post_any|intros o _]. eapply post_bind; [apply post_any|intros l' _]. apply post_ok.
        destruct v; cbn [depth_chunk2] in *; blia.
      + intros c Hc. eapply post_bind; [apply IH; blia|]. intros sh Hs. apply post_ok. change (c :: sh) with ([c] ++ sh). rewrite depth2_app', depth2_one. blia.
    - intros sh Hs. eapply post_bind; [apply HR|]. intros co Hc. apply post_ok. split; cbn [mt_st ms_out ms_buffer].
      + rewrite bare_app, bare_one. cbn [bare_chunk bare_maths]. fold (bare co). blia.
      + unfold depth2. cbn. blia.
  Qed.
  Lemma mt_step_ok m c : okt m -> post okt (mt_step p rec m c).
  Proof.
    intros H. unfold mt_step. eapply post_bind with (P := okt).
    { destruct (c =? c_newline)%N; [eapply post_bind; [apply post_any|intros l _]|]; apply post_ok; exact H. }
    intros m1 H1. destruct (c =? c_dollar)%N; [|apply post_ok; exact H1].
    destruct (ms_mode (mt_st m1)) as [[|]|[|]| |]; try (apply post_ok; exact H1); try (apply close_ok; exact H1).
    - destruct (_ && _); [apply post_ok; exact H1|apply close_ok; exact H1].
    - cbv zeta. apply post_ok. exact (push_str_ok _ H1).
  Qed.
  Lemma m_step_ok st c : depth_chunk2 c <= K -> ok st -> post ok (m_step p rec st c).
  Proof.
    intros Hc H. unfold m_step. destruct c as [l v].
    assert (PB : ok (m_push_buffer st (mkChunk2 l v))).
    { destruct H as [H1 H2]. split; cbn [m_push_buffer ms_out ms_buffer]; [exact H1|]. rewrite depth2_app', depth2_one. blia. }
    assert (PO : forall c, bare_chunk c <= K -> ok (m_push_out st c)).
    { intros c Hk. destruct H as [H1 H2]. split; cbn [m_push_out ms_out ms_buffer]; [|exact H2]. rewrite bare_app, bare_one. blia. }
    assert (CB : forall t, post ok (m_close_brackets rec st t)).
    { intros t. unfold m_close_brackets. destruct H as [H1 H2]. eapply post_bind; [apply HR|]. intros co Hk. apply post_ok. split; cbn [ms_out ms_buffer].
      - rewrite bare_app, bare_one. cbn [bare_chunk bare_maths]. fold (bare co). blia.
      - unfold depth2. cbn. blia. }
    destruct v as [s|c|s|e]; cbv zeta.
    - destruct (negb _); [|apply post_ok, PB]. unfold m_text. eapply post_bind with (P := okt).
      + apply post_foldM; [|exact H]. intros m c _ Hm. apply mt_step_ok, Hm.
      + intros m Hm. apply post_ok. apply (push_str_ok m Hm).
    - repeat match goal with |- context [if ?b then _ else _] => destruct b end;
        try apply post_err; try apply CB; try (apply post_ok; first [exact H|exact PB]); try (eapply post_bind; [apply post_any|intros d _; apply post_ok; exact H]).
      destruct c as [lab args]. unfold command3_try_from. eapply post_bind with (P := fun c => bare_command c <= K).
      + eapply post_bind; [apply bare_args_post|]. intros args' Ha. apply post_ok. cbn [bare_command]. fold (bare_args args'). cbn [depth_chunk2 depth_command2] in Hc. blia.
      + intros c Hk. apply post_ok, PO. exact Hk.
    - destruct (is_none _); [|apply post_ok, PB]. eapply post_bind; [apply bare_scope_post|]. intros s' Hs. apply post_ok, PO. cbn [bare_chunk depth_chunk2] in *. blia.
    - destruct (is_none _); [|apply post_ok, PB]. eapply post_bind; [apply bare_env_post|]. intros s' Hs. apply post_ok, PO. cbn [bare_chunk depth_chunk2] in *. blia.
  Qed.
End Run.
Lemma in_list_max {A} (f : A -> nat) x l : In x l -> f x <= list_max (map f l).
Proof.
  intros H. pose proof (proj1 (list_max_le (map f l) _) (le_n _)) as F. rewrite Forall_forall in F. apply F, in_map, H.
Qed.
Lemma maths_fuel_bare p n : forall cs, post (fun out => bare out <= depth2 cs) (maths_fuel n p cs).
Proof.
  induction n as [|n IH]; intros cs; cbn [maths_fuel]; [intros a H; discriminate|].
  eapply post_bind with (P := ok (depth2 cs)).
  - apply post_foldM; [|split; unfold bare, depth2; cbn; blia]. intros st c Hc Hs. apply (m_step_ok p _ IH _ st c); [|exact Hs].
    exact (in_list_max depth_chunk2 c cs Hc).
  - intros st [H _]. unfold m_finish. destruct (negb _); [apply post_err|]. intros out E. apply par_bare in E. blia.
Qed.
Lemma maths_bare p cs out : maths_from_chunks p cs = Ok out -> bare out <= depth2 cs.
Proof. apply maths_fuel_bare. Qed.

(** ** maths blocks directly inside each other add three at most *)
Lemma list_max_bound {A} (f : A -> nat) l n : (forall x, In x l -> f x <= n) -> list_max (map f l) <= n.
Proof. intros H. apply list_max_le, Forall_forall. intros y Hy. apply in_map_iff in Hy as [x [<- Hx]]. apply H, Hx. Qed.
Lemma within3_trans a b c : within3 a b -> within3 b c -> within3 a c.
Proof. intros H K. induction K; [exact H|eapply w3_scope|eapply w3_arg|eapply w3_env_arg|eapply w3_env|eapply w3_maths]; eassumption. Qed.
Lemma chains_depth k : forall cs j, depth3 cs <= k -> (forall es ks, within3 cs es -> chain es ks -> length ks <= 3) ->
  (forall ks, chain cs ks -> length ks <= j) -> depth3 cs <= 4 * bare cs + j.
Proof.
  induction k as [|k IH]; intros cs j Hk Hw Hj; [blia|].
  assert (IN : forall inner, within3 cs inner -> depth3 inner <= k -> depth3 inner <= 4 * bare inner + 3).
  { intros inner Hi Hd. apply IH; [exact Hd| |].
    - intros es ks He. apply Hw. exact (within3_trans _ _ _ Hi He).
    - intros ks. apply Hw, Hi. }
  assert (AR : forall args, (forall pre inner v, In (pre, mkScope3 inner v) args -> within3 cs inner) -> depth_args3 args <= S k -> depth_args3 args <= 4 * bare_args args).
  { intros args Hi Hd. unfold depth_args3 at 1. apply list_max_bound. intros [pre [inner v]] Ha.
    pose proof (in_list_max (fun a => match a with (_, sc) => depth_scope3 sc end) _ _ Ha) as D1.
    pose proof (in_list_max (fun a => match a with (_, sc) => bare_scope sc end) _ _ Ha) as D2.
    cbn [depth_scope3 bare_scope] in *. unfold depth_args3 in Hd. fold (depth3 inner) in D1 |- *. fold (bare inner) (bare_args args) in D2.
    specialize (IN inner (Hi _ _ _ Ha) ltac:(blia)). blia. }
  unfold depth3. apply list_max_bound. intros [l v] Hc.
  pose proof (in_list_max depth_chunk3 _ _ Hc) as D1. pose proof (in_list_max bare_chunk _ _ Hc) as D2. fold (depth3 cs) in D1. fold (bare cs) in D2.
  destruct v as [s|w|[mv mt content]|[lab args]|[inner v]|[lab args content pb pe]]; cbn [depth_chunk3 bare_chunk depth_command3 bare_command depth_scope3 bare_scope depth_env3 bare_env depth_maths3 bare_maths] in *; try blia.
  - fold (depth3 content) in *. fold (bare content) in D2.
    destruct j as [|j]; [specialize (Hj [kind_of mv mt] (chain_in _ _ _ _ _ _ Hc (chain_end _))); cbn [length] in Hj; blia|].
    assert (within3 cs content) as W by (eapply w3_maths; [apply w3_self|exact Hc]).
    enough (depth3 content <= 4 * bare content + j) by blia. apply IH; [blia| |].
    + intros es ks He. apply Hw. exact (within3_trans _ _ _ W He).
    + intros ks Hks. specialize (Hj _ (chain_in _ _ _ _ _ _ Hc Hks)). cbn [length] in Hj. blia.
  - specialize (AR args). fold (depth_args3 args) in *. fold (bare_args args) in D2.
    enough (depth_args3 args <= 4 * bare_args args) by blia. apply AR; [|blia]. intros pre inner v Ha. eapply w3_arg; [apply w3_self|exact Hc|exact Ha].
  - fold (depth3 inner) in *. fold (bare inner) in D2. specialize (IN inner ltac:(eapply w3_scope; [apply w3_self|exact Hc]) ltac:(blia)). blia.
  - fold (depth3 content) in *. fold (bare content) in D2. fold (depth_args3 args) in *. fold (bare_args args) in D2.
    specialize (IN content ltac:(eapply w3_env; [apply w3_self|exact Hc]) ltac:(blia)).
    specialize (AR args ltac:(intros pre inner v Ha; eapply w3_env_arg; [apply w3_self|exact Hc|exact Ha]) ltac:(blia)). blia.
Qed.

(** ** documents *)
Section Doc.
  Context (p : profile) (K : nat).
  Definition okd (st : dstate) : Prop :=
    bare (d_body (ds_construct st)) <= K /\ bare_args (d_body_args (ds_construct st)) <= K /\ depth2 (ds_pre st) <= K /\ depth2 (ds_trail st) <= K.
  Lemma d_step_ok st c : depth_chunk2 c <= K -> okd st -> post okd (d_step p st c).
  Proof.
    intros Hc H. unfold d_step. destruct c as [l v].
    assert (PP : okd (d_push_pre st (mkChunk2 l v))).
    { destruct H as (H1 & H2 & H3 & H4). repeat split; cbn [d_push_pre ds_construct ds_pre ds_trail]; try assumption. rewrite depth2_app', depth2_one. blia. }
    assert (PO : okd (d_push_other st (mkChunk2 l v))).
    { unfold d_push_other. destruct (negb _); [exact PP|]. destruct H as (H1 & H2 & H3 & H4). repeat split; cbn [ds_construct ds_pre ds_trail]; try assumption. rewrite depth2_app', depth2_one. blia. }
    destruct v as [s|c|s|e]; try (apply post_ok, PO).
    - destruct (_ && _); [|apply post_ok, PO]. cbv zeta. destruct (d_class _); [apply post_err|]. eapply post_bind; [apply post_any|]. intros co _. apply post_ok. exact PP.
    - destruct (str_eqb _ _); [|apply post_ok, PO]. eapply post_bind; [apply bare_env_post; intros cs; apply maths_fuel_bare|]. intros [lab args content pb pe] He. cbv beta in He.
      change (Nat.max (bare_args args) (S (bare content)) <= depth_env2 e) in He. cbn [depth_chunk2] in Hc.
      apply post_ok. destruct H as (H1 & H2 & H3 & H4). repeat split; cbn [ds_construct ds_pre ds_trail d_body d_body_args]; try assumption; blia.
  Qed.
End Doc.
Lemma document_bare p d d3 : try_from3 p d = Ok d3 ->
  (forall sec, bare (get_section sec d3) <= depth2 d) /\ bare_args (d_body_args d3) <= depth2 d.
Proof.
  assert (P : post (fun d3 => (forall sec, bare (get_section sec d3) <= depth2 d) /\ bare_args (d_body_args d3) <= depth2 d) (try_from3 p d)); [|apply P].
  unfold try_from3. eapply post_bind with (P := okd (depth2 d)).
  - apply post_foldM; [|repeat split; unfold bare, bare_args, depth2; cbn; blia]. intros st c Hc Hs. apply d_step_ok; [|exact Hs].
    exact (in_list_max depth_chunk2 c d Hc).
  - intros st (H1 & H2 & H3 & H4). cbv zeta. eapply post_bind; [apply maths_fuel_bare|]. intros pre P1. eapply post_bind; [apply par_bare|]. intros pre' P2.
    eapply post_bind; [apply maths_fuel_bare|]. intros tr P3. eapply post_bind; [apply par_bare|]. intros tr' P4. apply post_ok.
    split; [|exact H2]. intros []; cbn [get_section d_preamable d_body d_trailing]; blia.
Qed.
