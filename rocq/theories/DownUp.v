(** * DownUp: from stage 2 to stage 1 and up again *)
From Verif Require Import Base Ast1 Parse1 Ast2 Ast3 Spec1 SpecDoc1 SpecDoc2 SpecDoc3 SpecCanon1 Spec2 SpecBack2 SpecFlat SpecAgain Tok Pure1 Refine1 Gram1 Ind Lines Facts1
  Valid1 Valid2 Eqb Conv2 Fail2 Facts2 Good2 Env2 Canon1 Back2 Flat SpecMaths3 Keep2.
From Coq Require Import Lia Arith ZifyN.
Open Scope N_scope.

Definition low (off m x : N) : N := minus32 (x - off) m.
Definition lowc (off m : N) (c : chunk1) : chunk1 := match c with mkChunk1 l v => mkChunk1 (low off m l) v end.
Lemma minus32_le a b : b <= a -> a < two32 -> minus32 a b = a - b.
Proof. intros H K. unfold minus32. replace (a + two32 - b) with ((a - b) + 1 * two32) by (unfold two32 in *; lia). rewrite N.mod_add by (unfold two32; lia). apply N.mod_small. lia. Qed.
Lemma minus32_lt a b : minus32 a b < two32.
Proof. apply N.mod_lt. unfold two32; lia. Qed.
Lemma minus32_z a b : b <= two32 -> (Z.of_N (minus32 a b) = (Z.of_N a - Z.of_N b) mod Z.of_N two32)%Z.
Proof.
  intros H. unfold minus32. rewrite N2Z.inj_mod, N2Z.inj_sub, N2Z.inj_add by lia.
  replace (Z.of_N a + Z.of_N two32 - Z.of_N b)%Z with ((Z.of_N a - Z.of_N b) + 1 * Z.of_N two32)%Z by lia. now rewrite Z.mod_add by (unfold two32; lia).
Qed.
Lemma lowc_same off m d : Forall2 same_chunk d (map (lowc off m) d).
Proof. induction d as [|[l v] d IH]; constructor; [reflexivity|exact IH]. Qed.
Lemma low_0 x : x < two32 -> low 0 0 x = x.
Proof. intros H. unfold low. rewrite minus32_le; lia. Qed.
Lemma lowc_0 d : fits1 d -> map (lowc 0 0) d = d.
Proof.
  intros F. pose proof (F d (w1_self d)) as G. clear F. induction G as [|[l v] d H G IH]; [reflexivity|]. cbn [map lowc]. rewrite IH, low_0; [reflexivity|exact H].
Qed.

(** ** conv and concatenation *)
Lemma conv_app p a a' : conv p a a' -> forall b b', conv p b b' -> conv p (a ++ b) (a' ++ b').
Proof.
  induction 1; intros b b' K; cbn [app]; [exact K| | | |]; try (constructor; auto; fail).
  rewrite <- app_assoc. cbn [app]. econstructor; eauto.
Qed.

(** ** the arithmetic of one environment *)
Lemma mod_sub_cases a b : a < two32 -> b < two32 -> minus32 a b = if b <=? a then a - b else a + two32 - b.
Proof.
  intros A B. destruct (b <=? a) eqn:E.
  - apply N.leb_le in E. now apply minus32_le.
  - apply N.leb_gt in E. unfold minus32. apply N.mod_small. lia.
Qed.
Lemma mod_add_cases a : a < two32 + two32 -> a mod two32 = if a <? two32 then a else a - two32.
Proof.
  intros A. destruct (a <? two32) eqn:E.
  - apply N.ltb_lt in E. now apply N.mod_small.
  - apply N.ltb_ge in E. replace a with ((a - two32) + 1 * two32) at 1 by lia. rewrite N.mod_add by (unfold two32; lia). apply N.mod_small. lia.
Qed.
Lemma start_low p l off m pb lab args k : k = count_newlines (pb ++ show1 lab ++ args_text args) -> l + off + k < two32 ->
  m < two32 -> 1 <= l + off -> p = Release \/ m < l ->
  startM p (low off m (l + off)) ((pb, mkScope1 lab Curly1) :: args) = Ok ((minus32 l m + k) mod two32).
Proof.
  intros -> B M L R. unfold startM. rewrite sum_args_newlines. unfold low. replace (l + off - off) with l by lia.
  replace (count_newlines (args_text ((pb, mkScope1 lab Curly1) :: args))) with (count_newlines (pb ++ show1 lab ++ args_text args)).
  2:{ unfold args_text. cbn [map concat]. rewrite show_scope_eq. cbn [open1 close1]. repeat (rewrite ?count_newlines_app, ?count_newlines_cons). rewrite count_newlines_nil.
      change (c_lcurly =? c_newline) with false. change (c_rcurly =? c_newline) with false. cbv iota. lia. }
  set (k := count_newlines _) in *. rewrite as_u32_ok by lia. unfold add32. pose proof (minus32_lt l m) as ML.
  rewrite mod_add_cases by lia. destruct (minus32 l m + k <? two32) eqn:E; [reflexivity|]. apply N.ltb_ge in E.
  destruct R as [->|R].
  - reflexivity.
  - rewrite minus32_le in E; lia.
Qed.
Lemma rebase_low p l off m k x v : 1 <= l -> l + off <= x -> x < two32 -> m < two32 -> k < two32 ->
  p = Release \/ (m < l /\ k < x - (l + off - 1) /\ l + k < two32) ->
  rebaseM p ((minus32 l m + k) mod two32) (mkChunk1 (low off m x) v) = Ok (mkChunk1 (low (l + off - 1) k x) v).
Proof.
  intros L X X2 M K R. unfold rebaseM, low, sub32, add32.
  rewrite (mod_sub_cases (x - off) m), (mod_sub_cases l m), (mod_sub_cases _ k) by lia.
  destruct R as [->|(R1 & R2 & R3)].
  - cbn [overflow32].
    repeat match goal with
    | |- context [(?a + ?b) mod two32] => rewrite (mod_add_cases (a + b)) by (repeat match goal with |- context [?x <=? ?y] => destruct (N.leb_spec x y) end; lia)
    end.
    destruct (N.leb_spec m (x - off)), (N.leb_spec m l), (N.leb_spec k (x - (l + off - 1)));
      repeat match goal with |- context [?x <? ?y] => destruct (N.ltb_spec x y); try lia end;
      repeat match goal with |- context [if ?x <=? ?y then _ else _] => destruct (N.leb_spec x y); try lia end; cbn [bind];
      repeat match goal with |- context [(?a - ?b) mod two32] => (rewrite (N.mod_small (a - b)) by lia) || (rewrite (mod_add_cases (a - b)) by lia) end;
      repeat match goal with |- context [?x <? ?y] => destruct (N.ltb_spec x y); try lia end; cbn [bind];
      repeat match goal with |- context [?a mod two32] => rewrite (mod_add_cases a) by lia end;
      repeat match goal with |- context [?x <? ?y] => destruct (N.ltb_spec x y); try lia end; do 2 f_equal; lia.
  - assert (Hm : m <=? x - off = true) by (apply N.leb_le; lia). assert (Hl : m <=? l = true) by (apply N.leb_le; lia).
    assert (Hk : k <=? x - (l + off - 1) = true) by (apply N.leb_le; lia). rewrite Hm, Hl, Hk.
    rewrite N.mod_small by lia. destruct (N.leb_spec (l - m + k) (x - off - m)); [|lia]. cbn [bind].
    destruct (N.ltb_spec (x - off - m - (l - m + k) + 1) two32); [|lia]. cbn [bind]. do 2 f_equal. lia.
Qed.
Lemma rebase_low_debug l off m k x v c : 1 <= l -> l + off <= x -> x < two32 -> m < l -> l + k < two32 ->
  rebaseM Debug (l - m + k) (mkChunk1 (low off m x) v) = Ok c -> k < x - (l + off - 1) /\ c = mkChunk1 (low (l + off - 1) k x) v.
Proof.
  intros L X X2 M K H. assert (K2 : k < x - (l + off - 1)).
  { unfold rebaseM, low, sub32 in H. rewrite minus32_le in H by lia. destruct (N.leb_spec (l - m + k) (x - off - m)); [lia|discriminate H]. }
  split; [exact K2|]. pose proof (rebase_low Debug l off m k x v L X X2 ltac:(lia) ltac:(lia) ltac:(right; lia)) as E.
  rewrite minus32_le, N.mod_small in E by lia. congruence.
Qed.

Section Over.
  Variable D : list chunk2.
  Definition inD (c : chunk2) : Prop := exists cs, within2 D cs /\ In c cs.
  Hypothesis lines_pos : forall c, inD c -> 1 <= line_no2 c.
  Hypothesis no_be : forall c, inD c -> no_be2 c.
  Hypothesis labels : forall l lab args content pb pe x, inD (mkChunk2 l (Environment2 (mkEnv2 lab args content pb pe))) -> parses 1 (tokens lab) x -> show1 x = lab.

  Definition allD (cs : list chunk2) : Prop := forall c, In c cs -> inD c.
  Definition argsD (args : list (str * scope2)) : Prop := forall pre cs v, In (pre, mkScope2 cs v) args -> allD cs.
  Lemma inD_scope l cs v : inD (mkChunk2 l (Scope2 (mkScope2 cs v))) -> allD cs.
  Proof. intros (x & W & I) c Hc. exists cs. split; [eapply w2_scope; eauto|exact Hc]. Qed.
  Lemma inD_args l lab args : inD (mkChunk2 l (Command2 (mkCommand2 lab args))) -> argsD args.
  Proof. intros (x & W & I) pre cs v Ha c Hc. exists cs. split; [eapply w2_arg; eauto|exact Hc]. Qed.
  Lemma inD_env_args l lab args content pb pe : inD (mkChunk2 l (Environment2 (mkEnv2 lab args content pb pe))) -> argsD args.
  Proof. intros (x & W & I) pre cs v Ha c Hc. exists cs. split; [eapply w2_env_arg; eauto|exact Hc]. Qed.
  Lemma inD_env l lab args content pb pe : inD (mkChunk2 l (Environment2 (mkEnv2 lab args content pb pe))) -> allD content.
  Proof. intros (x & W & I) c Hc. exists content. split; [eapply w2_env; eauto|exact Hc]. Qed.

  (** what is printed *)
  Lemma unfolds_show :
    (forall off c out, unfolds off c out -> inD c -> show1 out = show_chunk2 c) /\
    (forall off cs out, unfolds_all off cs out -> allD cs -> show1 out = show2 cs) /\
    (forall args args1, unfolds_args args args1 -> argsD args -> args_text args1 = show_args2 args).
  Proof.
    apply unfolds_ind3; intros.
    - unfold show1. cbn. apply app_nil_r.
    - apply inD_scope in H0. unfold show1. cbn [map concat show_chunk1 show_variant1]. rewrite show_scope_eq, H by exact H0.
      rewrite (open1_inj _ _ e), open1_of, close1_of. rewrite app_nil_r. reflexivity.
    - apply inD_args in H0. unfold show1. cbn [map concat show_chunk1 show_variant1 show_command1]. fold (args_text args'). rewrite H by exact H0.
      rewrite app_nil_r. reflexivity.
    - rewrite show1_cons, show1_app, show1_cons, show_begin, show_end. rewrite H, H0 by (eauto using inD_env, inD_env_args).
      erewrite labels by eauto.
      cbn [show_chunk2 show_variant2 show_env2]. fold (show_args2 args) (show2 content).
      change s_begin with (S! "begin"). change s_end with (S! "end"). change (show1 []) with (@nil N).
      repeat (rewrite <- ?app_assoc, ?app_nil_r; cbn [app]). reflexivity.
    - reflexivity.
    - rewrite show1_app, show2_cons, H, H0; [reflexivity| |]; [intros x Hx; apply H1; now right|apply H1; now left].
    - reflexivity.
    - unfold args_text, show_args2. cbn [map concat]. fold (args_text args') (show_args2 args). rewrite H0, show_scope_eq, H.
      + rewrite (open1_inj _ _ e), open1_of, close1_of. reflexivity.
      + eapply H1. now left.
      + intros a b c Hi. eapply H1. right. exact Hi.
  Qed.

  (** lines *)
  Lemma unfolds_lines :
    (forall off c out, unfolds off c out -> inD c -> Forall (fun x => line_no2 c + off <= line_no1 x) out) /\
    (forall off cs out, unfolds_all off cs out -> allD cs -> forall k, Forall (fun c => k < line_no2 c) cs -> Forall (fun x => k + off < line_no1 x) out) /\
    (forall args args1, unfolds_args args args1 -> True).
  Proof.
    apply unfolds_ind3; intros; auto.
    - repeat constructor. cbn. lia.
    - repeat constructor. cbn. lia.
    - repeat constructor. cbn. lia.
    - constructor; [cbn; lia|]. apply Forall_app. split; [|repeat constructor; cbn; lia].
      cbn [line_no2]. assert (K : Forall (fun c => 0 < line_no2 c) content).
      { apply Forall_forall. intros c Hc. specialize (lines_pos c (inD_env _ _ _ _ _ _ H1 c Hc)). lia. }
      eapply Forall_impl; [|exact (H0 (inD_env _ _ _ _ _ _ H1) 0 K)]. cbv beta. intros. lia.
    - inversion H2 as [|? ? K1 K2]; subst. apply Forall_app. split.
      + eapply Forall_impl; [|exact (H (H1 c (or_introl eq_refl)))]. cbv beta. intros. lia.
      + apply H0; [|exact K2]. intros x Hx. apply H1. now right.
  Qed.

  (** well-nested *)
  Lemma unfolds_nested :
    (forall off c out, unfolds off c out -> inD c -> well_nested out) /\
    (forall off cs out, unfolds_all off cs out -> allD cs -> well_nested out) /\
    (forall args args1, unfolds_args args args1 -> argsD args -> well_nested_args args1).
  Proof.
    apply unfolds_ind3; intros; try (constructor; eauto using wn_nil, inD_scope; fail).
    - pose proof (no_be _ H0) as [K1 K2]. apply wn_cmd; eauto using wn_nil, inD_args.
    - apply wn_env; eauto using wn_nil, inD_env, inD_env_args.
    - apply well_nested_app; [apply H, H1; now left|apply H0; intros x Hx; apply H1; now right].
    - constructor; [eapply H, H1; now left|apply H0; intros a b w Hi; eapply H1; right; exact Hi].
  Qed.
  Lemma low_opens off cs out off' m : unfolds_all off cs out -> allD cs -> opens [] (map (lowc off' m) out).
  Proof. intros U A. apply well_nested_opens. eapply (proj1 well_nested_same); [apply (proj1 (proj2 unfolds_nested) _ _ _ U A)|apply lowc_same]. Qed.

  Definition args_fit (args : list (str * scope1)) : Prop := forall pre cs v, In (pre, mkScope1 cs v) args -> fits1 cs.
  Lemma args_fit_cons pre cs v args : args_fit ((pre, mkScope1 cs v) :: args) -> fits1 cs /\ args_fit args.
  Proof. intros H. split; [eapply H; now left|intros a b c Hi; eapply H; right; exact Hi]. Qed.
  Lemma sv_again v' v : open1 v' = open2 v -> sv2_of_sv1 v' = v.
  Proof. intros E. rewrite (open1_inj _ _ E). now destruct v. Qed.
  Lemma pos_all cs : allD cs -> Forall (fun c => 0 < line_no2 c) cs.
  Proof. intros A. apply Forall_forall. intros c Hc. specialize (lines_pos c (A c Hc)). lia. Qed.
  Lemma env_lines l off lab args content pb pe lab' args' out : inD (mkChunk2 l (Environment2 (mkEnv2 lab args content pb pe))) ->
    parses 1 (tokens lab) lab' -> unfolds_args args args' ->
    fits1 (begin_cmd (l + off) pb lab' args' :: out ++ [end_cmd (l + off + count_newlines (pb ++ lab ++ show_args2 args ++ show2 content)) pe lab']) ->
    begin_newlines lab args pb = count_newlines (pb ++ show1 lab' ++ args_text args') /\ l + off + begin_newlines lab args pb < two32 /\ fits1 out /\ args_fit args'.
  Proof.
    intros I P U F. pose proof (fits1_cons _ _ _ F) as [_ F1]. apply fits1_app in F1 as [F1 F2]. apply fits1_cons in F2 as [F2 _].
    split; [|split; [|split; [exact F1|]]].
    - unfold begin_newlines. rewrite (labels _ _ _ _ _ _ _ I P), (proj2 (proj2 unfolds_show) _ _ U (inD_env_args _ _ _ _ _ _ I)). reflexivity.
    - unfold begin_newlines. rewrite !count_newlines_app in *. lia.
    - intros pre cs v Hi. eapply fits1_arg; [exact F|]. right. exact Hi.
  Qed.

  Lemma rebase_low_all p l off m k out : 1 <= l -> m < two32 -> k < two32 -> fits1 out -> Forall (fun x => l + off <= line_no1 x) out ->
    p = Release \/ (m < l /\ Forall (fun x => k < line_no1 x - (l + off - 1)) out /\ l + k < two32) ->
    mapM (rebaseM p ((minus32 l m + k) mod two32)) (map (lowc off m) out) = Ok (map (lowc (l + off - 1) k) out).
  Proof.
    intros L M K F G R. pose proof (F out (w1_self out)) as F1. clear F. revert R.
    induction out as [|[x v] out IH]; intros R; [reflexivity|]. inversion F1; subst. inversion G; subst. cbn [line_no1] in *.
    assert (R' : p = Release \/ m < l /\ k < x - (l + off - 1) /\ l + k < two32) by (destruct R as [R|(R1 & R2 & R3)]; [left; exact R|right; inversion R2; subst; auto]).
    cbn [map lowc mapM]. rewrite rebase_low by assumption.
    cbn [bind]. rewrite IH; [reflexivity|assumption|assumption|]. destruct R as [R|(R1 & R2 & R3)]; [left; exact R|right; inversion R2; subst; auto].
  Qed.

  (** ** with overflow checks, only when there is room *)
  Lemma roomy_cases d : roomy d <-> (forall l lab args content pb pe, In (mkChunk2 l (Environment2 (mkEnv2 lab args content pb pe))) d ->
      Forall (fun c => begin_newlines lab args pb < line_no2 c) content) /\ forall l v inner, In (mkChunk2 l v) d -> inside v inner -> roomy inner.
  Proof.
    split.
    - intros R. split; [intros; eapply R; [apply w2_self|eassumption]|]. intros l v inner I J cs l0 lab args content pb pe W. eapply R. eapply within2_inside; eauto.
    - intros [A B] cs l lab args content pb pe W I. apply within2_cases in W as [->|(l0 & v & inner & I1 & I2 & W)]; [eapply A; eauto|]. eapply (B l0 v inner I1 I2); eauto.
  Qed.
  Lemma roomy_nil : roomy [].
  Proof. apply roomy_cases. split; intros; contradiction. Qed.
  Lemma roomy_cons c cs : roomy [c] -> roomy cs -> roomy (c :: cs).
  Proof.
    rewrite !roomy_cases. intros [A B] [A' B']. split.
    - intros l lab args content pb pe [->|I]; [eapply A; now left|eapply A'; eauto].
    - intros l v inner [->|I] J; [eapply B; [now left|exact J]|eapply B'; eauto].
  Qed.
  Definition roomy_args (args : list (str * scope2)) : Prop := forall pre cs v, In (pre, mkScope2 cs v) args -> roomy cs.

  Lemma rebase_low_all_debug l off m k out out1 : 1 <= l -> m < l -> l + k < two32 -> fits1 out -> Forall (fun x => l + off <= line_no1 x) out ->
    mapM (rebaseM Debug (l - m + k)) (map (lowc off m) out) = Ok out1 -> Forall (fun x => k < line_no1 x - (l + off - 1)) out /\ out1 = map (lowc (l + off - 1) k) out.
  Proof.
    intros L M K F G. pose proof (F out (w1_self out)) as F1. clear F. revert out1.
    induction out as [|[x v] out IH]; intros out1 H; [injection H as <-; split; constructor|]. inversion F1; subst. inversion G; subst. cbn [line_no1] in *.
    cbn [map lowc mapM] in H. destruct (rebaseM Debug (l - m + k) (mkChunk1 (low off m x) v)) as [c|e| |] eqn:E; cbn [bind] in H; try discriminate.
    destruct (mapM _ (map (lowc off m) out)) as [o|e| |] eqn:E2; cbn [bind] in H; try discriminate. injection H as <-.
    apply rebase_low_debug in E as [E ->]; try assumption. destruct (IH ltac:(assumption) ltac:(assumption) o eq_refl) as [A ->].
    split; [constructor; [exact E|exact A]|reflexivity].
  Qed.
  (** the first chunk that a chunk unfolds to is on its line *)
  Lemma unfolds_first off c out : unfolds off c out -> exists x y, out = x :: y /\ line_no1 x = line_no2 c + off.
  Proof. destruct 1; eexists; eexists; split; reflexivity. Qed.
  Lemma unfolds_all_first off cs out : unfolds_all off cs out -> forall k, 1 <= off + 1 -> Forall (fun x => k < line_no1 x - off) out -> Forall (fun c => k < line_no2 c) cs.
  Proof.
    induction 1 as [|off c cs out outs U UA IH]; intros k L F; constructor.
    - destruct (unfolds_first _ _ _ U) as (x & y & -> & E). inversion F; subst. lia.
    - apply IH; [exact L|]. apply Forall_app in F. tauto.
  Qed.

  Lemma only_roomy :
    (forall off c out, unfolds off c out -> inD c -> fits1 out -> forall m rest r, m < line_no2 c ->
       conv Debug (map (lowc off m) out ++ rest) r -> roomy [c] /\ exists r', conv Debug rest r') /\
    (forall off cs out, unfolds_all off cs out -> allD cs -> fits1 out -> forall m rest r, Forall (fun c => m < line_no2 c) cs ->
       conv Debug (map (lowc off m) out ++ rest) r -> roomy cs /\ exists r', conv Debug rest r') /\
    (forall args args1, unfolds_args args args1 -> argsD args -> args_fit args1 -> forall r, conv_args Debug args1 r -> roomy_args args).
  Proof.
    apply unfolds_ind3; intros.
    - cbn [map lowc app] in H2. inversion H2; subst. split; [|eauto]. apply roomy_cases. split; [intros ? ? ? ? ? ? [E|[]]; discriminate E|].
      intros ? ? ? [E|[]] J. injection E as <- <-. inversion J.
    - cbn [map lowc app] in H3. inversion H3; subst. split; [|eauto]. apply inD_scope in H0. apply fits1_scope in H1.
      assert (K : roomy cs) by (eapply (H H0 H1 0 [] _ (pos_all _ H0)); rewrite app_nil_r, lowc_0 by exact H1; eassumption).
      apply roomy_cases. split; [intros ? ? ? ? ? ? [E|[]]; discriminate E|]. intros ? ? ? [E|[]] J. injection E as <- <-. inversion J; subst. exact K.
    - cbn [map lowc app] in H3. pose proof (no_be _ H0) as [K1 K2]. inversion H3; subst; [|exfalso; apply K1; reflexivity]. split; [|eauto]. apply inD_args in H0.
      assert (K : roomy_args args) by (eapply H; [exact H0| |eassumption]; intros pre cs v Hi; eapply fits1_arg; eauto).
      apply roomy_cases. split; [intros ? ? ? ? ? ? [E|[]]; discriminate E|]. intros ? ? ? [E|[]] J. injection E as <- <-. inversion J; subst. eapply K; eassumption.
    - pose proof (env_lines _ _ _ _ _ _ _ _ _ _ H1 p u H2) as (EK & BK & FO & FA).
      cbn [line_no2] in H3. set (k := begin_newlines lab args pb) in *.
      pose proof (lines_pos _ H1) as LP. cbn [line_no2] in LP.
      pose proof (inD_env _ _ _ _ _ _ H1) as AD. pose proof (inD_env_args _ _ _ _ _ _ H1) as AA.
      assert (GL : Forall (fun x => l + off <= line_no1 x) out).
      { eapply Forall_impl; [|exact (proj1 (proj2 unfolds_lines) _ _ _ u0 AD 0 (pos_all _ AD))]. cbv beta. intros. lia. }
      cbn [map lowc begin_cmd app] in H4. rewrite map_app, <- app_assoc in H4. cbn [map lowc end_cmd app] in H4.
      assert (OP : opens [] (map (lowc off m) out)) by (eapply low_opens; eauto).
      assert (ST : startM Debug (low off m (l + off)) ((pb, mkScope1 lab' Curly1) :: args') = Ok (l - m + k)).
      { rewrite (start_low Debug l off m pb lab' args' k) by (try assumption; try lia; now right). rewrite minus32_le, N.mod_small by lia. reflexivity. }
      inversion H4; subst; [exfalso; match goal with N : _ <> s_begin |- _ => apply N; reflexivity end|].
      match goal with E : ?b ++ _ = map (lowc off m) out ++ _, O : opens [] ?b |- _ =>
        apply (matching_unique b) in E as (-> & EE & ->); [|exact O|exact OP] end.
      rewrite ST in *. match goal with E : Ok _ = Ok ?s |- _ => injection E as <- end.
      match goal with E : mapM (rebaseM Debug _) _ = Ok _ |- _ => apply rebase_low_all_debug in E as [RA ->]; try assumption; try lia end.
      assert (RC : Forall (fun c => k < line_no2 c) content) by (eapply unfolds_all_first; [exact u0|lia|exact RA]).
      assert (K1 : roomy content).
      { eapply (H0 AD FO k [] _ RC). rewrite app_nil_r. eassumption. }
      assert (K2 : roomy_args args) by (eapply H; eassumption).
      split; [|eauto]. apply roomy_cases. split.
      + intros ? ? ? ? ? ? [E|[]]. injection E as <- <- <- <- <- <-. exact RC.
      + intros ? ? ? [E|[]] J. injection E as <- <-. inversion J; subst; [eapply K2; eassumption|exact K1].
    - split; [apply roomy_nil|]. eauto.
    - apply fits1_app in H2 as [F1 F2]. rewrite map_app, <- app_assoc in H4. inversion H3; subst.
      destruct (H (H1 _ (or_introl eq_refl)) F1 m _ _ ltac:(assumption) H4) as (R1 & r' & C). assert (AC : allD cs) by (intros x Hx; apply H1; now right).
      destruct (H0 AC F2 m _ _ ltac:(assumption) C) as (R2 & C2). split; [|exact C2]. now apply roomy_cons.
    - intros pre cs v [].
    - apply args_fit_cons in H2 as [F1 F2]. inversion H3; subst. assert (AD : allD cs) by (eapply H1; now left).
      intros pre0 cs0 v0 [E|Hi].
      + injection E as <- <- <-. eapply (H AD F1 0 [] _ (pos_all _ AD)). rewrite app_nil_r, lowc_0 by exact F1. eassumption.
      + eapply H0; [|exact F2|eassumption|exact Hi]. intros a b c Hj. eapply H1. right. exact Hj.
  Qed.

  Lemma up_again p : p = Release \/ roomy D ->
    (forall off c out, unfolds off c out -> inD c -> fits1 out -> forall m, m < two32 -> p = Release \/ m < line_no2 c ->
       conv p (map (lowc off m) out) [again_chunk m c]) /\
    (forall off cs out, unfolds_all off cs out -> allD cs -> fits1 out -> forall m, m < two32 -> p = Release \/ Forall (fun c => m < line_no2 c) cs ->
       conv p (map (lowc off m) out) (map (again_chunk m) cs)) /\
    (forall args args1, unfolds_args args args1 -> argsD args -> args_fit args1 ->
       conv_args p args1 (map (fun a => match a with (pre, sc) => (pre, again_scope sc) end) args)).
  Proof.
    intros R. assert (T0 : 0 < two32) by reflexivity. apply unfolds_ind3; intros.
    - cbn [map lowc again_chunk]. unfold low. replace (l + off - off) with l by lia. constructor. constructor.
    - cbn [map lowc again_chunk again_scope]. unfold low. replace (l + off - off) with l by lia. rewrite <- (sv_again _ _ e).
      apply inD_scope in H0. apply fits1_scope in H1. constructor; [|constructor].
      rewrite <- (lowc_0 out) by exact H1. apply H; auto. right. now apply pos_all.
    - cbn [map lowc again_chunk again_command]. unfold low. replace (l + off - off) with l by lia.
      pose proof (no_be _ H0) as [K1 K2]. apply inD_args in H0. constructor; [exact K1|exact K2| |constructor].
      apply H; [exact H0|]. intros pre cs v Hi. eapply fits1_arg; eauto.
    - pose proof (env_lines _ _ _ _ _ _ _ _ _ _ H1 p0 u H2) as (EK & BK & FO & FA).
      cbn [line_no2] in H4. cbn [again_chunk]. set (k := begin_newlines lab args pb) in *.
      pose proof (lines_pos _ H1) as LP. cbn [line_no2] in LP.
      pose proof (inD_env _ _ _ _ _ _ H1) as AD. pose proof (inD_env_args _ _ _ _ _ _ H1) as AA.
      cbn [map lowc begin_cmd]. rewrite map_app. cbn [map lowc end_cmd].
      change (mkChunk1 (low off m (l + off)) (Command1 (mkCommand1 (S! "begin") ((pb, mkScope1 lab' Curly1) :: args')))) with (begin_cmd (low off m (l + off)) pb lab' args').
      match goal with |- context [mkChunk1 ?x (Command1 (mkCommand1 (S! "end") [(pe, mkScope1 lab' Curly1)]))] =>
        change (mkChunk1 x (Command1 (mkCommand1 (S! "end") [(pe, mkScope1 lab' Curly1)]))) with (end_cmd x pe lab') end.
      match goal with |- conv _ _ [mkChunk2 ?x (Environment2 (mkEnv2 lab ?a ?b ?c ?d))] => replace (mkEnv2 lab a b c d) with (mkEnv2 (show1 lab') a b c d) by (now rewrite (labels _ _ _ _ _ _ _ H1 p0)) end.
      assert (RC : p = Release \/ Forall (fun c => k < line_no2 c) content).
      { destruct R as [R|R]; [now left|right]. destruct H1 as (cs & W & I). exact (R cs _ _ _ _ _ _ W I). }
      assert (GL : Forall (fun x => l + off <= line_no1 x) out).
      { eapply Forall_impl; [|exact (proj1 (proj2 unfolds_lines) _ _ _ u0 AD 0 (pos_all _ AD))]. cbv beta. intros. lia. }
      eapply cv_env with (start := (minus32 l m + k) mod two32) (body1 := map (lowc (l + off - 1) k) out).
      + eapply low_opens; eauto.
      + apply start_low; try assumption; try lia.
      + apply rebase_low_all; try assumption; try lia. destruct RC as [->|RC]; [now left|]. destruct H4 as [->|H4]; [now left|]. right. split; [exact H4|]. split; [|lia].
        eapply Forall_impl; [|exact (proj1 (proj2 unfolds_lines) _ _ _ u0 AD k RC)]. cbv beta. intros. lia.
      + apply H; assumption.
      + apply H0; auto. lia.
      + constructor.
    - constructor.
    - apply fits1_app in H2 as [F1 F2]. rewrite map_app. cbn [map]. change (again_chunk m c :: map (again_chunk m) cs) with ([again_chunk m c] ++ map (again_chunk m) cs).
      apply conv_app; [apply H|apply H0]; auto; try (destruct H4 as [->|H4]; [now left|right; inversion H4; assumption]).
      + apply H1. now left.
      + intros x Hx. apply H1. now right.
    - constructor.
    - apply args_fit_cons in H2 as [F1 F2]. cbn [map again_scope]. rewrite <- (sv_again _ _ e). constructor.
      + assert (AD : allD cs) by (eapply H1; now left). rewrite <- (lowc_0 out) by exact F1. apply H; auto. right. now apply pos_all.
      + apply H0; [|exact F2]. intros a b c Hi. eapply H1. right. exact Hi.
  Qed.
End Over.
