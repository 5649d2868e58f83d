(** * Lost: what the conversion to stage 3 may lose *)
From Verif Require Import Base Ast1 Parse1 Ast2 Ast3 SpecDoc1 SpecMaths3 SpecPar3 SpecReads SpecClass3 SpecRead3 SpecWrap SpecSeen SpecLost Par3 Valid2 Valid3 Keep3 ReadsW KeepW Read3 Mono.
From Coq Require Import Lia.
Open Scope nat_scope.

Lemma occ_app x a b : occurs x (a ++ b) = occurs x a + occurs x b.
Proof. apply count_occ_app. Qed.
Lemma occ_cons x c b : occurs x (c :: b) = occurs x [c] + occurs x b.
Proof. exact (occ_app x [c] b). Qed.
Lemma occ_nil x : occurs x [] = 0. Proof. reflexivity. Qed.
Lemma occ_lost x c : bracketing x = false -> bracketing c = true -> occurs x [c] = 0.
Proof.
  intros K H. unfold occurs. cbn [count_occ]. destruct (N.eq_dec c x) as [->|]; [congruence|reflexivity].
Qed.
Ltac occ := repeat (rewrite ?occ_app, ?occ_nil; match goal with
  | |- context [occurs ?x (?c :: ?s)] => match s with [] => fail 1 | _ => rewrite (occ_cons x c s) end end); rewrite ?occ_app, ?occ_nil.
Ltac occ_in H := repeat (rewrite ?occ_app, ?occ_nil in H; match type of H with
  | context [occurs ?x (?c :: ?s)] => match s with [] => fail 1 | _ => rewrite (occ_cons x c s) in H end end); rewrite ?occ_app, ?occ_nil in H.

Notation o2 x cs := (occurs x (show2 cs)).
Notation o3 x cs := (occurs x (show_chunks3 cs)).
Lemma o2_cons x c cs : o2 x (c :: cs) = occurs x (show_chunk2 c) + o2 x cs.
Proof. now rewrite show2_cons, occ_app. Qed.
Lemma o2_app x a b : o2 x (a ++ b) = o2 x a + o2 x b.
Proof. now rewrite show2_app, occ_app. Qed.
Lemma o3_cons x c cs : o3 x (c :: cs) = occurs x (show_chunk3 c) + o3 x cs.
Proof. now rewrite show_chunks3_cons, occ_app. Qed.
Lemma o3_app x a b : o3 x (a ++ b) = o3 x a + o3 x b.
Proof. now rewrite show_chunks3_app, occ_app. Qed.
Lemma o3_text x l s : o3 x (text_chunk3 l s) = occurs x s.
Proof. now rewrite show_text_chunk. Qed.
Lemma o2_text x l s : o2 x (text_chunk2 l s) = occurs x s.
Proof. destruct s; [reflexivity|]. cbn [text_chunk2]. rewrite o2_cons. cbn [show_chunk2 show_variant2]. change (o2 x []) with 0. lia. Qed.

Lemma upto_occ x cs leaks inner lb q rest : SpecReads.upto cs leaks inner lb q rest ->
  o2 x cs = o3 x leaks + o2 x inner + occurs x q + occurs x [c_dollar] + o2 x rest.
Proof.
  induction 1 as [l p r cs Hp|l s cs leaks inner l' p rest Hs H IH|l v cs leaks inner l' p rest Hv H IH].
  - rewrite !o2_cons. cbn [show_chunk2 show_variant2]. occ. change (o3 x []) with 0. change (o2 x []) with 0. lia.
  - rewrite o2_cons, IH, o3_app, o3_text. cbn [show_chunk2 show_variant2]. lia.
  - rewrite !o2_cons, IH. lia.
Qed.
Lemma block_occ x t cs leaks lb content rest : dollar_block t cs leaks lb content rest ->
  occurs x [c_dollar] + o2 x cs = o3 x leaks + o2 x content + o2 x rest + occurs x (fst (maths_delims Dollars t)) + occurs x (snd (maths_delims Dollars t)).
Proof.
  intros H. destruct H as [cs leaks inner lb p rest H _|cs leaks0 lb0 rest0 leaks1 inner1 lb1 p1 lr r cs1 leaks2 inner2 lb p rest H0 H1 H2].
  - apply (upto_occ x) in H. rewrite o2_app, o2_text. cbn [maths_delims fst snd]. lia.
  - apply (upto_occ x) in H0, H1, H2. rewrite !o3_app, !o2_app, o2_text. cbn [maths_delims fst snd]. rewrite (occ_cons x c_dollar [c_dollar]).
    rewrite o2_cons in H1, H2. cbn [show_chunk2 show_variant2] in H1, H2. rewrite occ_app in H2. change (o2 x []) with 0 in H0. change (occurs x []) with 0 in H0. lia.
Qed.
Lemma block_bare t cs leaks lb content rest : dollar_block t cs leaks lb content rest -> forallb bare cs = true -> forallb bare content = true /\ forallb bare rest = true.
Proof.
  assert (U : forall cs leaks inner lb q rest, SpecReads.upto cs leaks inner lb q rest -> forallb bare cs = true -> forallb bare inner = true /\ forallb bare rest = true).
  { induction 1 as [l p r cs0 Hp|l s cs0 leaks0 inner l' p rest0 Hs H IH|l v cs0 leaks0 inner l' p rest0 Hv H IH]; cbn [forallb bare andb]; intros B; [now split|auto|].
    apply andb_prop in B as [B1 B2]. destruct (IH B2) as [B3 B4]. split; [|exact B4]. apply andb_true_intro. now split. }
  assert (T : forall l s, forallb bare (text_chunk2 l s) = true) by now destruct s.
  intros H B. destruct H as [cs leaks inner lb p rest H _|cs leaks0 lb0 rest0 leaks1 inner1 lb1 p1 lr r cs1 leaks2 inner2 lb p rest H0 H1 H2].
  - destruct (U _ _ _ _ _ _ H B) as [B1 B2]. split; [|exact B2]. rewrite forallb_app, B1, T. reflexivity.
  - destruct (U _ _ _ _ _ _ H0 B) as [_ B1]. destruct (U _ _ _ _ _ _ H1 B1) as [B2 B3]. destruct (U _ _ _ _ _ _ H2 B3) as [B4 B5]. split; [|exact B5].
    now rewrite !forallb_app, B2, B4, T.
Qed.
Lemma opener_bracket t : bracket [opener t] = true. Proof. now destruct t. Qed.
Lemma closer_bracket t : bracket [closer t] = true. Proof. now destruct t. Qed.
Lemma opener_lost t : bracketing (opener t) = true. Proof. now destruct t. Qed.
Lemma closer_lost t : bracketing (closer t) = true. Proof. now destruct t. Qed.
(** a bare bracket command *)
Lemma bare_bracket x l c args : bracketing c = true -> bracket [c] = true -> bare (mkChunk2 l (Command2 (mkCommand2 [c] args))) = true ->
  bracketing x = false -> occurs x (show_chunk2 (mkChunk2 l (Command2 (mkCommand2 [c] args)))) = 0.
Proof.
  intros L B K X. cbn [bare] in K. rewrite B in K. destruct args; [|discriminate]. cbn [show_chunk2 show_variant2 show_command2 map concat app].
  rewrite occ_cons, !occ_lost by (assumption || reflexivity). reflexivity.
Qed.
Lemma nesting_occ x t d body kept d' : nesting t d body kept d' ->
  o2 x kept <= o2 x body /\ (forallb bare body = true -> forallb bare kept = true /\ (bracketing x = false -> o2 x kept = o2 x body)).
Proof.
  induction 1 as [d|d l v body kept d' [args ->] H IH|d l v body kept d' [args ->] Hd H IH|d l v body kept d' H1 H2 H IH].
  - split; [lia|]. now split.
  - destruct IH as [IH1 IH2]. rewrite o2_cons. split; [lia|]. cbn [forallb]. intros B. apply andb_prop in B as [B1 B2]. destruct (IH2 B2) as [B3 B4]. split; [exact B3|].
    intros X. rewrite (bare_bracket x l _ args (opener_lost t) (opener_bracket t) B1 X), B4 by exact X. reflexivity.
  - destruct IH as [IH1 IH2]. rewrite o2_cons. split; [lia|]. cbn [forallb]. intros B. apply andb_prop in B as [B1 B2]. destruct (IH2 B2) as [B3 B4]. split; [exact B3|].
    intros X. rewrite (bare_bracket x l _ args (closer_lost t) (closer_bracket t) B1 X), B4 by exact X. reflexivity.
  - destruct IH as [IH1 IH2]. rewrite !o2_cons. split; [lia|]. cbn [forallb]. intros B. apply andb_prop in B as [B1 B2]. destruct (IH2 B2) as [B3 B4]. split; [now rewrite B1|].
    intros X. rewrite B4 by exact X. reflexivity.
Qed.
Lemma moved_occ lb a b : Forall2 (moved32 lb) a b -> show2 b = show2 a /\ forallb bare b = forallb bare a.
Proof.
  induction 1 as [|[l v] [l' v'] a b M _ [IH1 IH2]]; [now split|]. destruct M as (-> & _). rewrite !show2_cons, IH1. cbn [forallb]. rewrite IH2. split; reflexivity.
Qed.
Lemma open3_of v : open3 (variant3_of v) = open2 v. Proof. now destruct v. Qed.
Lemma close3_of v : close3 (variant3_of v) = close2 v. Proof. now destruct v. Qed.

Definition bare_args (args : list (str * scope2)) : bool := forallb (fun a => match a with (_, mkScope2 cs _) => forallb bare cs end) args.
Definition oa2 x (args : list (str * scope2)) : nat := occurs x (concat (map (fun a => match a with (pre, sc) => pre ++ show_scope2 sc end) args)).
Definition oa3 x (args : list (str * scope3)) : nat := occurs x (concat (map (fun a => match a with (pre, sc) => pre ++ show_scope3 sc end) args)).
Lemma occ_wrap x o s c : occurs x (o :: s ++ [c]) = occurs x [o] + occurs x s + occurs x [c].
Proof. rewrite occ_cons, occ_app. lia. Qed.
Section Occ.
  Variable x : char.
  Definition conserves (a b : nat) (B : bool) : Prop := a <= b /\ (B = true -> bracketing x = false -> a = b).
  Lemma wreads_occ :
    (forall bl cs r, wreads bl cs r -> forall out, r = Good out -> conserves (o3 x out) (o2 x cs) (forallb bare cs)) /\
    (forall v r, wreads_variant v r -> forall v3, r = Good v3 -> forall l, conserves (occurs x (show_variant3 v3)) (occurs x (show_variant2 v)) (bare (mkChunk2 l v))) /\
    (forall args r, wreads_args args r -> forall args3, r = Good args3 -> conserves (oa3 x args3) (oa2 x args) (bare_args args)).
  Proof.
    apply wreads_ind'.
    - intros bl out [= <-]. split; reflexivity.
    - intros bl l s cs pieces r Hs Hp _ IH out E0. apply on_good in E0 as (o & -> & ->). destruct (IH o eq_refl) as [I1 I2].
      unfold conserves. rewrite o3_app, (paragraphs_show _ _ _ Hp), o2_cons. cbn [show_chunk2 show_variant2 forallb bare andb]. split; [lia|]. intros B X. rewrite I2 by assumption. reflexivity.
    - intros bl l v cs rv r Hv _ IHv _ IH out E0. apply andthen_good in E0 as (v3 & o & -> & -> & ->). destruct (IH o eq_refl) as [I1 I2]. destruct (IHv v3 eq_refl l) as [J1 J2].
      unfold conserves. rewrite o3_cons, o2_cons. cbn [forallb]. change (show_chunk3 (mkChunk3 l v3)) with (show_variant3 v3). change (show_chunk2 (mkChunk2 l v)) with (show_variant2 v).
      split; [lia|]. intros B X. apply andb_prop in B as [B1 B2]. rewrite I2, J2 by assumption. reflexivity.
    - intros bl t l args body kept l' args' cs rco r Hn _ IHc _ IH out E0. apply andthen_good in E0 as (co & o & -> & -> & ->). destruct (IH o eq_refl) as [I1 I2]. destruct (IHc co eq_refl) as [J1 J2].
      destruct (nesting_occ x _ _ _ _ _ Hn) as [N1 N2].
      unfold conserves. rewrite o3_cons, o2_cons, o2_app, o2_cons.
      change (show_chunk3 (mkChunk3 l (Maths3 (mkMaths3 Brackets t co)))) with (fst (maths_delims Brackets t) ++ show_chunks3 co ++ snd (maths_delims Brackets t)).
      rewrite !occ_app. split.
      + assert (Z1 : occurs x (fst (maths_delims Brackets t)) <= occurs x (show_chunk2 (mkChunk2 l (Command2 (mkCommand2 [opener t] args))))).
        { cbn [show_chunk2 show_variant2 show_command2]. rewrite (occ_cons x c_bslash), occ_app. destruct t; cbn [maths_delims fst opener]; rewrite (occ_cons x c_bslash [_]); lia. }
        assert (Z2 : occurs x (snd (maths_delims Brackets t)) <= occurs x (show_chunk2 (mkChunk2 l' (Command2 (mkCommand2 [closer t] args'))))).
        { cbn [show_chunk2 show_variant2 show_command2]. rewrite (occ_cons x c_bslash), occ_app. destruct t; cbn [maths_delims snd closer]; rewrite (occ_cons x c_bslash [_]); lia. }
        lia.
      + intros B X. cbn [forallb] in B. apply andb_prop in B as [B1 B]. rewrite forallb_app in B. apply andb_prop in B as [B2 B]. cbn [forallb] in B. apply andb_prop in B as [B3 B4].
        destruct (N2 B2) as [B5 N3]. specialize (N3 X).
        rewrite (bare_bracket x l _ args (opener_lost t) (opener_bracket t) B1 X), (bare_bracket x l' _ args' (closer_lost t) (closer_bracket t) B3 X).
        assert (Z1 : occurs x (fst (maths_delims Brackets t)) = 0) by (destruct t; cbn [maths_delims fst]; rewrite occ_cons, !occ_lost by (assumption || reflexivity); reflexivity).
        assert (Z2 : occurs x (snd (maths_delims Brackets t)) = 0) by (destruct t; cbn [maths_delims snd]; rewrite occ_cons, !occ_lost by (assumption || reflexivity); reflexivity).
        rewrite I2, J2 by assumption. lia.
    - intros; discriminate.
    - intros; discriminate.
    - intros bl l u s cs t leaks lb content rest pieces content' rco r Hu Hd Hs Hm _ IHc _ IH out E0. apply andthen_good in E0 as (co & o & -> & -> & ->).
      destruct (IH o eq_refl) as [I1 I2]. destruct (IHc co eq_refl) as [J1 J2]. destruct (moved_occ _ _ _ Hm) as [M1 M2]. rewrite M1 in J1, J2. rewrite M2 in J2.
      pose proof (block_occ x _ _ _ _ _ _ Hd) as D. rewrite o2_cons in D. cbn [show_chunk2 show_variant2] in D.
      unfold conserves. rewrite o3_app, (split_all_show _ _ Hs), o3_app, o3_text, o3_cons, o2_cons.
      change (show_chunk3 (mkChunk3 lb (Maths3 (mkMaths3 Dollars t co)))) with (fst (maths_delims Dollars t) ++ show_chunks3 co ++ snd (maths_delims Dollars t)).
      change (show_chunk2 (mkChunk2 l (Text2 (u ++ c_dollar :: s)))) with (u ++ c_dollar :: s). rewrite !occ_app, (occ_cons x c_dollar s). split; [lia|].
      intros B X. destruct (block_bare _ _ _ _ _ _ Hd B) as [B1 B2]. rewrite I2, J2 by assumption. lia.
    - intros; discriminate.
    - intros cs v r _ IH v3 E0 l. apply on_good in E0 as (o & -> & ->). destruct (IH o eq_refl) as [I1 I2]. unfold conserves.
      change (show_variant3 (Scope3 (mkScope3 o (variant3_of v)))) with (open3 (variant3_of v) :: show_chunks3 o ++ [close3 (variant3_of v)]).
      change (show_variant2 (Scope2 (mkScope2 cs v))) with (open2 v :: show2 cs ++ [close2 v]). rewrite open3_of, close3_of, !occ_wrap. split; [lia|].
      intros B X. change (forallb bare cs = true) in B. rewrite I2 by assumption. reflexivity.
    - intros lab args r _ IH v3 E0 l. apply on_good in E0 as (o & -> & ->). destruct (IH o eq_refl) as [I1 I2]. unfold conserves.
      change (show_variant3 (Command3 (mkCommand3 lab o))) with ((c_bslash :: lab) ++ concat (map (fun a => match a with (pre, sc) => pre ++ show_scope3 sc end) o)).
      change (show_variant2 (Command2 (mkCommand2 lab args))) with ((c_bslash :: lab) ++ concat (map (fun a => match a with (pre, sc) => pre ++ show_scope2 sc end) args)).
      rewrite !occ_app. fold (oa3 x o). fold (oa2 x args). split; [lia|]. intros B X. cbn [bare] in B. apply andb_prop in B as [_ B]. rewrite I2 by assumption. reflexivity.
    - intros lab args content pb pe ra rc _ IHa _ IHc v3 E0 l. apply andthen_good in E0 as (a & o & -> & -> & ->). destruct (IHa a eq_refl) as [I1 I2]. destruct (IHc o eq_refl) as [J1 J2]. unfold conserves.
      cbn [show_variant3 show_env3 show_variant2 show_env2]. fold (show2 content). fold (show_chunks3 o). rewrite !occ_app. fold (oa3 x a). fold (oa2 x args).
      split; [lia|]. intros B X. cbn [bare] in B. apply andb_prop in B as [B1 B2]. rewrite I2, J2 by assumption. reflexivity.
    - intros args3 [= <-]. split; reflexivity.
    - intros pre cs v args r ra _ IHc _ IHa args3 E0. apply andthen_good in E0 as (o & a & -> & -> & ->). destruct (IHc o eq_refl) as [I1 I2]. destruct (IHa a eq_refl) as [J1 J2]. unfold conserves, oa3, oa2 in *.
      cbn [map concat]. change (show_scope3 (mkScope3 o (variant3_of v))) with (open3 (variant3_of v) :: show_chunks3 o ++ [close3 (variant3_of v)]).
      change (show_scope2 (mkScope2 cs v)) with (open2 v :: show2 cs ++ [close2 v]). rewrite open3_of, close3_of. rewrite !(occ_app x (pre ++ _)), !(occ_app x pre), !occ_wrap. split; [lia|].
      intros B X. cbn [bare_args forallb] in B. apply andb_prop in B as [B1 B2]. rewrite I2, J2 by assumption. reflexivity.
  Qed.
End Occ.

(** ** Without bracket commands nothing is lost *)
Definition bracketless_args (args : list (str * scope2)) : bool := forallb (fun a => match a with (_, mkScope2 cs _) => forallb bracketless cs end) args.
Lemma moved_bracketless lb a b : Forall2 (moved32 lb) a b -> forallb bracketless b = forallb bracketless a.
Proof. induction 1 as [|[l v] [l' v'] a b M _ IH]; [reflexivity|]. destruct M as (-> & _). cbn [forallb]. rewrite IH. reflexivity. Qed.
Lemma block_bracketless t cs leaks lb content rest : dollar_block t cs leaks lb content rest -> forallb bracketless cs = true -> forallb bracketless content = true /\ forallb bracketless rest = true.
Proof.
  assert (U : forall cs leaks inner lb q rest, SpecReads.upto cs leaks inner lb q rest -> forallb bracketless cs = true -> forallb bracketless inner = true /\ forallb bracketless rest = true).
  { induction 1 as [l p r cs0 Hp|l s cs0 leaks0 inner l' p rest0 Hs H IH|l v cs0 leaks0 inner l' p rest0 Hv H IH]; cbn [forallb bracketless andb]; intros B; [now split|auto|].
    apply andb_prop in B as [B1 B2]. destruct (IH B2) as [B3 B4]. split; [|exact B4]. apply andb_true_intro. now split. }
  assert (T : forall l s, forallb bracketless (text_chunk2 l s) = true) by now destruct s.
  intros H B. destruct H as [cs leaks inner lb p rest H _|cs leaks0 lb0 rest0 leaks1 inner1 lb1 p1 lr r cs1 leaks2 inner2 lb p rest H0 H1 H2].
  - destruct (U _ _ _ _ _ _ H B) as [B1 B2]. split; [|exact B2]. rewrite forallb_app, B1, T. reflexivity.
  - destruct (U _ _ _ _ _ _ H0 B) as [_ B1]. destruct (U _ _ _ _ _ _ H1 B1) as [B2 B3]. destruct (U _ _ _ _ _ _ H2 B3) as [B4 B5]. split; [|exact B5].
    now rewrite !forallb_app, B2, B4, T.
Qed.
Lemma wreads_same x :
  (forall bl cs r, wreads bl cs r -> forall out, r = Good out -> forallb bracketless cs = true -> o3 x out = o2 x cs) /\
  (forall v r, wreads_variant v r -> forall v3, r = Good v3 -> forall l, bracketless (mkChunk2 l v) = true -> occurs x (show_variant3 v3) = occurs x (show_variant2 v)) /\
  (forall args r, wreads_args args r -> forall args3, r = Good args3 -> bracketless_args args = true -> oa3 x args3 = oa2 x args).
Proof.
  apply wreads_ind'.
  - intros bl out [= <-]. reflexivity.
  - intros bl l s cs pieces r Hs Hp _ IH out E0 B. apply on_good in E0 as (o & -> & ->).
    rewrite o3_app, (paragraphs_show _ _ _ Hp), o2_cons. cbn [show_chunk2 show_variant2]. now rewrite (IH o eq_refl B).
  - intros bl l v cs rv r Hv _ IHv _ IH out E0 B. apply andthen_good in E0 as (v3 & o & -> & -> & ->). cbn [forallb] in B. apply andb_prop in B as [B1 B2].
    rewrite o3_cons, o2_cons. change (show_chunk3 (mkChunk3 l v3)) with (show_variant3 v3). change (show_chunk2 (mkChunk2 l v)) with (show_variant2 v).
    now rewrite (IH o eq_refl B2), (IHv v3 eq_refl l B1).
  - intros bl t l args body kept l' args' cs rco r Hn _ IHc _ IH out E0 B. exfalso. cbn [forallb bracketless] in B. now rewrite opener_bracket in B.
  - intros; discriminate.
  - intros; discriminate.
  - intros bl l u s cs t leaks lb content rest pieces content' rco r Hu Hd Hs Hm _ IHc _ IH out E0 B. apply andthen_good in E0 as (co & o & -> & -> & ->).
    destruct (block_bracketless _ _ _ _ _ _ Hd B) as [B1 B2]. rewrite <- (moved_bracketless _ _ _ Hm) in B1.
    specialize (IH o eq_refl B2). specialize (IHc co eq_refl B1). destruct (moved_occ _ _ _ Hm) as [M1 M2]. rewrite M1 in IHc.
    pose proof (block_occ x _ _ _ _ _ _ Hd) as D. rewrite o2_cons in D. cbn [show_chunk2 show_variant2] in D.
    rewrite o3_app, (split_all_show _ _ Hs), o3_app, o3_text, o3_cons, o2_cons.
    change (show_chunk3 (mkChunk3 lb (Maths3 (mkMaths3 Dollars t co)))) with (fst (maths_delims Dollars t) ++ show_chunks3 co ++ snd (maths_delims Dollars t)).
    change (show_chunk2 (mkChunk2 l (Text2 (u ++ c_dollar :: s)))) with (u ++ c_dollar :: s). rewrite !occ_app, (occ_cons x c_dollar s). lia.
  - intros; discriminate.
  - intros cs v r _ IH v3 E0 l B. apply on_good in E0 as (o & -> & ->). specialize (IH o eq_refl B).
    change (show_variant3 (Scope3 (mkScope3 o (variant3_of v)))) with (open3 (variant3_of v) :: show_chunks3 o ++ [close3 (variant3_of v)]).
    change (show_variant2 (Scope2 (mkScope2 cs v))) with (open2 v :: show2 cs ++ [close2 v]). rewrite open3_of, close3_of, !occ_wrap. lia.
  - intros lab args r _ IH v3 E0 l B. apply on_good in E0 as (o & -> & ->). cbn [bracketless] in B. apply andb_prop in B as [_ B]. specialize (IH o eq_refl B).
    change (show_variant3 (Command3 (mkCommand3 lab o))) with ((c_bslash :: lab) ++ concat (map (fun a => match a with (pre, sc) => pre ++ show_scope3 sc end) o)).
    change (show_variant2 (Command2 (mkCommand2 lab args))) with ((c_bslash :: lab) ++ concat (map (fun a => match a with (pre, sc) => pre ++ show_scope2 sc end) args)).
    rewrite !occ_app. fold (oa3 x o). fold (oa2 x args). lia.
  - intros lab args content pb pe ra rc _ IHa _ IHc v3 E0 l B. apply andthen_good in E0 as (a & o & -> & -> & ->). cbn [bracketless] in B. apply andb_prop in B as [B1 B2].
    specialize (IHa a eq_refl B1). specialize (IHc o eq_refl B2).
    cbn [show_variant3 show_env3 show_variant2 show_env2]. fold (show2 content). fold (show_chunks3 o). rewrite !occ_app. fold (oa3 x a). fold (oa2 x args). lia.
  - intros args3 [= <-]. reflexivity.
  - intros pre cs v args r ra _ IHc _ IHa args3 E0 B. apply andthen_good in E0 as (o & a & -> & -> & ->). unfold bracketless_args in B. cbn [forallb] in B. apply andb_prop in B as [B1 B2].
    specialize (IHc o eq_refl B1). specialize (IHa a eq_refl B2). unfold oa3, oa2 in *.
    cbn [map concat]. change (show_scope3 (mkScope3 o (variant3_of v))) with (open3 (variant3_of v) :: show_chunks3 o ++ [close3 (variant3_of v)]).
    change (show_scope2 (mkScope2 cs v)) with (open2 v :: show2 cs ++ [close2 v]). rewrite open3_of, close3_of. rewrite !(occ_app x (pre ++ _)), !(occ_app x pre), !occ_wrap. lia.
Qed.
