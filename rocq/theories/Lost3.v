(** * Lost3: what the conversion to stage 3 may lose: sources; when nothing is lost *)
From Verif Require Import Base Ast1 Parse1 Ast2 Ast3 Spec1 Spec2 SpecDoc1 SpecDoc2 SpecDoc3 Reads SpecMaths3 SpecPar3 SpecReads SpecClass3 SpecRead3 SpecWrap SpecSeen SpecLost Gram1 Conv2 Env2 Par3 Valid2 Valid3 Keep3 ReadsW KeepW Read3 Mono Doc3 Again3d Again3e Seen2 Lost Lost2.
From Coq Require Import Lia Permutation.
Open Scope nat_scope.

(** ** What a parsed document looks like *)
Fixpoint sound1 (c : chunk1) : bool :=
  match c with
  | mkChunk1 _ (Command1 (mkCommand1 lab a)) => (if bracket lab then match a with [] => true | _ => false end else true) &&
      forallb (fun a => match a with (pre, mkScope1 cs _) => forallb is_whitespace pre && forallb sound1 cs end) a
  | mkChunk1 _ (Scope1 (mkScope1 cs _)) => forallb sound1 cs
  | _ => true
  end.
Definition sound_args1 (a : list (str * scope1)) : bool := forallb (fun a => match a with (pre, mkScope1 cs _) => forallb is_whitespace pre && forallb sound1 cs end) a.
Lemma letter_bracket a lab : is_ascii_alphabetic a = true -> bracket (a :: lab) = false.
Proof.
  intros H. unfold bracket. destruct lab as [|b lab]; [|repeat match goal with |- context [existsb] => cbn [existsb] end; cbn; now rewrite ?Bool.andb_false_r, ?Bool.orb_false_r].
  cbn. repeat match goal with |- context [N.eqb a ?k] => destruct (N.eqb_spec a k) as [->|]; [discriminate H|] end. reflexivity.
Qed.
Lemma ws_chars ws : forallb (fun t => is_whitespace (tchar t)) ws = true -> forallb is_whitespace (chars ws) = true.
Proof. unfold chars. induction ws as [|t ws IH]; [reflexivity|]. cbn [forallb map]. intros H. apply andb_prop in H as [H1 H2]. now rewrite H1, IH. Qed.
Lemma parses_sound : (forall L ts d, parses L ts d -> forallb sound1 d = true) /\ (forall ts args, parses_args ts args -> sound_args1 args = true).
Proof.
  apply parses_parses_args_ind; try (intros; reflexivity).
  - intros; cbn [forallb sound1 andb]; assumption.
  - intros L v body rest inner cs _ _ IH1 _ IH2. cbn [forallb sound1]. now rewrite IH1.
  - intros L c rest cs _ _ IH. cbn [forallb sound1]. rewrite IH. now destruct (bracket [c]).
  - intros L a lab argtoks args ws rest cs Ha _ _ IHa _ _ _ _ IH. cbn [forallb sound1]. rewrite (letter_bracket a lab Ha), IH. fold (sound_args1 args). now rewrite IHa.
  - intros L a lab argtoks args ws Ha _ _ IHa _ _. cbn [forallb sound1]. rewrite (letter_bracket a lab Ha). fold (sound_args1 args). now rewrite IHa.
  - intros pre o v body inner rest args Hp _ _ _ IH _ IHa. unfold sound_args1 in *. cbn [forallb]. now rewrite (ws_chars _ Hp), IH, IHa.
Qed.
(** blanks are whitespace *)
Definition blank_env (c : chunk2) : Prop := match c with mkChunk2 _ (Environment2 (mkEnv2 _ _ _ pb pe)) => forallb is_whitespace pb = true /\ forallb is_whitespace pe = true | _ => True end.
Lemma rebase_sound start cs : forallb sound1 (map (rebase start) cs) = forallb sound1 cs.
Proof. induction cs as [|[l v] cs IH]; [reflexivity|]. cbn [map forallb rebase]. rewrite IH. reflexivity. Qed.
Lemma converts_sound : (forall d d', converts d d' -> forallb sound1 d = true -> forallb bare d' = true /\ Forall blank_env d') /\
  (forall a a', converts_args a a' -> sound_args1 a = true -> bare_args a' = true /\ (a = [] <-> a' = [])).
Proof.
  apply converts_both_ind.
  - split; [reflexivity|constructor].
  - intros l s d d' _ IH H. destruct (IH H). split; [assumption|constructor; [exact I|assumption]].
  - intros l cs v cs' d d' _ IH1 _ IH2 H. cbn [forallb sound1] in H. apply andb_prop in H as [H1 H2]. destruct (IH1 H1) as [A1 _]. destruct (IH2 H2) as [A2 A3].
    cbn [forallb bare]. rewrite A1, A2. split; [reflexivity|constructor; [exact I|assumption]].
  - intros l lab args args' d d' _ _ _ IHa _ IH H. cbn [forallb sound1] in H. apply andb_prop in H as [H1 H2]. apply andb_prop in H1 as [H0 H1].
    destruct (IHa H1) as [A1 A2]. destruct (IH H2) as [A3 A4]. cbn [forallb bare]. fold (bare_args args'). rewrite A1, A3, !Bool.andb_true_r.
    split; [|constructor; [exact I|assumption]]. destruct (bracket lab); [|reflexivity]. destruct args; [|discriminate]. now rewrite (proj1 A2 eq_refl).
  - intros l pb lab args args' body content l' pe d d' start _ _ IHa _ IHc _ IH H. unfold begin_cmd, end_cmd in H. cbn [forallb sound1] in H. apply andb_prop in H as [H1 H]. apply andb_prop in H1 as [_ H1].
    cbn [forallb] in H1. apply andb_prop in H1 as [H0 H1]. apply andb_prop in H0 as [H0 _]. rewrite forallb_app in H. apply andb_prop in H as [H2 H]. cbn [forallb sound1] in H. apply andb_prop in H as [H3 H].
    apply andb_prop in H3 as [_ H3]. cbn [forallb] in H3. apply andb_prop in H3 as [H3 _]. apply andb_prop in H3 as [H3 _].
    destruct (IHa H1) as [A1 _]. destruct (IHc ltac:(now rewrite rebase_sound)) as [A2 _]. destruct (IH H) as [A3 A4].
    cbn [forallb bare]. fold (bare_args args'). rewrite A1, A2, A3. split; [reflexivity|constructor; [split; assumption|assumption]].
  - split; [reflexivity|now split].
  - intros pre cs v cs' args args' _ IH _ IHa H. unfold sound_args1 in H. cbn [forallb] in H. apply andb_prop in H as [H1 H2]. apply andb_prop in H1 as [_ H1].
    destruct (IH H1) as [A1 _]. destruct (IHa H2) as [A2 _]. unfold bare_args in *. cbn [forallb]. rewrite A1, A2. now split.
Qed.
Theorem parsed_bare p s d : source_fits s -> from_str2 p s = Ok d -> forallb bare d = true /\ Forall blank_env d.
Proof.
  intros B H. destruct (from_str2_split p s d B H) as (d1 & H1 & _ & _ & C). apply (from_str1_iff p s d1 B) in H1.
  apply (proj1 converts_sound _ _ C). exact (proj1 parses_sound _ _ _ H1).
Qed.

(** ** When everything is printed as it was *)
Lemma ws_not x s : forallb is_whitespace s = true -> is_whitespace x = false -> occurs x s = 0.
Proof. intros H W. apply count_occ_not_In. intros K. rewrite forallb_forall in H. rewrite (H _ K) in W. discriminate. Qed.
Lemma ws_plain x : is_whitespace x = true -> bracketing x = false.
Proof.
  intros H. unfold bracketing. cbn [existsb]. repeat match goal with |- context [N.eqb x ?k] => destruct (N.eqb_spec x k) as [->|]; [discriminate H|] end. reflexivity.
Qed.
Lemma occ_perm a b : (forall x, occurs x a = occurs x b) -> Permutation a b.
Proof. intros H. apply (Permutation_count_occ N.eq_dec). exact H. Qed.
Lemma app_split {A} (a a' b b' : list A) : length a = length a' -> a ++ b = a' ++ b' -> a = a' /\ b = b'.
Proof. revert a'. induction a as [|x a IH]; intros [|x' a'] L E; try discriminate; [now split|]. injection E as -> E. destruct (IH a' ltac:(now injection L) E) as [-> ->]. now split. Qed.
Lemma divided_occ x post envs trail : divided post envs trail ->
  o2 x post = list_sum (map (fun e => occurs x (show_variant2 (Environment2 e))) envs) + o2 x trail.
Proof.
  induction 1 as [|l args content pb pe cs envs rest _ IH|c cs envs rest _ _ IH]; [reflexivity| |].
  - rewrite o2_cons, IH. cbn [map list_sum fold_right]. match goal with |- occurs x (show_chunk2 (mkChunk2 l ?v)) + _ = _ => change (show_chunk2 (mkChunk2 l v)) with (show_variant2 v) end. unfold list_sum. lia.
  - rewrite !o2_cons, IH. lia.
Qed.
Lemma env_occ x lab args content pb pe : occurs x (show_variant2 (Environment2 (mkEnv2 lab args content pb pe))) =
  occurs x pb + occurs x pe + occurs x (show_variant2 (Environment2 (mkEnv2 lab args content [] []))).
Proof. cbn [show_variant2 show_env2]. rewrite !occ_app. change (occurs x []) with 0. lia. Qed.
Lemma divided_blank post envs trail : divided post envs trail -> Forall blank_env post -> forall lab args content pb pe, In (mkEnv2 lab args content pb pe) envs ->
  lab = S! "document" /\ forallb is_whitespace pb = true /\ forallb is_whitespace pe = true.
Proof.
  induction 1 as [|l args content pb pe cs envs rest _ IH|c cs envs rest _ _ IH]; intros F lab' args' content' pb' pe' Hi; inversion F; subst.
  - destruct Hi.
  - destruct Hi as [E|Hi]; [|now apply (IH ltac:(assumption) _ _ _ _ _ Hi)]. injection E as <- <- <- <- <-. split; [reflexivity|assumption].
  - now apply (IH ltac:(assumption) _ _ _ _ _ Hi).
Qed.
Definition letter_d : char := 100%N.
Lemma doc_d args content pb pe : 0 < occurs letter_d (show_variant2 (Environment2 (mkEnv2 (S! "document") args content pb pe))).
Proof. cbn [show_variant2 show_env2]. rewrite !occ_app. assert (0 < occurs letter_d (S! "document")) by (vm_compute; lia). lia. Qed.
Lemma last_sum (f : environment2 -> nat) e1 e2 envs d : f e1 + f (last (e2 :: envs) d) <= list_sum (map f (e1 :: e2 :: envs)).
Proof.
  revert e1 e2. induction envs as [|e3 envs IH]; intros e1 e2; [cbn; lia|]. specialize (IH e1 e3).
  change (last (e2 :: e3 :: envs) d) with (last (e3 :: envs) d). cbn [map list_sum fold_right] in *. lia.
Qed.
Lemma divided_none post trail : divided post [] trail -> trail = post /\ Forall (fun c => ~ is_document c) post.
Proof.
  remember [] as envs eqn:E. induction 1 as [| |c cs envs rest Hc _ IH]; [now split|discriminate|]. destruct (IH E) as [-> K]. split; [reflexivity|now constructor].
Qed.
Lemma last_blanks (b q l n r a3 c3 a c e q' t : str) u : b ++ u ++ l ++ n ++ r ++ a3 ++ c3 ++ e ++ q ++ l ++ n ++ t = b ++ u ++ l ++ n ++ r ++ a ++ c ++ e ++ q' ++ l ++ n ++ t ->
  length q = length q' -> q = q'.
Proof.
  intros E L. do 5 apply app_inv_head in E. apply (f_equal (@rev char)) in E. rewrite !rev_app_distr, <- !app_assoc in E. do 3 apply app_inv_head in E.
  apply app_split in E as [E _]; [|now rewrite !rev_length]. apply (f_equal (@rev char)) in E. now rewrite !rev_involutive in E.
Qed.
Theorem nothing_lost p d d3 : fits d -> (count_newlines (show2 d) < 2147483648)%N -> forallb bare d = true -> Forall blank_env d -> try_from3 p d = Ok d3 ->
  show3 d3 = show2 d ->
  exists pre l args content pb post, d = pre ++ mkChunk2 l (Environment2 (mkEnv2 (S! "document") args content pb pb)) :: post /\
    Forall (fun c => ~ is_document c) pre /\ Forall (fun c => ~ is_document c) post /\ tidy (atoms d).
Proof.
  intros F Sm B BL HT ES. destruct (parts_exist d) as (pr & envs & trail & HP).
  destruct (document_conserves p d pr envs trail d3 F HP HT) as (pre & mid & tr & E3 & (args3 & out & Em) & _ & _ & C1 & C2 & C3 & _).
  destruct HP as (post & -> & HN & Hd & HD). rewrite B in C1, C2, C3. apply Forall_app in BL as [_ BL]. pose proof (divided_blank _ _ _ HD BL) as BE.
  assert (OC : forall x, occurs x (show_chunks3 pre) + occurs x (show_chunk3 mid) + occurs x (show_chunks3 tr) =
     o2 x pr + list_sum (map (fun e => occurs x (show_variant2 (Environment2 e))) envs) + o2 x trail).
  { intros x. pose proof (divided_occ x _ _ _ HD) as K. pose proof (o2_app x pr post) as K2. rewrite <- ES, E3, !occ_app in K2. lia. }
  assert (D := OC letter_d). destruct (C1 letter_d) as [_ D1]. destruct (C2 letter_d) as [_ D2]. destruct (C3 letter_d) as [_ D3].
  rewrite D1, D2, D3 in D by reflexivity. clear D1 D2 D3.
  destruct envs as [|e1 [|e2 envs]].
  - exfalso. cbn [map list_sum fold_right last alike] in D. pose proof (doc_d [] [] [] []). lia.
  - clear D. destruct e1 as [lab args content pb pe]. destruct (BE lab args content pb pe ltac:(now left)) as (-> & W1 & W2). cbn [last alike begin_blanks] in Em, C2. cbn [map list_sum fold_right] in OC.
    assert (PB : forall x, occurs x pb = occurs x pe).
    { intros x. destruct (is_whitespace x) eqn:W; [|now rewrite !ws_not by assumption]. pose proof (ws_plain x W) as X. specialize (OC x).
      destruct (C1 x) as [_ D1]. destruct (C2 x) as [_ D2]. destruct (C3 x) as [_ D3]. rewrite D1, D2, D3 in OC by auto.
      rewrite (env_occ x _ _ _ pb pb), (env_occ x _ _ _ pb pe) in OC. lia. }
    assert (PT : forall x, occurs x (show_chunks3 pre) = o2 x pr /\ occurs x (show_chunk3 mid) = occurs x (show_variant2 (Environment2 (mkEnv2 (S! "document") args content pb pe))) /\ occurs x (show_chunks3 tr) = o2 x trail).
    { intros x. specialize (OC x). destruct (C1 x) as [D1 _]. destruct (C2 x) as [D2 _]. destruct (C3 x) as [D3 _].
      rewrite (env_occ x _ _ _ pb pb), (PB x) in D2. rewrite (env_occ x _ _ _ pb pe), (PB x) in OC |- *. lia. }
    pose proof (Permutation_length (occ_perm _ _ PB)) as LB.
    pose proof (Permutation_length (occ_perm _ _ (fun x => proj1 (PT x)))) as L1.
    pose proof (Permutation_length (occ_perm _ _ (fun x => proj1 (proj2 (PT x))))) as L2.
    inversion HD as [|l a0 c0 pb0 pe0 cs envs0 rest HD' E1 E2|c cs envs0 rest Hc HD' E1 E2]; subst.
    2:{ exfalso. apply Hc. eapply Hd. reflexivity. }
    destruct (divided_none _ _ HD') as [-> Hpost].
    assert (pb = pe) as ->.
    { rewrite E3, show2_app in ES. apply app_split in ES as [_ ES]; [|exact L1]. rewrite show2_cons in ES.
      apply app_split in ES as [ES _]; [|exact L2].
      cbn [show_chunk3 show_variant3 show_env3 show_chunk2 show_variant2 show_env2] in ES. exact (last_blanks _ _ _ _ _ _ _ _ _ _ _ _ _ ES LB). }
    do 6 eexists. split; [reflexivity|]. split; [exact HN|]. split; [exact Hpost|].
    apply (show3_exact p _ _ _ _ _ _ _ d3 HN Hpost Sm Sm HT). exact ES.
  - exfalso. pose proof (last_sum (fun e => occurs letter_d (show_variant2 (Environment2 e))) e1 e2 envs (mkEnv2 (S! "document") [] [] [] [])) as Q. cbv beta in Q.
    change (last (e1 :: e2 :: envs) (mkEnv2 (S! "document") [] [] [] [])) with (last (e2 :: envs) (mkEnv2 (S! "document") [] [] [] [])) in D.
    assert (Hl : In (last (e2 :: envs) (mkEnv2 (S! "document") [] [] [] [])) (e1 :: e2 :: envs)) by (right; apply last_in; discriminate).
    destruct (last (e2 :: envs) (mkEnv2 (S! "document") [] [] [] [])) as [lab args content pb pe]. destruct (BE _ _ _ _ _ Hl) as (-> & W1 & W2).
    destruct e1 as [lab1 args1 content1 pb1 pe1]. destruct (BE _ _ _ _ _ ltac:(now left)) as (-> & _ & _). pose proof (doc_d args1 content1 pb1 pe1) as Z.
    cbn [alike] in D. rewrite (env_occ _ _ _ _ pb pb) in D. rewrite (env_occ _ _ _ _ pb pe) in Q. rewrite !(ws_not letter_d pb W1 eq_refl) in *. rewrite (ws_not letter_d pe W2 eq_refl) in Q. lia.
Qed.
