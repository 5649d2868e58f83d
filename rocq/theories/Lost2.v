(** * Lost2: what the conversion to stage 3 may lose: documents *)
From Verif Require Import Base Ast1 Parse1 Ast2 Ast3 SpecDoc1 SpecDoc2 SpecUnnum SpecDoc3 SpecBack3 Reads SpecMaths3 SpecPar3 SpecReads SpecClass3 SpecRead3 SpecWrap SpecSeen SpecLost Par3 Valid2 Valid3 Keep3 ReadsW KeepW Read3 Mono Doc3 Again3d Again3e Seen2 Lost.
From Coq Require Import Lia Permutation.
Open Scope nat_scope.

Theorem maths_conserves p cs out : fits cs -> maths_from_chunks p cs = Ok out -> forall x, conserves x (o3 x out) (o2 x cs) (forallb bare cs).
Proof.
  intros F M x. assert (MR : maths_from_chunks Release cs = Ok out).
  { destruct p; [|exact M]. pose proof (maths_leq true Debug Release ltac:(now right) cs) as L. rewrite M in L. destruct L as [L|L]; [congruence|]. symmetry. exact L. }
  change (Ok out) with (to_outcome (Good out)) in MR. apply (wmaths_reads cs _ F) in MR. exact (proj1 (wreads_occ x) _ _ _ MR out eq_refl).
Qed.
Lemma divided_bare post envs trail : divided post envs trail -> forallb bare post = true ->
  forallb bare trail = true /\ forall e, In e envs -> forall l, bare (mkChunk2 l (Environment2 e)) = true.
Proof.
  induction 1 as [|l args content pb pe cs envs rest _ IH|c cs envs rest _ _ IH]; cbn [forallb]; intros B.
  - split; [reflexivity|intros e []].
  - apply andb_prop in B as [B1 B2]. destruct (IH B2) as [I1 I2]. split; [exact I1|]. intros e [<-|He] l'; [exact B1|now apply I2].
  - apply andb_prop in B as [B1 B2]. destruct (IH B2) as [I1 I2]. rewrite B1. split; [exact I1|exact I2].
Qed.
Lemma divided_bracketless post envs trail : divided post envs trail -> forallb bracketless post = true ->
  forallb bracketless trail = true /\ forall e, In e envs -> forall l, bracketless (mkChunk2 l (Environment2 e)) = true.
Proof.
  induction 1 as [|l args content pb pe cs envs rest _ IH|c cs envs rest _ _ IH]; cbn [forallb]; intros B.
  - split; [reflexivity|intros e []].
  - apply andb_prop in B as [B1 B2]. destruct (IH B2) as [I1 I2]. split; [exact I1|]. intros e [<-|He] l'; [exact B1|now apply I2].
  - apply andb_prop in B as [B1 B2]. destruct (IH B2) as [I1 I2]. rewrite B1. split; [exact I1|exact I2].
Qed.
Lemma last_map {A B} (f : A -> B) l d : last (map f l) (f d) = f (last l d).
Proof. induction l as [|a [|b l] IH]; [reflexivity|reflexivity|]. exact IH. Qed.
Lemma reprinted_last pr envs trail : reprinted pr envs trail = pr ++ mkChunk2 1 (Environment2 (alike (last envs (mkEnv2 (S! "document") [] [] [] [])))) :: trail.
Proof. unfold reprinted, put_together. change (mkEnv2 (S! "document") [] [] [] []) with (alike (mkEnv2 (S! "document") [] [] [] [])) at 1. now rewrite last_map. Qed.

Definition begin_blanks (e : environment2) : str := match e with mkEnv2 _ _ _ pb _ => pb end.
Theorem document_conserves p d pr envs trail d3 : fits d -> parts d pr envs trail -> try_from3 p d = Ok d3 ->
  exists pre mid tr, show3 d3 = show_chunks3 pre ++ show_chunk3 mid ++ show_chunks3 tr /\
    (exists args3 out, mid = mkChunk3 1 (Environment3 (mkEnv3 (S! "document") args3 out (begin_blanks (last envs (mkEnv2 (S! "document") [] [] [] []))) (begin_blanks (last envs (mkEnv2 (S! "document") [] [] [] [])))))) /\
    maths_from_chunks Release pr = Ok pre /\ maths_from_chunks Release trail = Ok tr /\
    (forall x, conserves x (o3 x pre) (o2 x pr) (forallb bare d)) /\
    (forall x, conserves x (occurs x (show_chunk3 mid)) (occurs x (show_variant2 (Environment2 (alike (last envs (mkEnv2 (S! "document") [] [] [] [])))))) (forallb bare d)) /\
    (forall x, conserves x (o3 x tr) (o2 x trail) (forallb bare d)) /\
    (forallb bracketless d = true -> forall x, o3 x pre = o2 x pr /\ o3 x tr = o2 x trail /\
      occurs x (show_chunk3 mid) = occurs x (show_variant2 (Environment2 (alike (last envs (mkEnv2 (S! "document") [] [] [] [])))))).
Proof.
  intros F HP HT0. assert (HT : try_from3 Release d = Ok d3).
  { destruct p; [|exact HT0]. pose proof (try_from3_leq true Debug Release ltac:(now right) d) as L. rewrite HT0 in L. destruct L as [L|L]; [congruence|]. symmetry. exact L. }
  clear HT0. change (Ok d3) with (to_outcome (Good d3)) in HT. apply (wdocument_iff d _ F) in HT.
  remember (Good d3) as R eqn:ER. destruct HT as [pr' envs' trail' e HP' Hc|pr' envs' trail' cls pss opts rb rp rt HP' Hc _ _ HB Hp Ht]; [discriminate|].
  assert (pr' = pr /\ envs' = envs /\ trail' = trail) as (-> & -> & ->) by (eapply parts_unique; eassumption).
  apply andthen_good in ER as (body & f & -> & E1 & ->). apply andthen_good in E1 as (pre & tr & -> & -> & ->).
  destruct (parts_fits _ _ _ _ HP F) as (F1 & F2 & F3). destruct HP as (post & -> & HN & _ & HD).
  set (dflt := mkEnv2 (S! "document") [] [] [] []) in *. set (en := last envs dflt) in *.
  assert (BV : exists args content pb, pb = begin_blanks en /\ wreads_variant (Environment2 (alike en)) (Good (Environment3 (mkEnv3 (S! "document") args content pb pb))) /\
     exists pe, document_of cls opts body pre tr = mkDoc3 cls opts pre content args pb pe tr).
  { pose proof (wbodies_last _ _ HB body eq_refl) as K. destruct body as [b|].
    - specialize (K dflt). fold en in K. destruct (wread_env _ _ K) as (lab & args & content & pb & pe & args3 & out & Ee & K1 & K2 & ->).
      assert (lab = S! "document") as ->.
      { assert (Hl : env_label2 en = S! "document"); [|now rewrite Ee in Hl]. destruct envs as [|e0 envs]; [reflexivity|]. apply (divided_names _ _ _ HD). apply last_in. discriminate. }
      exists args3, out, pb. rewrite Ee. split; [reflexivity|]. split; [|exists pe; reflexivity]. cbn [alike]. exact (wv_environment (S! "document") args content pb pb (Good args3) (Good out) K1 K2).
    - subst envs. exists [], [], []. split; [reflexivity|]. split; [|exists []; reflexivity]. exact (wv_environment (S! "document") [] [] [] [] (Good []) (Good []) wa_nil (wd_nil 0)). }
  destruct BV as (args3 & out & pb & PB & V & pe & E). rewrite E.
  exists pre, (mkChunk3 1 (Environment3 (mkEnv3 (S! "document") args3 out pb pb))), tr.
  split; [apply show3_env|]. split; [exists args3, out; now rewrite PB|]. split; [exact (proj2 (wmaths_reads _ _ F1) Hp)|]. split; [exact (proj2 (wmaths_reads _ _ F2) Ht)|].
  assert (BB : forallb bare (pr ++ post) = true -> forallb bare pr = true /\ forallb bare trail = true /\ bare (mkChunk2 1 (Environment2 (alike en))) = true).
  { rewrite forallb_app. intros B. apply andb_prop in B as [B1 B2]. destruct (divided_bare _ _ _ HD B2) as [B3 B4]. split; [exact B1|]. split; [exact B3|].
    assert (B5 : bare (mkChunk2 1 (Environment2 en)) = true). { destruct envs as [|e0 envs]; [reflexivity|]. apply B4. apply last_in. discriminate. }
    destruct en. exact B5. }
  assert (BL : forallb bracketless (pr ++ post) = true -> forallb bracketless pr = true /\ forallb bracketless trail = true /\ bracketless (mkChunk2 1 (Environment2 (alike en))) = true).
  { rewrite forallb_app. intros B. apply andb_prop in B as [B1 B2]. destruct (divided_bracketless _ _ _ HD B2) as [B3 B4]. split; [exact B1|]. split; [exact B3|].
    assert (B5 : bracketless (mkChunk2 1 (Environment2 en)) = true). { destruct envs as [|e0 envs]; [reflexivity|]. apply B4. apply last_in. discriminate. }
    destruct en. exact B5. }
  split; [|split; [|split]].
  - intros x. destruct (proj1 (wreads_occ x) _ _ _ Hp pre eq_refl) as [I1 I2]. split; [exact I1|]. intros B. apply I2. now apply BB.
  - intros x. destruct (proj1 (proj2 (wreads_occ x)) _ _ V _ eq_refl 1%N) as [I1 I2]. split; [exact I1|]. intros B. apply I2. now apply BB.
  - intros x. destruct (proj1 (wreads_occ x) _ _ _ Ht tr eq_refl) as [I1 I2]. split; [exact I1|]. intros B. apply I2. now apply BB.
  - intros B x. destruct (BL B) as (B1 & B2 & B3). split; [exact (proj1 (wreads_same x) _ _ _ Hp pre eq_refl B1)|]. split; [exact (proj1 (wreads_same x) _ _ _ Ht tr eq_refl B2)|].
    exact (proj1 (proj2 (wreads_same x)) _ _ V _ eq_refl 1%N B3).
Qed.
Theorem document_occurs p d pr envs trail d3 : fits d -> parts d pr envs trail -> try_from3 p d = Ok d3 ->
  forall x, conserves x (occurs x (show3 d3)) (occurs x (show2 (reprinted pr envs trail))) (forallb bare d).
Proof.
  intros F HP HT x. destruct (document_conserves p d pr envs trail d3 F HP HT) as (pre & mid & tr & -> & _ & _ & _ & C1 & C2 & C3 & _).
  destruct (C1 x) as [A1 B1]. destruct (C2 x) as [A2 B2]. destruct (C3 x) as [A3 B3]. rewrite reprinted_last. unfold conserves. rewrite !occ_app, o2_app, o2_cons.
  match goal with |- context [show_chunk2 (mkChunk2 1 ?v)] => change (show_chunk2 (mkChunk2 1 v)) with (show_variant2 v) end.
  split; [lia|]. intros B X. rewrite B1, B2, B3 by assumption. reflexivity.
Qed.

Theorem maths_permutes p cs out : fits cs -> maths_from_chunks p cs = Ok out -> forallb bracketless cs = true -> Permutation (show_chunks3 out) (show2 cs).
Proof.
  intros F M B. assert (MR : maths_from_chunks Release cs = Ok out).
  { destruct p; [|exact M]. pose proof (maths_leq true Debug Release ltac:(now right) cs) as L. rewrite M in L. destruct L as [L|L]; [congruence|]. symmetry. exact L. }
  change (Ok out) with (to_outcome (Good out)) in MR. apply (wmaths_reads cs _ F) in MR. apply (Permutation_count_occ N.eq_dec). intros x. exact (proj1 (wreads_same x) _ _ _ MR out eq_refl B).
Qed.
Theorem document_permutes p d pr envs trail d3 : fits d -> parts d pr envs trail -> try_from3 p d = Ok d3 -> forallb bracketless d = true ->
  Permutation (show3 d3) (show2 (reprinted pr envs trail)).
Proof.
  intros F HP HT B. apply (Permutation_count_occ N.eq_dec). intros x. fold (occurs x (show3 d3)). fold (o2 x (reprinted pr envs trail)).
  destruct (document_conserves p d pr envs trail d3 F HP HT) as (pre & mid & tr & -> & _ & _ & _ & _ & _ & _ & C). destruct (C B x) as (C1 & C2 & C3).
  rewrite reprinted_last, !occ_app, o2_app, o2_cons.
  match goal with |- context [show_chunk2 (mkChunk2 1 ?v)] => change (show_chunk2 (mkChunk2 1 v)) with (show_variant2 v) end. lia.
Qed.
