(** * Size: documents are not larger than their sources *)
From Verif Require Import Base Ast1 Parse1 Ast2 Ast3 SpecDoc1 SpecDoc2 SpecDoc3 SpecSize SpecDepth Depth0 Depth1 Depth2 Depth3 Depth3b.
From Coq Require Import Lia Arith.
Open Scope nat_scope.

Lemma sum_concat {A} (n : A -> nat) (f : A -> str) l : (forall x, In x l -> n x <= length (f x)) -> list_sum (map n l) <= length (concat (map f l)).
Proof.
  induction l as [|x l IH]; intros H; [reflexivity|]. cbn [map concat]. change (n x + list_sum (map n l) <= length (f x ++ concat (map f l))).
  rewrite app_length. specialize (H x (or_introl eq_refl)) as Hx. specialize (IH (fun y Hy => H y (or_intror Hy))). lia.
Qed.
(** ** stage 1 *)
Lemma within1_trans a b c : within1 a b -> within1 b c -> within1 a c.
Proof. intros H K. induction K; [exact H|eapply w1_scope|eapply w1_arg]; eassumption. Qed.
Lemma nodes1_show k : forall cs, depth1 cs <= k -> (forall es l t, within1 cs es -> In (mkChunk1 l (Text1 t)) es -> t <> []) ->
  nodes1 cs <= length (show1 cs).
Proof.
  induction k as [k IH] using lt_wf_ind. intros cs Hk Ht.
  assert (IN : forall inner, within1 cs inner -> depth1 inner < k -> nodes1 inner <= length (show1 inner)).
  { intros inner Hi Hd. apply (IH (depth1 inner)); [lia|lia|]. intros es l t He. apply Ht. exact (within1_trans _ _ _ Hi He). }
  unfold nodes1, show1. apply sum_concat. intros [l v] Hc. pose proof (in_list_max depth_chunk1 _ _ Hc) as D. fold (depth1 cs) in D.
  destruct v as [t|[lab args]|[inner v]].
  - specialize (Ht cs l t (w1_self _) Hc). destruct t; [congruence|]. cbn [show_chunk1 show_variant1 nodes_chunk1 length]. lia.
  - change (S (list_sum (map (fun a => match a with (_, sc) => nodes_scope1 sc end) args)) <=
      length (c_bslash :: lab ++ concat (map (fun a => match a with (pre, sc) => pre ++ show_scope1 sc end) args))).
    cbn [length]. rewrite app_length. enough (list_sum (map (fun a => match a with (_, sc) => nodes_scope1 sc end) args) <= length (concat (map (fun a => match a with (pre, sc) => pre ++ show_scope1 sc end) args))) by lia.
    apply sum_concat. intros [pre [inner v]] Ha. pose proof (in_list_max (fun a => match a with (_, sc) => depth_scope1 sc end) _ _ Ha) as D2.
    change (S (depth1 inner) <= depth_command1 (mkCommand1 lab args)) in D2. cbn [depth_chunk1] in D.
    change (S (nodes1 inner) <= length (pre ++ open1 v :: show1 inner ++ [close1 v])). rewrite app_length. cbn [length]. rewrite app_length. cbn [length].
    specialize (IN inner ltac:(eapply w1_arg; [apply w1_self|exact Hc|exact Ha]) ltac:(lia)). lia.
  - change (S (depth1 inner) <= depth1 cs) in D. change (S (nodes1 inner) <= length (open1 v :: show1 inner ++ [close1 v])).
    cbn [length]. rewrite app_length. specialize (IN inner ltac:(eapply w1_scope; [apply w1_self|exact Hc]) ltac:(lia)). lia.
Qed.
(** ** stage 2 *)
Lemma within2_trans a b c : within2 a b -> within2 b c -> within2 a c.
Proof. intros H K. induction K; [exact H|eapply w2_scope|eapply w2_arg|eapply w2_env_arg|eapply w2_env]; eassumption. Qed.
Lemma nodes2_show k : forall cs, depth2 cs <= k -> (forall es l t, within2 cs es -> In (mkChunk2 l (Text2 t)) es -> t <> []) ->
  nodes2 cs <= length (show2 cs).
Proof.
  induction k as [k IH] using lt_wf_ind. intros cs Hk Ht.
  assert (IN : forall inner, within2 cs inner -> depth2 inner < k -> nodes2 inner <= length (show2 inner)).
  { intros inner Hi Hd. apply (IH (depth2 inner)); [lia|lia|]. intros es l t He. apply Ht. exact (within2_trans _ _ _ Hi He). }
  assert (AR : forall args, (forall pre inner v, In (pre, mkScope2 inner v) args -> within2 cs inner) -> depth_args2 args <= k ->
    list_sum (map (fun a => match a with (_, sc) => nodes_scope2 sc end) args) <= length (concat (map (fun a => match a with (pre, sc) => pre ++ show_scope2 sc end) args))).
  { intros args Hi Hd. apply sum_concat. intros [pre [inner v]] Ha. pose proof (in_list_max (fun a => match a with (_, sc) => depth_scope2 sc end) _ _ Ha) as D2.
    change (S (depth2 inner) <= depth_args2 args) in D2.
    change (S (nodes2 inner) <= length (pre ++ open2 v :: show2 inner ++ [close2 v])). rewrite app_length. cbn [length]. rewrite app_length. cbn [length].
    specialize (IN inner (Hi _ _ _ Ha) ltac:(lia)). lia. }
  unfold nodes2, show2. apply sum_concat. intros [l v] Hc. pose proof (in_list_max depth_chunk2 _ _ Hc) as D. fold (depth2 cs) in D.
  destruct v as [t|[lab args]|[inner v]|[lab args content pb pe]].
  - specialize (Ht cs l t (w2_self _) Hc). destruct t; [congruence|]. cbn [show_chunk2 show_variant2 nodes_chunk2 length]. lia.
  - change (S (list_sum (map (fun a => match a with (_, sc) => nodes_scope2 sc end) args)) <=
      length (c_bslash :: lab ++ concat (map (fun a => match a with (pre, sc) => pre ++ show_scope2 sc end) args))).
    cbn [length]. rewrite app_length. change (depth_args2 args <= depth2 cs) in D.
    specialize (AR args ltac:(intros pre inner v Ha; eapply w2_arg; [apply w2_self|exact Hc|exact Ha]) ltac:(lia)). lia.
  - change (S (depth2 inner) <= depth2 cs) in D. change (S (nodes2 inner) <= length (open2 v :: show2 inner ++ [close2 v])).
    cbn [length]. rewrite app_length. specialize (IN inner ltac:(eapply w2_scope; [apply w2_self|exact Hc]) ltac:(lia)). lia.
  - change (Nat.max (depth_args2 args) (S (depth2 content)) <= depth2 cs) in D.
    change (S (list_sum (map (fun a => match a with (_, sc) => nodes_scope2 sc end) args) + nodes2 content) <= length (
      (c_bslash :: s_begin) ++ pb ++ [c_lcurly] ++ lab ++ [c_rcurly] ++ concat (map (fun a => match a with (pre, sc) => pre ++ show_scope2 sc end) args)
      ++ show2 content ++ (c_bslash :: s_end) ++ pe ++ [c_lcurly] ++ lab ++ [c_rcurly])).
    rewrite !app_length. change (length (c_bslash :: s_begin)) with 6. 
    specialize (AR args ltac:(intros pre inner v Ha; eapply w2_env_arg; [apply w2_self|exact Hc|exact Ha]) ltac:(lia)).
    specialize (IN content ltac:(eapply w2_env; [apply w2_self|exact Hc]) ltac:(lia)). lia.
Qed.
(** ** stage 3 *)
Definition filled (cs : list chunk3) : Prop := forall l t, (In (mkChunk3 l (Text3 t)) cs -> t <> []) /\ (In (mkChunk3 l (ParagraphBreak3 t)) cs -> t <> []).
Lemma nodes3_show k : forall cs, depth3 cs <= k -> (forall es, within3 cs es -> filled es) -> nodes3 cs <= length (show_chunks3 cs).
Proof.
  induction k as [k IH] using lt_wf_ind. intros cs Hk Ht.
  assert (IN : forall inner, within3 cs inner -> depth3 inner < k -> nodes3 inner <= length (show_chunks3 inner)).
  { intros inner Hi Hd. apply (IH (depth3 inner)); [lia|lia|]. intros es He. apply Ht. exact (within3_trans _ _ _ Hi He). }
  assert (AR : forall args, (forall pre inner v, In (pre, mkScope3 inner v) args -> within3 cs inner) -> depth_args3 args <= k ->
    list_sum (map (fun a => match a with (_, sc) => nodes_scope3 sc end) args) <= length (concat (map (fun a => match a with (pre, sc) => pre ++ show_scope3 sc end) args))).
  { intros args Hi Hd. apply sum_concat. intros [pre [inner v]] Ha. pose proof (in_list_max (fun a => match a with (_, sc) => depth_scope3 sc end) _ _ Ha) as D2.
    change (S (depth3 inner) <= depth_args3 args) in D2.
    change (S (nodes3 inner) <= length (pre ++ open3 v :: show_chunks3 inner ++ [close3 v])). rewrite app_length. cbn [length]. rewrite app_length. cbn [length].
    specialize (IN inner (Hi _ _ _ Ha) ltac:(lia)). lia. }
  unfold nodes3, show_chunks3. apply sum_concat. intros [l v] Hc. pose proof (in_list_max depth_chunk3 _ _ Hc) as D. fold (depth3 cs) in D.
  destruct v as [t|t|[mv mt content]|[lab args]|[inner v]|[lab args content pb pe]].
  - pose proof (proj1 (Ht cs (w3_self _) l t) Hc) as Hn. destruct t; [congruence|]. cbn [show_chunk3 show_variant3 nodes_chunk3 length]. lia.
  - pose proof (proj2 (Ht cs (w3_self _) l t) Hc) as Hn. destruct t; [congruence|]. cbn [show_chunk3 show_variant3 nodes_chunk3 length]. lia.
  - change (S (depth3 content) <= depth3 cs) in D.
    change (S (nodes3 content) <= length (fst (maths_delims mv mt) ++ show_chunks3 content ++ snd (maths_delims mv mt))).
    rewrite !app_length. specialize (IN content ltac:(eapply w3_maths; [apply w3_self|exact Hc]) ltac:(lia)). destruct mv, mt; cbn [maths_delims fst snd length]; lia.
  - change (S (list_sum (map (fun a => match a with (_, sc) => nodes_scope3 sc end) args)) <=
      length (c_bslash :: lab ++ concat (map (fun a => match a with (pre, sc) => pre ++ show_scope3 sc end) args))).
    cbn [length]. rewrite app_length. change (depth_args3 args <= depth3 cs) in D.
    specialize (AR args ltac:(intros pre inner v Ha; eapply w3_arg; [apply w3_self|exact Hc|exact Ha]) ltac:(lia)). lia.
  - change (S (depth3 inner) <= depth3 cs) in D. change (S (nodes3 inner) <= length (open3 v :: show_chunks3 inner ++ [close3 v])).
    cbn [length]. rewrite app_length. specialize (IN inner ltac:(eapply w3_scope; [apply w3_self|exact Hc]) ltac:(lia)). lia.
  - change (Nat.max (depth_args3 args) (S (depth3 content)) <= depth3 cs) in D.
    change (S (list_sum (map (fun a => match a with (_, sc) => nodes_scope3 sc end) args) + nodes3 content) <= length (
      (c_bslash :: s_begin) ++ pb ++ [c_lcurly] ++ lab ++ [c_rcurly] ++ concat (map (fun a => match a with (pre, sc) => pre ++ show_scope3 sc end) args)
      ++ show_chunks3 content ++ (c_bslash :: s_end) ++ pe ++ [c_lcurly] ++ lab ++ [c_rcurly])).
    rewrite !app_length. change (length (c_bslash :: s_begin)) with 6. 
    specialize (AR args ltac:(intros pre inner v Ha; eapply w3_env_arg; [apply w3_self|exact Hc|exact Ha]) ltac:(lia)).
    specialize (IN content ltac:(eapply w3_env; [apply w3_self|exact Hc]) ltac:(lia)). lia.
Qed.
