(** * Rules: complete description of push and push_chunk, stages 1, 2 and 3 *)
From Verif Require Import Base Ast1 Parse1 Ast2 Ast3 SpecDoc1 SpecDoc2 SpecDoc3 Tok Pure1 Refine1 Ind Lines Facts1 Valid1 Valid2 Valid3.


Lemma joined1_push d c : joined1 d c (push_chunk_unchecked1 d c).
Proof.
  destruct d as [|x d] using rev_ind.
  { apply (joined_other1 []). intros (d0 & l & s & l' & s' & H & _). now destruct d0. }
  clear IHd. rewrite push_chunk_unchecked1_snoc.
  assert (J : (forall d0 l s l' s', d ++ [x] = d0 ++ [mkChunk1 l (Text1 s)] -> c <> mkChunk1 l' (Text1 s')) ->
              joined1 (d ++ [x]) c (d ++ [x; c])).
  { intros H. change [x; c] with ([x] ++ [c]). rewrite app_assoc. apply joined_other1.
    intros (d0 & l & s & l' & s' & Hd & Hc). exact (H _ _ _ _ _ Hd Hc). }
  destruct c as [lc v]. cbn [variant_of1].
  destruct v; try (apply J; intros; discriminate).
  destruct x as [lx vx]; destruct vx; try (apply J; intros d0 l s' l' s'' H _; apply app_inj_tail in H as [_ H]; discriminate).
  apply joined_text1.
Qed.

Lemma end_line1_ends {E} p d L : ends_at1 d L -> L + 1 < two32 -> @end_line1 E p d = Ok L.
Proof.
  intros [[-> ->]|(d0 & x & -> & ->)] B; unfold end_line1; [reflexivity|].
  rewrite rev_app_distr. cbn [rev app]. rewrite lines_ok1 by lia. cbn [bind].
  rewrite add32_ok by lia. cbn [bind]. rewrite sub32_ok by lia. f_equal. lia.
Qed.

Lemma push_chunk1_any p d c L : ends_at1 d L -> L + 1 < two32 ->
  (forall e, validate_chunk1 c = Err e -> push_chunk1 p d c = Err e) /\
  (validate_chunk1 c = Ok tt -> line_no1 c <> L ->
     push_chunk1 p d c = Err (IncorrectChunkLineNumber L (line_no1 c))) /\
  (validate_chunk1 c = Ok tt -> line_no1 c = L ->
     exists d', push_chunk1 p d c = Ok d' /\ joined1 d c d').
Proof.
  intros H B. unfold push_chunk1. split; [|split].
  - intros e ->. reflexivity.
  - intros -> Hne. cbn [bind]. rewrite (end_line1_ends p d L H B). cbn [bind].
    replace (L =? line_no1 c) with false; [reflexivity|]. symmetry. apply N.eqb_neq. congruence.
  - intros -> He. cbn [bind]. rewrite (end_line1_ends p d L H B). cbn [bind]. rewrite He, N.eqb_refl. cbn [negb].
    eexists. split; [reflexivity|]. apply joined1_push.
Qed.

Lemma push1_any p d v L : ends_at1 d L -> L + 1 < two32 ->
  (forall e, validate_variant1 v = Err e -> push1 p d v = Err e) /\
  (validate_variant1 v = Ok tt -> exists d', push1 p d v = Ok d' /\ joined1 d (mkChunk1 L v) d').
Proof.
  intros H B. unfold push1, push_unchecked1. split.
  - intros e ->. reflexivity.
  - intros ->. cbn [bind]. rewrite (end_line1_ends p d L H B). cbn [bind].
    eexists. split; [reflexivity|]. apply joined1_push.
Qed.

Lemma wf_ends_at1 d : well_formed1 d -> ends_at1 d (1 + count_newlines (show1 d)).
Proof.
  intros [H _]. destruct d as [|x d] using rev_ind; [left; split; reflexivity|]. clear IHd. right. exists d, x.
  split; [reflexivity|]. rewrite (H d x [] eq_refl), show1_app, show1_one, count_newlines_app. lia.
Qed.

Lemma joined2_push d c : joined2 d c (push_chunk_unchecked2 d c).
Proof.
  destruct d as [|x d] using rev_ind.
  { apply (joined_other2 []). intros (d0 & l & s & l' & s' & H & _). now destruct d0. }
  clear IHd. rewrite push_chunk_unchecked2_snoc.
  assert (J : (forall d0 l s l' s', d ++ [x] = d0 ++ [mkChunk2 l (Text2 s)] -> c <> mkChunk2 l' (Text2 s')) ->
              joined2 (d ++ [x]) c (d ++ [x; c])).
  { intros H. change [x; c] with ([x] ++ [c]). rewrite app_assoc. apply joined_other2.
    intros (d0 & l & s & l' & s' & Hd & Hc). exact (H _ _ _ _ _ Hd Hc). }
  destruct c as [lc v]. cbn [variant_of2].
  destruct v; try (apply J; intros; discriminate).
  destruct x as [lx vx]; destruct vx; try (apply J; intros d0 l s' l' s'' H _; apply app_inj_tail in H as [_ H]; discriminate).
  apply joined_text2.
Qed.

Lemma end_line2_ends {E} p d L : ends_at2 d L -> L + 1 < two32 -> @end_line2 E p d = Ok L.
Proof.
  intros [[-> ->]|(d0 & x & -> & ->)] B; unfold end_line2; [reflexivity|].
  rewrite rev_app_distr. cbn [rev app]. rewrite lines_ok2 by lia. cbn [bind].
  rewrite add32_ok by lia. cbn [bind]. rewrite sub32_ok by lia. f_equal. lia.
Qed.

Lemma push_chunk2_any p d c L : ends_at2 d L -> L + 1 < two32 ->
  (forall e, validate_chunk2 c = Err e -> push_chunk2 p d c = Err e) /\
  (validate_chunk2 c = Ok tt -> line_no2 c <> L ->
     push_chunk2 p d c = Err (IncorrectChunkLineNumber L (line_no2 c))) /\
  (validate_chunk2 c = Ok tt -> line_no2 c = L ->
     exists d', push_chunk2 p d c = Ok d' /\ joined2 d c d').
Proof.
  intros H B. unfold push_chunk2. split; [|split].
  - intros e ->. reflexivity.
  - intros -> Hne. cbn [bind]. rewrite (end_line2_ends p d L H B). cbn [bind].
    replace (L =? line_no2 c) with false; [reflexivity|]. symmetry. apply N.eqb_neq. congruence.
  - intros -> He. cbn [bind]. rewrite (end_line2_ends p d L H B). cbn [bind]. rewrite He, N.eqb_refl. cbn [negb].
    eexists. split; [reflexivity|]. apply joined2_push.
Qed.

Lemma push2_any p d v L : ends_at2 d L -> L + 1 < two32 ->
  (forall e, validate_variant2 v = Err e -> push2 p d v = Err e) /\
  (validate_variant2 v = Ok tt -> exists d', push2 p d v = Ok d' /\ joined2 d (mkChunk2 L v) d').
Proof.
  intros H B. unfold push2, push_unchecked2. split.
  - intros e ->. reflexivity.
  - intros ->. cbn [bind]. rewrite (end_line2_ends p d L H B). cbn [bind].
    eexists. split; [reflexivity|]. apply joined2_push.
Qed.

Lemma wf_ends_at2 d : well_formed2 d -> ends_at2 d (1 + count_newlines (show2 d)).
Proof.
  intros [H _]. destruct d as [|x d] using rev_ind; [left; split; reflexivity|]. clear IHd. right. exists d, x.
  split; [reflexivity|]. rewrite (H d x [] eq_refl), show2_app, show2_one, count_newlines_app. lia.
Qed.

Lemma joined3_push d c : joined3 d c (push_chunk_vec_unchecked d c).
Proof.
  destruct d as [|x d] using rev_ind.
  { apply (joined_other3 []). intros (d0 & l & s & l' & s' & H & _). now destruct d0. }
  clear IHd. rewrite push_chunk_vec_unchecked_snoc.
  assert (J : (forall d0 l s l' s', d ++ [x] = d0 ++ [mkChunk3 l (Text3 s)] -> c <> mkChunk3 l' (Text3 s')) ->
              joined3 (d ++ [x]) c (d ++ [x; c])).
  { intros H. change [x; c] with ([x] ++ [c]). rewrite app_assoc. apply joined_other3.
    intros (d0 & l & s & l' & s' & Hd & Hc). exact (H _ _ _ _ _ Hd Hc). }
  destruct c as [lc v]. cbn [variant_of3].
  destruct v; try (apply J; intros; discriminate).
  destruct x as [lx vx]; destruct vx; try (apply J; intros d0 l s' l' s'' H _; apply app_inj_tail in H as [_ H]; discriminate).
  apply joined_text3.
Qed.

Lemma end_line3_ends {E} p d L : ends_at3 d L -> L + 1 < two32 -> @end_line3 E p d = Ok L.
Proof.
  intros [[-> ->]|(d0 & x & -> & ->)] B; unfold end_line3; [reflexivity|].
  rewrite rev_app_distr. cbn [rev app]. rewrite lines_ok3 by lia. cbn [bind].
  rewrite add32_ok by lia. cbn [bind]. rewrite sub32_ok by lia. f_equal. lia.
Qed.

Lemma push_chunk_vec_any p d c L : ends_at3 d L -> L + 1 < two32 ->
  (forall e, validate_chunk3 p c = Err e -> push_chunk_vec p d c = Err e) /\
  (validate_chunk3 p c = Ok tt -> line_no3 c <> L ->
     push_chunk_vec p d c = Err (IncorrectChunkLineNumber L (line_no3 c))) /\
  (validate_chunk3 p c = Ok tt -> line_no3 c = L ->
     exists d', push_chunk_vec p d c = Ok d' /\ joined3 d c d').
Proof.
  intros H B. unfold push_chunk_vec. split; [|split].
  - intros e ->. reflexivity.
  - intros -> Hne. cbn [bind]. rewrite (end_line3_ends p d L H B). cbn [bind].
    replace (L =? line_no3 c) with false; [reflexivity|]. symmetry. apply N.eqb_neq. congruence.
  - intros -> He. cbn [bind]. rewrite (end_line3_ends p d L H B). cbn [bind]. rewrite He, N.eqb_refl. cbn [negb].
    eexists. split; [reflexivity|]. apply joined3_push.
Qed.

Lemma push_vec_any p d v L : ends_at3 d L -> L + 1 < two32 ->
  (forall e, validate_variant3 p v = Err e -> push_vec p d v = Err e) /\
  (validate_variant3 p v = Ok tt -> exists d', push_vec p d v = Ok d' /\ joined3 d (mkChunk3 L v) d').
Proof.
  intros H B. unfold push_vec, push_vec_unchecked. split.
  - intros e ->. reflexivity.
  - intros ->. cbn [bind]. rewrite (end_line3_ends p d L H B). cbn [bind].
    eexists. split; [reflexivity|]. apply joined3_push.
Qed.

Lemma wf_ends_at3 d : well_formed_vec3 d -> ends_at3 d (1 + count_newlines (show_chunks3 d)).
Proof.
  intros [H _]. destruct d as [|x d] using rev_ind; [left; split; reflexivity|]. clear IHd. right. exists d, x.
  split; [reflexivity|]. rewrite (H d x [] eq_refl), show_chunks3_app, show_chunks3_one, count_newlines_app. lia.
Qed.

(** ** Frame conditions of stage-3 pushes *)
Lemma push3_frame p s d v d' : push3 p s d v = Ok d' ->
  show_chunks3 (get_section s d') = show_chunks3 (get_section s d) ++ show_variant3 v /\
  (forall s', s' <> s -> get_section s' d' = get_section s' d) /\
  d_class d' = d_class d /\ d_options d' = d_options d /\ d_body_args d' = d_body_args d /\
  d_begin_prec d' = d_begin_prec d /\ d_end_prec d' = d_end_prec d.
Proof.
  unfold push3. destruct (push_vec p (get_section s d) v) as [cs|e| |] eqn:E; cbn [bind]; try discriminate.
  intros H. injection H as <-. rewrite get_set_same. split; [now apply push_vec_show in E|].
  split; [intros s' Hs; apply get_set_other; congruence|]. destruct s; repeat split.
Qed.
Lemma push_chunk3_frame p s d c d' : push_chunk3 p s d c = Ok d' ->
  show_chunks3 (get_section s d') = show_chunks3 (get_section s d) ++ show_chunk3 c /\
  (forall s', s' <> s -> get_section s' d' = get_section s' d) /\
  d_class d' = d_class d /\ d_options d' = d_options d /\ d_body_args d' = d_body_args d /\
  d_begin_prec d' = d_begin_prec d /\ d_end_prec d' = d_end_prec d.
Proof.
  unfold push_chunk3. destruct (push_chunk_vec p (get_section s d) c) as [cs|e| |] eqn:E; cbn [bind]; try discriminate.
  intros H. injection H as <-. rewrite get_set_same. split; [now apply push_chunk_vec_show in E|].
  split; [intros s' Hs; apply get_set_other; congruence|]. destruct s; repeat split.
Qed.
Lemma push_chunk3_any p s d c L : ends_at3 (get_section s d) L -> L + 1 < two32 ->
  (forall e, validate_chunk3 p c = Err e -> push_chunk3 p s d c = Err e) /\
  (validate_chunk3 p c = Ok tt -> line_no3 c <> L ->
     push_chunk3 p s d c = Err (IncorrectChunkLineNumber L (line_no3 c))) /\
  (validate_chunk3 p c = Ok tt -> line_no3 c = L ->
     exists d', push_chunk3 p s d c = Ok d' /\ joined3 (get_section s d) c (get_section s d')).
Proof.
  intros H B. destruct (push_chunk_vec_any p _ c L H B) as (A1 & A2 & A3). unfold push_chunk3. split; [|split].
  - intros e E. now rewrite (A1 e E).
  - intros E1 E2. now rewrite (A2 E1 E2).
  - intros E1 E2. destruct (A3 E1 E2) as (cs & -> & J). cbn [bind]. eexists. split; [reflexivity|]. now rewrite get_set_same.
Qed.
Lemma push3_any p s d v L : ends_at3 (get_section s d) L -> L + 1 < two32 ->
  (forall e, validate_variant3 p v = Err e -> push3 p s d v = Err e) /\
  (validate_variant3 p v = Ok tt ->
     exists d', push3 p s d v = Ok d' /\ joined3 (get_section s d) (mkChunk3 L v) (get_section s d')).
Proof.
  intros H B. destruct (push_vec_any p _ v L H B) as (A1 & A3). unfold push3. split.
  - intros e E. now rewrite (A1 e E).
  - intros E1. destruct (A3 E1) as (cs & -> & J). cbn [bind]. eexists. split; [reflexivity|]. now rewrite get_set_same.
Qed.

Lemma push3_wf_iff p s d v d' : well_formed3 d ->
  2 + count_newlines (show_chunks3 (d_preamable d)) + count_newlines (show_chunks3 (d_body d))
    + count_newlines (show_chunks3 (d_trailing d)) + count_newlines (show_variant3 v) < two32 ->
  push3 p s d v = Ok d' -> (well_formed3 d' <-> joins_cleanly (get_section s d) v).
Proof.
  intros W B H. split.
  - intros W'. unfold push3 in H. destruct (push_vec p (get_section s d) v) as [cs|e| |] eqn:E; cbn [bind] in H; try discriminate.
    injection H as <-. apply (push_vec_break p _ _ cs); auto.
    + now apply wf_sections_iff.
    + pose proof (section_nl s d). unfold total_nl in *. lia.
    + apply wf_sections_iff in W'. specialize (W' s). now rewrite get_set_same in W'.
  - apply (push3_wf p s d v d' W); [unfold total_nl; lia|assumption].
Qed.
Lemma push_chunk3_wf_iff p s d c d' : well_formed3 d ->
  2 + count_newlines (show_chunks3 (d_preamable d)) + count_newlines (show_chunks3 (d_body d))
    + count_newlines (show_chunks3 (d_trailing d)) + count_newlines (show_chunk3 c) < two32 ->
  push_chunk3 p s d c = Ok d' -> (well_formed3 d' <-> joins_cleanly (get_section s d) (variant_of3 c)).
Proof.
  intros W B H. split.
  - intros W'. assert (E3 : push3 p s d (variant_of3 c) = Ok d').
    { pose proof (proj2 (wf_sections_iff d) W s) as Ws. pose proof (section_nl s d) as Hn.
      destruct (push_chunk_vec_any p (get_section s d) c _ (wf_ends_at3 _ Ws)) as (A1 & A2 & A3); [unfold total_nl in *; lia|].
      unfold push_chunk3, push_chunk_vec in H. unfold push3, push_vec, push_vec_unchecked.
      clear A1 A2 A3. destruct c as [l v]. rewrite vchunk3_eq in H. cbn [variant_of3 line_no3] in *.
      destruct (validate_variant3 p v) as [[]|e| |] eqn:E; cbn [bind] in *; try discriminate.
      destruct (end_line3 p (get_section s d)) as [L|e| |]; cbn [bind] in *; try discriminate.
      destruct (N.eqb_spec L l); cbn [negb] in H; [|discriminate]. subst. exact H. }
    apply (push3_wf_iff p s d _ d' W); auto. destruct c; exact B.
  - apply (push_chunk3_wf p s d c d' W); [unfold total_nl; lia|assumption].
Qed.
Lemma run_ops3_valid p ops d : well_formed3 d ->
  (forall o s, In o ops -> op_variant3 o = Text3 s -> count_newlines s = 0) ->
  2 + count_newlines (show_chunks3 (d_preamable d)) + count_newlines (show_chunks3 (d_body d))
    + count_newlines (show_chunks3 (d_trailing d))
    + count_newlines (concat (map (fun o => show_variant3 (op_variant3 o)) ops)) < two32 ->
  exists d', run_ops3 p d ops = Ok d' /\ validate3 p d' = Ok tt.
Proof.
  intros W HT B. destruct (run_ops3_wf p ops d W HT) as (d' & E & W' & Hn); [unfold total_nl; lia|].
  exists d'. split; [assumption|]. unfold total_nl in Hn. apply validate3_iff; [lia..|assumption].
Qed.
Lemma run_ops2_valid p d ops : well_formed2 d ->
  2 + count_newlines (show2 d) + count_newlines (concat (map op_text2 ops)) < two32 ->
  exists d', run_ops2 p d ops = Ok d' /\ validate2 p d' = Ok tt.
Proof.
  intros W B. destruct (run_ops2_wf p ops d W B) as (d' & E & W' & Hn).
  exists d'. split; [assumption|]. apply validate2_iff; [lia|assumption].
Qed.
