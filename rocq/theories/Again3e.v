(** * Again3e: no character is lost on the way down and up, and a second time changes nothing more *)
From Verif Require Import Base Ast1 Parse1 Ast2 Ast3 SpecDoc1 SpecDoc2 SpecUnnum SpecDoc3 SpecMaths3 SpecPar3 SpecReads SpecClass3 SpecRead3 SpecWrap SpecBack3 SpecAgain3 Ind Lines Eqb Tok Facts2 Valid2 Valid3 Env2 Par3 Maths3 Reads Read3 ReadsW Keep2 Keep3 KeepW Back3 Unnum Unnum3 Again3 Again3b Again3c Again3d.
From Coq Require Import Lia Permutation.

(** ** The characters *)
Lemma perm_show a b : Permutation a b -> Permutation (show_chunks3 a) (show_chunks3 b).
Proof.
  unfold show_chunks3. induction 1; cbn [map concat]; [constructor|now apply Permutation_app_head| |etransitivity; eassumption].
  rewrite !app_assoc. apply Permutation_app_tail, Permutation_app_comm.
Qed.
Lemma show_app3 a b : show_chunks3 (a ++ b) = show_chunks3 a ++ show_chunks3 b. Proof. apply show_chunks3_app. Qed.
Lemma show_moves_gen f cs : Forall (fun c => Permutation (show_chunks3 (f c)) (show_chunk3 c)) cs -> Permutation (show_chunks3 (flat_map f cs)) (show_chunks3 cs).
Proof.
  induction 1 as [|c cs Hc _ IH]; [constructor|]. cbn [flat_map]. rewrite show_app3, show_chunks3_cons. now apply Permutation_app.
Qed.
Lemma filter_split content : Permutation content (filter (fun c => negb (textual c)) content ++ filter textual content).
Proof.
  induction content as [|c cs IH]; [constructor|]. cbn [filter]. destruct (textual c); cbn [negb]; [now apply Permutation_cons_app|cbn [app]; now constructor].
Qed.
Lemma flat_map_if {A} f cs : flat_map (fun c => if textual c then [] else f c : list A) cs = flat_map f (filter (fun c => negb (textual c)) cs).
Proof. induction cs as [|c cs IH]; [reflexivity|]. cbn [flat_map filter]. destruct (textual c); cbn [negb flat_map app]; now rewrite IH. Qed.
Lemma removelast_last1 {A} (l : list A) : removelast l ++ last1 l = l.
Proof. destruct (snoc_cases l) as [->|(l' & x & ->)]; [reflexivity|]. now rewrite removelast_last, last1_snoc. Qed.
Lemma perm_args (args : list (str * scope3)) : Forall (fun a : str * scope3 => Permutation (show_chunks3 (flat_map moves_chunk (chunks3 (snd a)))) (show_chunks3 (chunks3 (snd a)))) args ->
  Permutation (show_args3 (map (fun a => match a with (pre, mkScope3 cs v) => (pre, mkScope3 (flat_map moves_chunk cs) v) end) args)) (show_args3 args).
Proof.
  unfold show_args3. induction 1 as [|[pre [cs v]] args Hc _ IH]; [constructor|]. cbn [map concat chunks3 snd] in *. apply Permutation_app; [|exact IH]. apply Permutation_app_head. cbn [show_scope3].
  repeat (apply Permutation_app_head || apply Permutation_app_tail || exact Hc || apply Permutation_cons || reflexivity || apply Permutation_app).
Qed.
Theorem moves_chunk_perm : forall c, Permutation (show_chunks3 (moves_chunk c)) (show_chunk3 c).
Proof.
  intros c. induction c as [k s|k s|k lab args IH|k cs v IH|k lab args cs pb pe IHa IHc|k v t cs IH] using chunk3_ind'; cbn [moves_chunk]; rewrite ?show_app3, ?show_chunks3_one; cbn [show_chunk3 show_variant3].
  - reflexivity.
  - reflexivity.
  - cbn [show_command3]. apply Permutation_cons; [reflexivity|]. apply Permutation_app_head. apply perm_args. eapply Forall_impl; [|exact IH]. intros a Ha. now apply show_moves_gen.
  - cbn [show_scope3]. pose proof (show_moves_gen moves_chunk cs IH) as P. unfold show_chunks3 in P.
    repeat (apply Permutation_app_head || apply Permutation_app_tail || exact P || apply Permutation_cons || reflexivity || apply Permutation_app).
  - cbn [show_env3]. pose proof (show_moves_gen moves_chunk cs IHc) as P. unfold show_chunks3 in P.
    assert (Q : Permutation (show_args3 (map (fun a => match a with (pre, mkScope3 cs v) => (pre, mkScope3 (flat_map moves_chunk cs) v) end) args)) (show_args3 args)).
    { apply perm_args. eapply Forall_impl; [|exact IHa]. intros a Ha. now apply show_moves_gen. }
    unfold show_args3 in Q.
    repeat (apply Permutation_app_head || exact P || exact Q || apply Permutation_cons || reflexivity || apply Permutation_app).
  - cbn [show_maths3]. destruct v; rewrite ?show_chunks3_one, ?show_app3, ?show_chunks3_one; cbn [show_chunk3 show_variant3 show_maths3].
    + apply Permutation_app_head, Permutation_app_tail. exact (show_moves_gen moves_chunk cs IH).
    + rewrite map_app, concat_app, flat_map_if. fold (show_chunks3 (flat_map moves_chunk (filter (fun c => negb (textual c)) cs))) (show_chunks3 (last1 (filter textual cs))) (show_chunks3 cs).
      assert (P : Permutation (show_chunks3 (flat_map moves_chunk (filter (fun c => negb (textual c)) cs))) (show_chunks3 (filter (fun c => negb (textual c)) cs))).
      { apply show_moves_gen. rewrite Forall_forall in *. intros c Hc. apply filter_In in Hc as [Hc _]. auto. }
      rewrite (perm_show _ _ (filter_split cs)), show_app3. rewrite <- (removelast_last1 (filter textual cs)) at 3. rewrite show_app3, P.
      set (a := show_chunks3 (removelast _)). set (b := show_chunks3 (filter _ cs)). set (z := show_chunks3 (last1 _)). rewrite !app_assoc.
      apply Permutation_app_tail. apply Permutation_app_tail. rewrite <- !app_assoc. rewrite Permutation_app_comm, <- app_assoc. reflexivity.
Qed.
Theorem moves_perm cs : Permutation (show_chunks3 (moves cs)) (show_chunks3 cs).
Proof. apply show_moves_gen, Forall_forall. intros c _. apply moves_chunk_perm. Qed.
Theorem again_perm cls opts d : Permutation (full_text (again cls opts d)) (full_text d).
Proof.
  unfold full_text, upto_end, again. cbn [d_preamable d_body d_body_args d_begin_prec d_end_prec d_trailing show_env3]. apply Permutation_app; [|apply moves_perm]. apply Permutation_app; [apply moves_perm|].
  pose proof (moves_perm (d_body d)) as P. unfold show_chunks3 in P. assert (Q : Permutation (show_args3 (moves_args (d_body_args d))) (show_args3 (d_body_args d))).
  { apply perm_args, Forall_forall. intros a _. apply (moves_perm (chunks3 (snd a))). }
  unfold show_args3 in Q. repeat (apply Permutation_app_head || exact P || exact Q || apply Permutation_cons || reflexivity || apply Permutation_app).
Qed.
Lemma perm_newlines a b : Permutation a b -> count_newlines a = count_newlines b.
Proof.
  unfold count_newlines. induction 1; cbn [filter]; [reflexivity| | |congruence]; repeat match goal with |- context [?a =? ?b] => destruct (a =? b) end; cbn [length] in *; lia.
Qed.
Lemma perm_small a b : Permutation a b -> small a -> small b.
Proof. intros P [H1 H2]. split; [now rewrite <- (Permutation_length P)|now rewrite <- (perm_newlines _ _ P)]. Qed.

(** ** Afterwards every dollar block has at most one text *)
Definition head_textual (c : chunk3) : bool := textual c.
Lemma moves_head c : textual c = false -> Forall (fun x => textual x = false) (moves_chunk c) \/ exists l t co, c = mkChunk3 l (Maths3 (mkMaths3 Dollars t co)).
Proof. destruct c as [l [s|b|[[|] t co]|[lab a]|[cs v]|[lab a co pb pe]]]; try discriminate; intros _; [left|right; eauto|left|left|left]; repeat constructor. Qed.
Lemma moves_textless X : forallb textless X = true -> Forall (fun x => textual x = false) (moves X).
Proof.
  unfold moves. induction X as [|c X IH]; [constructor|]. cbn [forallb flat_map]. intros H. apply andb_prop in H as [H1 H2]. apply Forall_app. split; [|auto].
  destruct (moves_head c (textless_textual c H1)) as [K|(l & t & co & ->)]; [exact K|discriminate].
Qed.
Lemma filter_none {A} (f : A -> bool) l : Forall (fun x => f x = false) l -> filter f l = [].
Proof. induction 1 as [|x l Hx _ IH]; [reflexivity|]. cbn [filter]. now rewrite Hx. Qed.
Lemma filter_every {A} (f : A -> bool) l : forallb f l = true -> filter f l = l.
Proof. induction l as [|x l IH]; [reflexivity|]. cbn [forallb filter]. intros H. apply andb_prop in H as [-> H]. now rewrite IH. Qed.
Lemma last1_in {A} (l : list A) x : In x (last1 l) -> In x l.
Proof. destruct (snoc_cases l) as [->|(l' & y & ->)]; [intros []|]. rewrite last1_snoc. intros [<-|[]]. apply in_or_app. right. now left. Qed.
Lemma last1_length {A} (l : list A) : (length (last1 l) <= 1)%nat. Proof. unfold last1. destruct (rev l); cbn; lia. Qed.
Lemma textual_single T : forallb textual T = true -> forallb single T = true.
Proof. induction T as [|[l []] T IH]; try discriminate; intros H; [reflexivity| |]; apply IH; exact H. Qed.
Lemma forallb_sub {A} (f : A -> bool) l l' : (forall x, In x l' -> In x l) -> forallb f l = true -> forallb f l' = true.
Proof. rewrite !forallb_forall. auto. Qed.
Lemma moves_is_single : forall c, shaped c -> forallb single (moves_chunk c) = true.
Proof.
  assert (L : forall cs, Forall (fun c => shaped c -> forallb single (moves_chunk c) = true) cs -> (forall c, In c cs -> shaped c) -> forallb single (flat_map moves_chunk cs) = true).
  { induction 1 as [|c cs Hc _ IH]; intros H; [reflexivity|]. cbn [flat_map]. rewrite forallb_app, Hc, IH; [reflexivity|intros; apply H; now right|apply H; now left]. }
  assert (A : forall args, Forall (fun a : str * scope3 => Forall (fun c => shaped c -> forallb single (moves_chunk c) = true) (chunks3 (snd a))) args ->
    (forall pre cs v c, In (pre, mkScope3 cs v) args -> In c cs -> shaped c) ->
    single_args (map (fun a => match a with (pre, mkScope3 cs v) => (pre, mkScope3 (flat_map moves_chunk cs) v) end) args) = true).
  { unfold single_args. induction 1 as [|[pre [cs v]] args Hc _ IH]; intros H; [reflexivity|]. cbn [map forallb chunks3 snd] in *. rewrite L, IH; [reflexivity|intros; eapply H; [right|]; eassumption|exact Hc|intros c Hi; eapply H; [now left|exact Hi]]. }
  intros c. induction c as [k s|k s|k lab args IH|k cs v IH|k lab args cs pb pe IHa IHc|k v t cs IH] using chunk3_ind'; intros Sh; cbn [moves_chunk].
  - reflexivity.
  - reflexivity.
  - inversion Sh; subst. cbn [forallb single]. rewrite andb_true_r. apply (A args); auto.
  - inversion Sh; subst. cbn [forallb single]. rewrite L; auto.
  - inversion Sh; subst. cbn [forallb single]. rewrite andb_true_r, L by auto. rewrite andb_true_r. apply (A args); auto.
  - destruct v.
    + inversion Sh; subst. cbn [forallb single]. rewrite L; auto.
    + inversion Sh as [| | | | | |? ? X T HX HT Hn Hs E]; subst. destruct (filter_parts X T HX HT) as [-> ->]. rewrite forallb_app. cbn [forallb single]. rewrite andb_true_r.
      assert (RT : forallb textual (removelast T) = true /\ forallb textual (last1 T) = true).
      { rewrite <- (removelast_last1 T), forallb_app in HT. now apply andb_prop in HT. }
      destruct RT as [R1 R2]. rewrite (textual_single _ R1), filter_app, (filter_none _ _ (moves_textless X HX)), (filter_every _ _ R2). cbn [app].
      pose proof (last1_length T) as Ll. apply Nat.leb_le in Ll. rewrite Ll, forallb_app, (textual_single _ R2), andb_true_r. cbn [andb]. apply Forall_app in IH as [IH _]. apply L; [exact IH|]. intros c Hc. apply Hs, in_or_app. now left.
Qed.
Lemma moves_are_single cs : (forall c, In c cs -> shaped c) -> forallb single (moves cs) = true.
Proof. unfold moves. induction cs as [|c cs IH]; intros H; [reflexivity|]. cbn [flat_map]. rewrite forallb_app, moves_is_single, IH; [reflexivity|intros; apply H; now right|apply H; now left]. Qed.
Lemma again_single cls opts d : shaped_document d -> single_document (again cls opts d) = true.
Proof.
  intros (Sc & Sa & _ & _). unfold single_document, again. cbn [d_preamable d_body d_body_args d_trailing]. rewrite <- !moves_app, moves_are_single by exact Sc. cbn [andb].
  unfold moves_args. revert Sa. induction (d_body_args d) as [|[pre [cs v]] args IH]; intros Sa; [reflexivity|]. cbn [map forallb]. rewrite moves_are_single; [|intros c Hc; eapply Sa; [now left|exact Hc]]. apply IH. intros; eapply Sa; [right|]; eassumption.
Qed.

(** ** The trailing part stays spaced *)
Lemma no_two_map {A B} (f : A -> bool) (g : B -> bool) l l' : map f l = map g l' -> no_two f l = no_two g l'.
Proof.
  revert l'. induction l as [|a l IH]; intros [|b l'] H; try discriminate; [reflexivity|]. cbn [map] in H. injection H as H1 H2. destruct l as [|a2 l], l' as [|b2 l']; try discriminate; [reflexivity|].
  pose proof (IH _ H2) as K. cbn [map] in H2. injection H2 as H2 _. change (no_two f (a :: a2 :: l)) with (negb (f a && f a2) && no_two f (a2 :: l)). change (no_two g (b :: b2 :: l')) with (negb (g b && g b2) && no_two g (b2 :: l')). now rewrite K, H1, H2.
Qed.
Definition Stay (c : chunk3) : Prop := shaped c -> apart c = true -> exists c', moves_chunk c = [c'] /\ touches c' = touches c /\ apart c' = true.
Lemma stay_list cs : Forall Stay cs -> (forall c, In c cs -> shaped c) -> forallb apart cs = true -> map touches (moves cs) = map touches cs /\ forallb apart (moves cs) = true.
Proof.
  unfold moves. induction 1 as [|c cs Hc _ IH]; intros H K; [split; reflexivity|]. cbn [flat_map forallb] in *. apply andb_prop in K as [K1 K2]. destruct (Hc (H c (or_introl eq_refl)) K1) as (c' & -> & E1 & E2).
  destruct IH as [I1 I2]; [intros; apply H; now right|exact K2|]. cbn [app map forallb]. rewrite E1, E2, I1, I2. split; reflexivity.
Qed.
Lemma textual_touches T : forallb textual T = true -> no_two touches T = true -> (length T <= 1)%nat.
Proof. destruct T as [|a [|b T]]; cbn [length forallb no_two]; try lia. intros H K. apply andb_prop in H as [H1 H]. apply andb_prop in H as [H2 _]. unfold touches in K. now rewrite H1, H2 in K. Qed.
Lemma stay : forall c, Stay c.
Proof.
  intros c. induction c as [k s|k s|k lab args _|k cs v _|k lab args cs pb pe _ _|k v t cs IH] using chunk3_ind'; intros Sh H; cbn [moves_chunk]; try (eexists; split; [reflexivity|split; reflexivity]).
  cbn [apart] in H. apply andb_prop in H as [H1 H2]. destruct v.
  - eexists. split; [reflexivity|]. split; [reflexivity|]. inversion Sh; subst. destruct (stay_list cs IH) as [E1 E2]; [auto|exact H2|]. cbn [apart]. fold (moves cs). rewrite E2, (no_two_map touches touches _ _ E1), H1. reflexivity.
  - inversion Sh as [| | | | | |? ? X T HX HT Hn Hs E]; subst. destruct (filter_parts X T HX HT) as [-> ->]. rewrite no_two_app in H1. apply andb_prop in H1 as [H1 H3]. apply andb_prop in H1 as [H1 H4].
    pose proof (textual_touches T HT H4) as LT. assert (E : removelast T = [] /\ last1 T = T) by (destruct T as [|x [|]]; [split; reflexivity|split; reflexivity|cbn [length] in LT; lia]). destruct E as [-> ->].
    eexists. split; [reflexivity|]. split; [reflexivity|]. apply Forall_app in IH as [IH _]. rewrite forallb_app in H2. apply andb_prop in H2 as [H2 H5].
    destruct (stay_list X IH) as [E1 E2]; [intros c Hc; apply Hs, in_or_app; now left|exact H2|]. cbn [apart]. rewrite forallb_app, E2, H5.
    assert (EM : map touches (moves X ++ T) = map touches (X ++ T)) by (rewrite !map_app; congruence). rewrite (no_two_map _ _ _ _ EM), no_two_app, H1, H4, H3. reflexivity.
Qed.
Lemma moves_spaced cs : (forall c, In c cs -> shaped c) -> spaced cs = true -> spaced (moves cs) = true.
Proof.
  intros H K. unfold spaced in *. apply andb_prop in K as [K1 K2]. destruct (stay_list cs) as [E1 E2]; [apply Forall_forall; intros c _; apply stay|exact H|exact K2|]. rewrite E2, (no_two_map _ _ _ _ E1), K1. reflexivity.
Qed.

(** ** Line numbers do not matter *)
Notation unn_args args := (map (fun a => match a with (pre, sc) => (pre, unnumbered_scope3 sc) end) args).
Lemma un_textual c : textual (unnumbered_chunk3 c) = textual c. Proof. now destruct c as [l []]. Qed.
Lemma un_touches c : touches (unnumbered_chunk3 c) = touches c. Proof. now destruct c as [l [| |[[] ? ?]| | |]]. Qed.
Lemma un_forallb (f : chunk3 -> bool) cs : Forall (fun c => f (unnumbered_chunk3 c) = f c) cs -> forallb f (map unnumbered_chunk3 cs) = forallb f cs.
Proof. induction 1 as [|c cs Hc _ IH]; [reflexivity|]. cbn [map forallb]. now rewrite Hc, IH. Qed.
Lemma un_filter cs : length (filter textual (map unnumbered_chunk3 cs)) = length (filter textual cs).
Proof. induction cs as [|c cs IH]; [reflexivity|]. cbn [map filter]. rewrite un_textual. destruct (textual c); cbn [length]; now rewrite IH. Qed.
Lemma un_single_args (args : list (str * scope3)) : Forall (fun a : str * scope3 => Forall (fun c => single (unnumbered_chunk3 c) = single c) (chunks3 (snd a))) args -> single_args (unn_args args) = single_args args.
Proof. unfold single_args. induction 1 as [|[pre [cs v]] args Hc _ IH]; [reflexivity|]. cbn [map forallb unnumbered_scope3 chunks3 snd] in *. now rewrite (un_forallb single cs Hc), IH. Qed.
Lemma un_single : forall c, single (unnumbered_chunk3 c) = single c.
Proof.
  intros c. induction c as [k s|k s|k lab args IH|k cs v IH|k lab args cs pb pe IHa IHc|k v t cs IH] using chunk3_ind'; cbn [unnumbered_chunk3 unnumbered_variant3 unnumbered_command3 unnumbered_scope3 unnumbered_env3 unnumbered_maths3 single].
  - reflexivity.
  - reflexivity.
  - now apply (un_single_args args).
  - now apply un_forallb.
  - f_equal; [now apply (un_single_args args)|now apply un_forallb].
  - destruct v; [now apply un_forallb|]. now rewrite un_filter, (un_forallb single cs IH).
Qed.
Lemma un_singles a b : unnumbered3 a = unnumbered3 b -> forallb single a = forallb single b.
Proof.
  intros H. assert (K : forall cs, forallb single (unnumbered3 cs) = forallb single cs) by (intros cs; apply un_forallb, Forall_forall; intros c _; apply un_single). now rewrite <- (K a), <- (K b), H.
Qed.
Lemma un_single_document a b : unnumbered_document3 a = unnumbered_document3 b -> single_document a = single_document b.
Proof.
  intros H. unfold unnumbered_document3 in H. injection H as _ _ E3 E4 E5 _ _ E6. unfold single_document. rewrite !forallb_app, (un_singles _ _ E3), (un_singles _ _ E4), (un_singles _ _ E6). f_equal.
  assert (K : forall args, single_args (unn_args args) = single_args args) by (intros args; apply un_single_args, Forall_forall; intros a0 _; apply Forall_forall; intros c _; apply un_single).
  unfold single_args in K. now rewrite <- (K (d_body_args a)), <- (K (d_body_args b)), E5.
Qed.
Lemma un_apart : forall c, apart (unnumbered_chunk3 c) = apart c.
Proof.
  intros c. induction c as [k s|k s|k lab args _|k cs v _|k lab args cs pb pe _ _|k v t cs IH] using chunk3_ind'; try reflexivity. cbn [unnumbered_chunk3 unnumbered_variant3 unnumbered_maths3 apart].
  rewrite (un_forallb apart cs IH). f_equal. apply no_two_map. rewrite map_map. apply map_ext, un_touches.
Qed.
Lemma un_spaced a b : unnumbered3 a = unnumbered3 b -> spaced a = spaced b.
Proof.
  assert (K : forall cs, spaced (unnumbered3 cs) = spaced cs).
  { intros cs. unfold spaced. f_equal; [apply no_two_map; unfold unnumbered3; rewrite map_map; apply map_ext, un_touches|apply un_forallb, Forall_forall; intros c _; apply un_apart]. }
  intros H. now rewrite <- (K a), <- (K b), H.
Qed.
Lemma un_flat_args (args : list (str * scope3)) : Forall (fun a : str * scope3 => Forall (fun c => flat (unnumbered_chunk3 c) = flat c) (chunks3 (snd a))) args -> flat_args (unn_args args) = flat_args args.
Proof.
  unfold flat_args. induction 1 as [|[pre [cs v]] args Hc _ IH]; [reflexivity|]. cbn [map unnumbered_scope3 chunks3 snd] in *. rewrite IH. do 3 f_equal. clear - Hc. unfold flats. induction Hc as [|c cs Hc _ IH]; [reflexivity|]. cbn [map flat_map]. now rewrite Hc, IH.
Qed.
Lemma un_flats_gen cs : Forall (fun c => flat (unnumbered_chunk3 c) = flat c) cs -> flat_map flat (map unnumbered_chunk3 cs) = flat_map flat cs.
Proof. induction 1 as [|c cs Hc _ IH]; [reflexivity|]. cbn [map flat_map]. now rewrite Hc, IH. Qed.
Lemma un_flat : forall c, flat (unnumbered_chunk3 c) = flat c.
Proof.
  intros c. induction c as [k s|k s|k lab args IH|k cs v IH|k lab args cs pb pe IHa IHc|k v t cs IH] using chunk3_ind'; cbn [unnumbered_chunk3 unnumbered_variant3 unnumbered_command3 unnumbered_scope3 unnumbered_env3 unnumbered_maths3 flat].
  - reflexivity.
  - reflexivity.
  - do 4 f_equal. now apply (un_flat_args args).
  - now rewrite un_flats_gen.
  - rewrite (un_flats_gen cs IHc). do 4 f_equal. now apply (un_flat_args args).
  - now rewrite (un_flats_gen cs IH).
Qed.
Lemma un_flats a b : unnumbered3 a = unnumbered3 b -> flats a = flats b.
Proof.
  intros H. assert (K : forall cs, flats (unnumbered3 cs) = flats cs) by (intros cs; apply un_flats_gen, Forall_forall; intros c _; apply un_flat). now rewrite <- (K a), <- (K b), H.
Qed.
Lemma un_show a b : unnumbered3 a = unnumbered3 b -> show_chunks3 a = show_chunks3 b.
Proof. intros H. now rewrite <- !flats_show, (un_flats _ _ H). Qed.
Lemma un_declares a b cls opts : unnumbered3 a = unnumbered3 b -> declares a cls opts -> declares b cls opts.
Proof.
  intros H (D & pss & P & O). assert (K : map flat_args (flat_map class_args a) = map flat_args (flat_map class_args b)).
  { pose proof (class_flats a) as A. rewrite (un_flats _ _ H), class_flats in A. apply (f_equal (map snd)) in A. rewrite !map_map in A. symmetry. exact A. }
  clear H. assert (T : declared3 (flat_map class_args a) = declared3 (flat_map class_args b) /\ flat_map option_texts3 (flat_map class_args a) = flat_map option_texts3 (flat_map class_args b)).
  { clear - K. revert K. generalize (flat_map class_args a) (flat_map class_args b). intros u. induction u as [|x u IH]; intros [|y w] K; try discriminate; [split; reflexivity|]. cbn [map] in K. injection K as K1 K2. destruct (IH w K2) as [I1 I2].
    cbn [declared3 flat_map]. rewrite <- (curly_flat x), <- (option_flat x), K1, curly_flat, option_flat, I1, I2. split; [|reflexivity]. destruct (curly_texts3 y) as [|? []]; try reflexivity. destruct u, w; try discriminate; reflexivity. }
  destruct T as [T1 T2]. split; [now rewrite <- T1|]. exists pss. rewrite <- T2. auto.
Qed.
Lemma un_full a b : unnumbered_document3 a = unnumbered_document3 b -> full_text a = full_text b.
Proof.
  intros H. unfold unnumbered_document3 in H. destruct a as [c1 o1 p1 b1 a1 bp1 ep1 t1], b as [c2 o2 p2 b2 a2 bp2 ep2 t2]. cbn [d_class d_options d_preamable d_body d_body_args d_begin_prec d_end_prec d_trailing] in H. injection H as _ _ E3 E4 E5 E6 E7 E8. subst.
  unfold full_text, upto_end. cbn [d_preamable d_body d_body_args d_begin_prec d_end_prec d_trailing]. rewrite (un_show p1 p2), (un_show t1 t2) by assumption. do 2 f_equal.
  set (E1 := mkEnv3 _ a1 _ _ _). set (E2 := mkEnv3 _ a2 _ _ _). change (show_env3 E1) with (show_chunk3 (mkChunk3 1 (Environment3 E1))). change (show_env3 E2) with (show_chunk3 (mkChunk3 1 (Environment3 E2))).
  rewrite <- !show_chunks3_one. apply un_show. unfold E1, E2, unnumbered3. cbn [map unnumbered_chunk3 unnumbered_variant3 unnumbered_env3]. unfold unnumbered3 in E4. now rewrite E4, E5.
Qed.
