(** * Options3: what the option parser computes *)
From Verif Require Import Base Ast1 Parse1 Ast2 Ast3 SpecClass3 Tok.
From Coq Require Import Lia.

(** ** Pieces *)
Lemma split_on_nonempty sep s : split_on sep s <> [].
Proof. destruct s as [|c s]; cbn [split_on]; [discriminate|]. destruct (c =? sep); [discriminate|]. now destruct (split_on sep s). Qed.
Lemma split_on_pieces s : pieces s (split_on c_comma s).
Proof.
  split; [apply split_on_nonempty|]. split.
  - induction s as [|c s IH]; [reflexivity|]. cbn [split_on]. destruct (N.eqb_spec c c_comma) as [->|Hc].
    + pose proof (split_on_nonempty c_comma s). destruct (split_on c_comma s); [contradiction|]. cbn [join_comma app]. now f_equal.
    + pose proof (split_on_nonempty c_comma s). destruct (split_on c_comma s) as [|x [|y r]]; [contradiction|cbn [join_comma] in *; now f_equal|cbn [join_comma app] in *; now f_equal].
  - induction s as [|c s IH]; [repeat constructor; intros []|]. cbn [split_on]. destruct (N.eqb_spec c c_comma) as [->|Hc].
    + constructor; [intros []|exact IH].
    + pose proof (split_on_nonempty c_comma s). destruct (split_on c_comma s) as [|x r]; [contradiction|]. inversion IH; subst. constructor; [|assumption]. intros [K|K]; congruence || contradiction.
Qed.
Lemma app_comma_inj a b x y : ~ In c_comma a -> ~ In c_comma b -> a ++ c_comma :: x = b ++ c_comma :: y -> a = b /\ x = y.
Proof.
  revert b. induction a as [|c a IH]; intros [|d b] Ha Hb E; cbn [app] in E.
  - now injection E.
  - injection E as <- _. exfalso. apply Hb. now left.
  - injection E as -> _. exfalso. apply Ha. now left.
  - injection E as -> E. destruct (IH b) as [-> ->]; auto; intros K; [apply Ha|apply Hb]; now right.
Qed.
Lemma join_in_comma x y r : In c_comma (join_comma (x :: y :: r)).
Proof. cbn [join_comma]. apply in_or_app. right. now left. Qed.
Lemma pieces_unique s ps qs : pieces s ps -> pieces s qs -> ps = qs.
Proof.
  intros (Hp & Ep & Fp) (Hq & Eq & Fq). rewrite <- Eq in Ep. clear s Eq. revert qs Hq Fq Ep. induction ps as [|x ps IH]; intros qs Hq Fq E; [contradiction|].
  destruct qs as [|y qs]; [contradiction|]. inversion Fp as [|? ? Hx Fp']; inversion Fq as [|? ? Hy Fq']; subst. destruct ps as [|x' ps], qs as [|y' qs].
  - cbn in E. now subst.
  - exfalso. apply Hx. cbn [join_comma] in E. rewrite E. apply (join_in_comma y y' qs).
  - exfalso. apply Hy. cbn [join_comma] in E. rewrite <- E. apply (join_in_comma x x' ps).
  - change (x ++ c_comma :: join_comma (x' :: ps) = y ++ c_comma :: join_comma (y' :: qs)) in E. apply app_comma_inj in E as [-> E]; [|assumption..]. f_equal. apply IH; auto; discriminate.
Qed.

(** ** One option *)
Lemma blank_app a b : blank (a ++ b) <-> blank a /\ blank b.
Proof. unfold blank. rewrite forallb_app. apply andb_true_iff. Qed.
Lemma blank_cons c b : blank (c :: b) <-> is_whitespace c = true /\ blank b.
Proof. unfold blank. cbn [forallb]. apply andb_true_iff. Qed.
Lemma prec_fold w : blank w -> forall b, fold_left opt_step w ([], [], b, BmPrec) = ([], [], b ++ w, BmPrec).
Proof.
  induction w as [|c w IH]; intros H b; cbn [fold_left]; [now rewrite app_nil_r|]. apply blank_cons in H as [Hc H]. unfold opt_step at 2. rewrite Hc, IH by assumption. now rewrite <- app_assoc.
Qed.
(** from mode Arg (empty buffer) or PotentialPost *)
Lemma post_fold w : blank w -> forall pr a b, fold_left opt_step w (pr, a, b, BmPotentialPost) = (pr, a, b ++ w, BmPotentialPost).
Proof.
  induction w as [|c w IH]; intros H pr a b; cbn [fold_left]; [now rewrite app_nil_r|]. apply blank_cons in H as [Hc H]. unfold opt_step at 2. rewrite Hc, IH by assumption. now rewrite <- app_assoc.
Qed.
Lemma arg_fold k : forall pr a b m, (m = BmArg /\ b = [] \/ m = BmPotentialPost) ->
  exists a' b', (fold_left opt_step k (pr, a, b, m) = (pr, a', b', BmArg) /\ b' = [] \/ fold_left opt_step k (pr, a, b, m) = (pr, a', b', BmPotentialPost)) /\
    a' ++ b' = a ++ b ++ k /\ (trimmed_end k -> k <> [] -> b' = []).
Proof.
  induction k as [|c k IH]; intros pr a b m Hm.
  - exists a, b. cbn [fold_left]. rewrite app_nil_r. split; [|split; [reflexivity|congruence]]. destruct Hm as [[-> ->]| ->]; auto.
  - assert (K : exists a1 b1 m1, opt_step (pr, a, b, m) c = (pr, a1, b1, m1) /\ (m1 = BmArg /\ b1 = [] \/ m1 = BmPotentialPost) /\ a1 ++ b1 = a ++ b ++ [c] /\ (is_whitespace c = false -> b1 = [])).
    { unfold opt_step. destruct Hm as [[-> ->]| ->]; destruct (is_whitespace c) eqn:Ec; cbn [negb]; repeat eexists; try rewrite <- !app_assoc; try rewrite app_nil_r; cbn [app]; auto; discriminate. }
    destruct K as (a1 & b1 & m1 & E & Hm1 & Ea & Hb). cbn [fold_left]. rewrite E. destruct (IH pr a1 b1 m1 Hm1) as (a' & b' & F & Ea' & Hb'). exists a', b'. split; [exact F|]. split.
    + rewrite Ea', app_assoc, Ea, <- !app_assoc. reflexivity.
    + intros [T|(x & y & T & Hy)] _; [discriminate|]. destruct k as [|d k].
      * cbn [fold_left] in F. assert (x = [] /\ y = c) as [-> ->]. { destruct x as [|? x]; cbn in T; [split; congruence|]. injection T as <- T. now destruct x. }
        specialize (Hb Hy). subst b1. destruct F as [[F Fb]|F]; [exact Fb|]. now injection F.
      * apply Hb'; [|discriminate]. right. destruct x as [|x0 x]; cbn in T; [discriminate|]. injection T as <- T. exists x, y. split; [exact T|exact Hy].
Qed.
Lemma fold_arg pr k post : trimmed_end k -> blank post -> exists m, fold_left opt_step (k ++ post) (pr, [], [], BmArg) = (pr, k, post, m).
Proof.
  intros T B. rewrite fold_left_app.
  assert (fold_left opt_step k (pr, [], [], BmArg) = (pr, k, [], BmArg)) as ->.
  { destruct k as [|c k]; [reflexivity|]. destruct (arg_fold (c :: k) pr [] [] BmArg (or_introl (conj eq_refl eq_refl))) as (a & b & F & E & Hb). rewrite Hb in * by (assumption || discriminate).
    rewrite app_nil_r in E. cbn [app] in E. subst a. destruct F as [[F _]|F]; [exact F|]. exfalso. destruct T as [T|(x & y & T & Hy)]; [discriminate|]. rewrite T in F. rewrite fold_left_app in F. cbn [fold_left] in F.
    destruct (arg_fold x pr [] [] BmArg (or_introl (conj eq_refl eq_refl))) as (a1 & b1 & [[F1 _]|F1] & _); rewrite F1 in F; unfold opt_step in F; rewrite Hy in F; cbn [negb] in F; discriminate. }
  destruct post as [|c post]; [now exists BmArg|]. apply blank_cons in B as [Bc B]. cbn [fold_left]. unfold opt_step at 2. rewrite Bc. cbn [negb app]. rewrite post_fold by assumption. now exists BmPotentialPost.
Qed.
Lemma split_once_none s : ~ In c_equal s -> split_once c_equal s = None.
Proof. induction s as [|c s IH]; intros H; [reflexivity|]. cbn [split_once]. destruct (N.eqb_spec c c_equal) as [->|_]; [exfalso; apply H; now left|]. rewrite IH; [reflexivity|]. intros K; apply H; now right. Qed.
Lemma split_once_some a v : ~ In c_equal a -> split_once c_equal (a ++ c_equal :: v) = Some (a, v).
Proof. induction a as [|c a IH]; intros H; [reflexivity|]. cbn [split_once app]. destruct (N.eqb_spec c c_equal) as [->|_]; [exfalso; apply H; now left|]. rewrite IH; [reflexivity|]. intros K; apply H; now right. Qed.

Lemma key_blank b : blank b -> forall k x, fold_left key_step b (k, x) = (k, x ++ b).
Proof. induction b as [|c b IH]; intros H k x; cbn [fold_left]; [now rewrite app_nil_r|]. apply blank_cons in H as [Hc H]. unfold key_step at 2. rewrite Hc, IH by assumption. now rewrite <- app_assoc. Qed.
Lemma key_inv a : forall k x, exists k' x', fold_left key_step a (k, x) = (k', x') /\ k' ++ x' = k ++ x ++ a.
Proof.
  induction a as [|c a IH]; intros k x; [exists k, x; now rewrite app_nil_r|]. cbn [fold_left]. unfold key_step at 2. destruct (is_whitespace c).
  - destruct (IH k (x ++ [c])) as (k' & x' & -> & E). exists k', x'. split; [reflexivity|]. rewrite E, <- !app_assoc. reflexivity.
  - destruct (IH (k ++ x ++ [c]) []) as (k' & x' & -> & E). exists k', x'. split; [reflexivity|]. rewrite E, <- !app_assoc. reflexivity.
Qed.
Lemma key_fold a b : trimmed_end a -> blank b -> fold_left key_step (a ++ b) ([], []) = (a, b).
Proof.
  intros T B. rewrite fold_left_app. destruct T as [->|(x & y & -> & Hy)]; [cbn [fold_left]; now rewrite key_blank|].
  rewrite fold_left_app. destruct (key_inv x [] []) as (k & z & -> & E). cbn [fold_left]. unfold key_step at 2. rewrite Hy, key_blank by assumption. cbn [app] in E. now rewrite app_assoc, E.
Qed.
Lemma val_fold k : forall x y, fold_left val_step k (x, y) = (x ++ filter is_whitespace k, y ++ filter (fun c => negb (is_whitespace c)) k).
Proof.
  induction k as [|c k IH]; intros x y; cbn [fold_left filter]; [now rewrite !app_nil_r|]. unfold val_step at 2. destruct (is_whitespace c); cbn [negb]; rewrite IH, <- !app_assoc; reflexivity.
Qed.

Theorem option_blank w : blank w -> parse_option w = ([], [], None, w).
Proof. intros H. unfold parse_option. rewrite prec_fold by assumption. reflexivity. Qed.
Lemma fold_whole w c k post : blank w -> is_whitespace c = false -> trimmed_end k -> blank post ->
  exists m, fold_left opt_step (w ++ c :: k ++ post) ([], [], [], BmPrec) = (w, k, post, m).
Proof.
  intros Hw Hc T B. rewrite fold_left_app, prec_fold by assumption. cbn [fold_left app]. unfold opt_step at 2. rewrite Hc. cbn [app]. now apply fold_arg.
Qed.
Theorem option_plain w c k post : blank w -> is_whitespace c = false -> trimmed_end k -> blank post -> ~ In c_equal k ->
  parse_option (w ++ c :: k ++ post) = (w, k, None, post).
Proof. intros Hw Hc T B N. unfold parse_option. destruct (fold_whole w c k post Hw Hc T B) as (m & ->). now rewrite split_once_none. Qed.
Theorem option_valued w c a b v post : blank w -> is_whitespace c = false -> trimmed_end a -> blank b -> ~ In c_equal a ->
  trimmed_end (c_equal :: v) -> blank post ->
  parse_option (w ++ c :: (a ++ b ++ c_equal :: v) ++ post) =
  (w, a, Some (b, filter is_whitespace (a ++ b), filter (fun x => negb (is_whitespace x)) (a ++ b)), post).
Proof.
  intros Hw Hc Ta Hb Na Tv B. unfold parse_option.
  destruct (fold_whole w c (a ++ b ++ c_equal :: v) post Hw Hc) as (m & ->); [|assumption|].
  { right. destruct Tv as [Tv|(x & y & Tv & Hy)]; [discriminate|]. rewrite Tv. exists (a ++ b ++ x), y. split; [now rewrite <- !app_assoc|exact Hy]. }
  rewrite app_assoc, split_once_some.
  - rewrite key_fold by assumption. rewrite val_fold. reflexivity.
  - intros K. apply in_app_or in K as [K|K]; [contradiction|]. unfold blank in Hb. rewrite forallb_forall in Hb. specialize (Hb _ K). discriminate.
Qed.

(** ** Every option has one of these three shapes *)
Lemma trim_split s : exists a b, s = a ++ b /\ trimmed_end a /\ blank b.
Proof.
  induction s as [|c s IH] using rev_ind; [exists [], []; repeat split; now left|]. destruct IH as (a & b & -> & Ta & Hb). destruct (is_whitespace c) eqn:Ec.
  - exists a, (b ++ [c]). split; [now rewrite <- app_assoc|]. split; [exact Ta|]. apply blank_app. split; [exact Hb|]. apply blank_cons. now split.
  - exists ((a ++ b) ++ [c]), []. split; [now rewrite app_nil_r|]. split; [right; now exists (a ++ b), c|reflexivity].
Qed.
Lemma lead_split s : blank s \/ exists w c r, s = w ++ c :: r /\ blank w /\ is_whitespace c = false.
Proof.
  induction s as [|c s IH]; [now left|]. destruct (is_whitespace c) eqn:Ec.
  - destruct IH as [IH|(w & d & r & -> & Hw & Hd)]; [left; apply blank_cons; now split|]. right. exists (c :: w), d, r. repeat split; try assumption. apply blank_cons. now split.
  - right. now exists [], c, s.
Qed.
Lemma first_equal s : ~ In c_equal s \/ exists a v, s = a ++ c_equal :: v /\ ~ In c_equal a.
Proof.
  induction s as [|c s IH]; [left; intros []|]. destruct (N.eqb_spec c c_equal) as [->|Hc]; [right; exists [], s; split; [reflexivity|intros []]|].
  destruct IH as [IH|(a & v & -> & Na)]; [left; intros [K|K]; congruence || contradiction|]. right. exists (c :: a), v. split; [reflexivity|]. intros [K|K]; congruence || contradiction.
Qed.
Theorem option_shapes o :
  blank o \/
  (exists w c k post, o = w ++ c :: k ++ post /\ blank w /\ is_whitespace c = false /\ trimmed_end k /\ blank post /\ ~ In c_equal k) \/
  (exists w c a b v post, o = w ++ c :: (a ++ b ++ c_equal :: v) ++ post /\ blank w /\ is_whitespace c = false /\ trimmed_end a /\ blank b /\ ~ In c_equal a /\ trimmed_end (c_equal :: v) /\ blank post).
Proof.
  destruct (lead_split o) as [H|(w & c & r & -> & Hw & Hc)]; [now left|right]. destruct (trim_split r) as (k & post & -> & Tk & Hp). destruct (first_equal k) as [Nk|(a0 & v & -> & Na)].
  - left. now exists w, c, k, post.
  - right. destruct (trim_split a0) as (a & b & -> & Ta & Hb). exists w, c, a, b, v, post. rewrite <- !app_assoc. repeat split; try assumption.
    + intros K. apply Na, in_or_app. now left.
    + right. destruct Tk as [Tk|(x & y & Tk & Hy)]; [destruct a; [destruct b|]; discriminate|].
      assert (L : exists z, c_equal :: v = z ++ [y]). { destruct (exists_last (l := c_equal :: v)) as (z & y' & E); [discriminate|]. rewrite E in *. rewrite app_assoc in Tk. apply app_inj_tail in Tk as [_ ->]. now exists z. }
      destruct L as (z & ->). now exists z, y.
Qed.
Lemma filter_len {A} (f : A -> bool) l : (length (filter f l) + length (filter (fun x => negb (f x)) l) = length l)%nat.
Proof. induction l as [|c l IH]; [reflexivity|]. cbn [filter length]. destruct (f c); cbn [negb length]; lia. Qed.
Theorem option_rebuilt o : render_option (parse_option o) = o <-> blank o.
Proof.
  split; [|intros H; now rewrite option_blank]. intros E. destruct (option_shapes o) as [H|[(w & c & k & post & -> & Hw & Hc & Tk & Hp & Nk)|(w & c & a & b & v & post & -> & Hw & Hc & Ta & Hb & Na & Tv & Hp)]]; [exact H|exfalso..].
  - rewrite option_plain in E by assumption. apply (f_equal (@length N)) in E. cbn [render_option] in E. rewrite !app_length in E. cbn [length] in E. rewrite app_length in E. lia.
  - rewrite option_valued in E by assumption. cbn [render_option] in E. rewrite <- !app_assoc in E. apply app_inv_head in E.
    assert (Nab : ~ In c_equal (a ++ b)). { intros K. apply in_app_or in K as [K|K]; [contradiction|]. unfold blank in Hb. rewrite forallb_forall in Hb. specialize (Hb _ K). discriminate. }
    rewrite !app_assoc in E. cbn [app] in E. change (c :: (a ++ b ++ c_equal :: v) ++ post) with ((c :: a ++ b ++ c_equal :: v) ++ post) in E.
    repeat rewrite <- app_assoc in E. rewrite (app_assoc a b) in E. set (ab := a ++ b) in *. 
    pose proof (filter_len is_whitespace ab) as FL. set (X := filter is_whitespace ab) in *. set (Y := filter (fun x => negb (is_whitespace x)) ab) in *. cbn [app] in E.
    assert (E' : ab ++ [c_equal] ++ X ++ Y = c :: ab ++ [c_equal] ++ v).
    { apply (app_inv_tail post). repeat (rewrite <- app_assoc || cbn [app]). repeat rewrite <- app_assoc in E. cbn [app] in E. rewrite E. unfold ab. repeat (rewrite <- app_assoc || cbn [app]). reflexivity. }
    clear E. clearbody X Y. clearbody ab. destruct ab as [|d ab'] eqn:Eab using rev_ind.
    + cbn in FL. cbn [app] in E'. assert (X = [] /\ Y = []) as [HX HY] by (split; [destruct X|destruct Y]; cbn [length] in FL; try reflexivity; lia). rewrite HX, HY in E'. discriminate.
    + pose proof (f_equal (fun l => nth (length (ab' ++ [d])) l 0) E') as NT. cbn beta in NT. rewrite app_nth2, Nat.sub_diag in NT by lia. cbn [app nth] in NT.
      rewrite app_length in NT. cbn [length] in NT. rewrite Nat.add_1_r in NT. cbn [nth] in NT. rewrite <- app_assoc, app_nth2, Nat.sub_diag in NT by lia. cbn in NT. subst d. apply Nab. apply in_or_app. right. now left.
Qed.

Theorem option_read o : read_option o (parse_option o).
Proof.
  destruct (option_shapes o) as [H|[(w & c & k & post & -> & Hw & Hc & Tk & Hp & Nk)|(w & c & a & b & v & post & -> & Hw & Hc & Ta & Hb & Na & Tv & Hp)]].
  - rewrite option_blank by assumption. now constructor.
  - rewrite option_plain by assumption. now constructor.
  - rewrite option_valued by assumption. now constructor.
Qed.
Theorem read_unique o e : read_option o e -> e = parse_option o.
Proof. intros []; symmetry; [now apply option_blank|now apply option_plain|now apply option_valued]. Qed.
