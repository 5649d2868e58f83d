(** * Canon1: parsing inverts Display exactly on canonical documents *)
From Verif Require Import Base Ast1 Parse1 Spec1 SpecDoc1 SpecCanon1 Tok Pure1 Refine1 Gram1 Ind Lines Facts1.

(** ** Tokens of a document *)
Fixpoint ctoks (c : chunk1) : list token :=
  match c with
  | mkChunk1 _ v =>
      match v with
      | Text1 s => map Plain s
      | Command1 (mkCommand1 lab args) =>
          match lab with [] => [] | x :: lab => Esc x :: map Plain lab end
          ++ concat (map (fun a => match a with (pre, mkScope1 cs v) =>
               map Plain pre ++ Plain (open1 v) :: concat (map ctoks cs) ++ [Plain (close1 v)] end) args)
      | Scope1 (mkScope1 cs v) => Plain (open1 v) :: concat (map ctoks cs) ++ [Plain (close1 v)]
      end
  end.
Definition dtoks (d : list chunk1) : list token := concat (map ctoks d).
Definition atoks (args : list (str * scope1)) : list token :=
  concat (map (fun a => match a with (pre, mkScope1 cs v) =>
               map Plain pre ++ Plain (open1 v) :: dtoks cs ++ [Plain (close1 v)] end) args).

Lemma dtoks_cons c d : dtoks (c :: d) = ctoks c ++ dtoks d.
Proof. reflexivity. Qed.
Lemma atoks_cons pre cs v args : atoks ((pre, mkScope1 cs v) :: args) =
  map Plain pre ++ Plain (open1 v) :: dtoks cs ++ Plain (close1 v) :: atoks args.
Proof. unfold atoks. cbn [map concat]. rewrite <- !app_assoc. cbn [app]. rewrite <- app_assoc. reflexivity. Qed.
Lemma ctoks_text l s : ctoks (mkChunk1 l (Text1 s)) = map Plain s. Proof. reflexivity. Qed.
Lemma ctoks_scope l cs v : ctoks (mkChunk1 l (Scope1 (mkScope1 cs v))) = Plain (open1 v) :: dtoks cs ++ [Plain (close1 v)].
Proof. reflexivity. Qed.
Lemma ctoks_word l a lab args : ctoks (mkChunk1 l (Command1 (mkCommand1 (a :: lab) args))) = Esc a :: map Plain lab ++ atoks args.
Proof. reflexivity. Qed.

Scheme canonical_mut := Induction for canonical Sort Prop
  with canonical_args_mut := Induction for canonical_args Sort Prop.
Combined Scheme canonical_canonical_args_ind from canonical_mut, canonical_args_mut.

(** ** [everywhere], structurally *)
Section Deep.
  Context (Q : chunk1 -> Prop).
  Definition kids (R : list chunk1 -> Prop) (c : chunk1) : Prop :=
    match variant_of1 c with
    | Text1 _ => True
    | Scope1 sc => R (chunks1 sc)
    | Command1 (mkCommand1 _ args) => Forall (fun a => R (chunks1 (snd a))) args
    end.
  Lemma within_trans d cs e : within1 d cs -> within1 cs e -> within1 d e.
  Proof.
    intros H1 H2. induction H2 as [|cs2 l inner v Hw IH Hin|cs2 l lab args pre inner v Hw IH Hin Ha].
    - assumption.
    - eapply w1_scope; eauto.
    - eapply w1_arg; eauto.
  Qed.
  Lemma everywhere_nil : everywhere Q [].
  Proof.
    intros cs H. assert (cs = []) as ->; [|constructor].
    induction H as [|cs2 l inner v Hw IH Hin|cs2 l lab args pre inner v Hw IH Hin Ha]; [reflexivity| |];
    subst; destruct Hin.
  Qed.
  Lemma everywhere_cons c d : everywhere Q (c :: d) <->
    Q c /\ kids (everywhere Q) c /\ everywhere Q d.
  Proof.
    split.
    - intros H. split; [|split].
      + specialize (H _ (w1_self _)). now inversion H.
      + unfold kids. destruct c as [l v]. cbn [variant_of1].
        destruct v as [s|[lab args]|[inner v]]; [exact I| |].
        * apply Forall_forall. intros [pre [inner v]] Ha cs Hw. cbn [snd chunks1] in Hw. apply H.
          eapply within_trans; [|exact Hw]. eapply w1_arg; [apply w1_self|left; reflexivity|exact Ha].
        * intros cs Hw. cbn [chunks1] in Hw. apply H.
          eapply within_trans; [|exact Hw]. eapply w1_scope; [apply w1_self|left; reflexivity].
      + intros cs Hw. destruct Hw as [|cs l inner v Hw Hin|cs l lab args pre inner v Hw Hin Ha].
        * specialize (H _ (w1_self _)). now inversion H.
        * apply H. clear H.
          assert (X : forall cs', within1 d cs' -> cs' = d \/ within1 (c :: d) cs').
          { induction 1 as [|cs2 l2 inner2 v2 Hw2 IH2 Hin2|cs2 l2 lab2 args2 pre2 inner2 v2 Hw2 IH2 Hin2 Ha2]; [now left| |]; right.
            - destruct IH2 as [->|IH2]; [eapply w1_scope; [apply w1_self|right; eauto]|eapply w1_scope; eauto].
            - destruct IH2 as [->|IH2]; [eapply w1_arg; [apply w1_self|right; eauto|eauto]|eapply w1_arg; eauto]. }
          destruct (X _ Hw) as [->|Hw']; [eapply w1_scope; [apply w1_self|right; eauto]|eapply w1_scope; eauto].
        * apply H. clear H.
          assert (X : forall cs', within1 d cs' -> cs' = d \/ within1 (c :: d) cs').
          { induction 1 as [|cs2 l2 inner2 v2 Hw2 IH2 Hin2|cs2 l2 lab2 args2 pre2 inner2 v2 Hw2 IH2 Hin2 Ha2]; [now left| |]; right.
            - destruct IH2 as [->|IH2]; [eapply w1_scope; [apply w1_self|right; eauto]|eapply w1_scope; eauto].
            - destruct IH2 as [->|IH2]; [eapply w1_arg; [apply w1_self|right; eauto|eauto]|eapply w1_arg; eauto]. }
          destruct (X _ Hw) as [->|Hw']; [eapply w1_arg; [apply w1_self|right; eauto|eauto]|eapply w1_arg; eauto].
    - intros (Hc & Hk & Hd) cs Hw.
      assert (X : forall cs', within1 (c :: d) cs' ->
         cs' = c :: d \/ (kids (fun k => within1 k cs') c -> True) /\
         ((exists k, within1 k cs' /\ everywhere Q k))).
      { induction 1 as [|cs2 l2 inner2 v2 Hw2 IH2 Hin2|cs2 l2 lab2 args2 pre2 inner2 v2 Hw2 IH2 Hin2 Ha2]; [now left| |]; right; (split; [trivial|]).
        - destruct IH2 as [->|[_ (k & Hk1 & Hk2)]].
          + destruct Hin2 as [->|Hin2].
            * cbn in Hk. exists inner2. split; [constructor|exact Hk].
            * exists d. split; [eapply w1_scope; [apply w1_self|exact Hin2]|exact Hd].
          + exists k. split; [eapply w1_scope; eauto|exact Hk2].
        - destruct IH2 as [->|[_ (k & Hk1 & Hk2)]].
          + destruct Hin2 as [->|Hin2].
            * cbn in Hk. rewrite Forall_forall in Hk. specialize (Hk _ Ha2).
              exists inner2. split; [constructor|exact Hk].
            * exists d. split; [eapply w1_arg; [apply w1_self|exact Hin2|exact Ha2]|exact Hd].
          + exists k. split; [eapply w1_arg; eauto|exact Hk2]. }
      destruct (X _ Hw) as [->|[_ (k & Hk1 & Hk2)]].
      + constructor; [exact Hc|exact (Hd _ (w1_self _))].
      + apply Hk2, Hk1.
  Qed.
End Deep.
Lemma everywhere_imp (P Q : chunk1 -> Prop) d : (forall c, P c -> Q c) -> everywhere P d -> everywhere Q d.
Proof. intros H HP cs Hw. eapply Forall_impl; [exact H|exact (HP cs Hw)]. Qed.

(** ** Brackets among the tokens of a document *)
Definition is_v (v : sv1) (t : token) : bool := is_open_tok v t || is_close_tok v t.
Lemma plain_open_v v w : is_open_tok v (Plain (open1 w)) = sv1_eqb w v.
Proof. destruct v, w; reflexivity. Qed.
Lemma plain_close_v v w : is_close_tok v (Plain (close1 w)) = sv1_eqb w v.
Proof. destruct v, w; reflexivity. Qed.
Lemma plain_open_close v w : is_close_tok v (Plain (open1 w)) = false.
Proof. destruct v, w; reflexivity. Qed.
Lemma plain_close_open v w : is_open_tok v (Plain (close1 w)) = false.
Proof. destruct v, w; reflexivity. Qed.
Lemma sv1_eqb_true a b : sv1_eqb a b = true <-> a = b.
Proof. destruct a, b; cbn; split; intros H; congruence. Qed.
Lemma sv1_eqb_false a b : sv1_eqb a b = false <-> a <> b.
Proof. destruct a, b; cbn; split; intros H; congruence. Qed.

Lemma text_char_text s : forallb text_char s = true -> forallb is_text_tok (map Plain s) = true.
Proof.
  induction s as [|c s IH]; cbn [forallb map]; [reflexivity|]. intros H. apply andb_true_iff in H as [H1 H2].
  rewrite IH by exact H2. unfold text_char in H1. cbn [is_text_tok]. destruct (is_opening c); [discriminate|reflexivity].
Qed.
Lemma ws_text_char c : is_whitespace c = true -> text_char c = true.
Proof.
  intros H. unfold text_char. rewrite (ws_not_opening _ H).
  destruct (N.eqb_spec c c_bslash) as [->|]; [discriminate|].
  destruct (N.eqb_spec c c_percent) as [->|]; [discriminate|]. reflexivity.
Qed.
Lemma ws_text_chars s : forallb is_whitespace s = true -> forallb text_char s = true.
Proof. rewrite !forallb_forall. intros H c Hc. apply ws_text_char; auto. Qed.

Lemma text_not_open v s : forallb text_char s = true -> existsb (is_open_tok v) (map Plain s) = false.
Proof.
  induction s as [|c s IH]; cbn [forallb map existsb]; [reflexivity|]. intros H. apply andb_true_iff in H as [H1 H2].
  rewrite IH by exact H2. rewrite orb_false_r. cbn [is_open_tok]. apply N.eqb_neq. intros ->. destruct v; discriminate.
Qed.
Lemma text_close v s : existsb (is_close_tok v) (map Plain s) = false <-> ~ In (close1 v) s.
Proof.
  induction s as [|c s IH]; cbn [map existsb In]; [tauto|]. rewrite orb_false_iff, IH. cbn [is_close_tok].
  rewrite N.eqb_neq. tauto.
Qed.
Lemma label_char_both c : label_char c = true -> is_label_char c = true /\ c <> c_bslash /\ c <> c_percent.
Proof.
  unfold label_char. destruct (is_label_char c); [|discriminate].
  destruct (N.eqb_spec c c_bslash); [discriminate|]. destruct (N.eqb_spec c c_percent); [discriminate|]. auto.
Qed.
Lemma label_chars_label lab : forallb label_char lab = true -> forallb is_label_char lab = true.
Proof. rewrite !forallb_forall. intros H c Hc. now apply label_char_both, H. Qed.
Lemma label_no_v v lab : forallb is_label_char lab = true -> existsb (is_v v) (map Plain lab) = false.
Proof.
  induction lab as [|c s IH]; cbn [forallb map existsb]; [reflexivity|]. intros H. apply andb_true_iff in H as [H1 H2].
  rewrite IH by exact H2. rewrite orb_false_r. unfold is_v. cbn [is_open_tok is_close_tok].
  apply orb_false_iff; split; apply N.eqb_neq; intros ->; destruct v; discriminate.
Qed.
Lemma ws_no_v v s : forallb is_whitespace s = true -> existsb (is_v v) (map Plain s) = false.
Proof.
  induction s as [|c s IH]; cbn [forallb map existsb]; [reflexivity|]. intros H. apply andb_true_iff in H as [H1 H2].
  rewrite IH by exact H2. rewrite orb_false_r. unfold is_v. cbn [is_open_tok is_close_tok].
  apply orb_false_iff; split; apply N.eqb_neq; intros ->; destruct v; discriminate.
Qed.
Lemma existsb_or {A} (f g : A -> bool) l : existsb (fun x => f x || g x) l = existsb f l || existsb g l.
Proof. induction l as [|x l IH]; cbn [existsb]; [reflexivity|]. rewrite IH. destruct (f x), (g x), (existsb f l); reflexivity. Qed.
Lemma existsb_v v l : existsb (is_v v) l = existsb (is_open_tok v) l || existsb (is_close_tok v) l.
Proof. apply existsb_or. Qed.
Lemma v_run v l : existsb (is_v v) l = false -> forall d, run_depth v d l = Some d.
Proof.
  induction l as [|t l IH]; cbn [existsb run_depth]; intros H d; [reflexivity|].
  apply orb_false_iff in H as [H1 H2]. unfold is_v in H1. apply orb_false_iff in H1 as [-> ->]. auto.
Qed.
Lemma v_drop v l : existsb (is_v v) l = false -> drop_own v l = l.
Proof.
  induction l as [|t l IH]; cbn [existsb drop_own filter]; intros H; [reflexivity|].
  apply orb_false_iff in H as [H1 H2]. unfold is_v in H1. rewrite H1. cbn [negb]. f_equal. now apply IH.
Qed.
Lemma run_close v s : forallb text_char s = true -> In (close1 v) s -> run_depth v 0 (map Plain s) = None.
Proof.
  induction s as [|c s IH]; cbn [forallb map In run_depth]; intros H Hin; [destruct Hin|].
  apply andb_true_iff in H as [H1 H2].
  replace (is_open_tok v (Plain c)) with false.
  2:{ symmetry. cbn [is_open_tok]. apply N.eqb_neq. intros ->. destruct v; discriminate. }
  cbn [is_close_tok]. destruct (N.eqb_spec c (close1 v)) as [->|Hne]; [reflexivity|].
  apply IH; [exact H2|]. destruct Hin; congruence.
Qed.

(** tokens without own brackets *)
Lemma no_bracket_toks v :
  (forall L d, canonical L d -> (existsb (is_v v) (dtoks d) = false <-> everywhere (no_bracket v) d)) /\
  (forall args, canonical_args args -> (existsb (is_v v) (atoks args) = false <->
     Forall (fun a => scope_variant1 (snd a) <> v) args /\ Forall (fun a => everywhere (no_bracket v) (chunks1 (snd a))) args)).
Proof.
  apply canonical_canonical_args_ind.
  - intros L. split; [intros _; apply everywhere_nil|reflexivity].
  - intros L s d Hne Hs Hf _ IH. rewrite dtoks_cons, existsb_app, orb_false_iff, IH, everywhere_cons.
    rewrite ctoks_text, existsb_v, (text_not_open v s Hs). cbn [orb]. rewrite text_close. cbn. tauto.
  - intros L inner d Hi IHi He _ IH. rewrite dtoks_cons, existsb_app, orb_false_iff, IH, everywhere_cons.
    rewrite ctoks_scope. cbn [existsb]. rewrite existsb_app. cbn [existsb]. rewrite orb_false_r.
    rewrite !orb_false_iff, IHi. unfold is_v. rewrite plain_open_v, plain_open_close, plain_close_v, plain_close_open.
    cbn [kids variant_of1 chunks1 no_bracket scope_variant1]. rewrite orb_false_r. cbn [orb]. rewrite sv1_eqb_false. tauto.
  - intros L c d Ha _ IH. rewrite dtoks_cons, existsb_app, orb_false_iff, IH, everywhere_cons.
    cbn. split; intros H; repeat split; try tauto; constructor.
  - intros L a lab args d Ha Hl _ IHa Hf _ IH. rewrite dtoks_cons, existsb_app, orb_false_iff, IH, everywhere_cons.
    rewrite ctoks_word. cbn [existsb]. rewrite existsb_app, (label_no_v v lab) by now apply label_chars_label.
    rewrite orb_false_l. rewrite orb_false_iff, IHa.
    cbn [no_bracket kids variant_of1 is_v is_open_tok is_close_tok orb]. unfold is_v. cbn [is_open_tok is_close_tok orb]. tauto.
  - intros L a lab args s Ha Hl _ IHa Hne Hs. rewrite !dtoks_cons, !existsb_app, !orb_false_iff.
    rewrite ctoks_word. cbn [existsb]. rewrite existsb_app, (label_no_v v lab) by now apply label_chars_label.
    rewrite orb_false_l. rewrite orb_false_iff, IHa. rewrite ctoks_text, (ws_no_v v s Hs).
    rewrite !everywhere_cons.
    cbn [no_bracket kids variant_of1 is_v is_open_tok is_close_tok orb]. unfold is_v. cbn [is_open_tok is_close_tok orb].
    pose proof (ws_no_v v s Hs) as W. rewrite existsb_v in W. apply orb_false_iff in W as [_ W]. apply text_close in W.
    pose proof (everywhere_nil (no_bracket v)). cbn [dtoks map concat existsb]. tauto.
  - split; [intros _; split; constructor|reflexivity].
  - intros pre inner w args Hp Hi IHi He _ IH. rewrite atoks_cons, existsb_app. cbn [existsb]. rewrite existsb_app. cbn [existsb].
    rewrite (ws_no_v v pre Hp). rewrite !orb_false_iff, IHi, IH. unfold is_v.
    rewrite plain_open_v, plain_open_close, plain_close_v, plain_close_open. rewrite orb_false_r. cbn [orb]. rewrite sv1_eqb_false.
    split.
    + intros H. split; constructor; cbn [snd scope_variant1 chunks1]; tauto.
    + intros [H1 H2]. inversion H1; inversion H2; subst. cbn [snd scope_variant1 chunks1] in *. tauto.
Qed.
Lemma args_no_own v args : canonical_args args -> Forall (fun a => scope_variant1 (snd a) = v -> existsb (is_v v) (dtoks (chunks1 (snd a))) = false) args.
Proof.
  induction 1 as [|pre inner w args Hp Hi He Ha IH]; constructor; [|assumption].
  cbn [snd scope_variant1 chunks1]. intros <-. now apply (proj1 (no_bracket_toks w) _ _ Hi).
Qed.

(** balanced bodies: no raw closing bracket *)
Definition runs (ok : Prop) (ts : list token) : Prop :=
  (ok /\ forall n, run_depth Curly1 n ts = Some n) \/ (~ ok /\ run_depth Curly1 0 ts = None).
Lemma runs_app (A B : Prop) ts us : runs A ts -> runs B us -> runs (A /\ B) (ts ++ us).
Proof.
  intros [[HA Ha]|[HA Ha]] HB; [|right; split; [tauto|now rewrite run_depth_app, Ha]].
  destruct HB as [[HB Hb]|[HB Hb]]; [left|right]; (split; [tauto|]).
  - intros n. now rewrite run_depth_app, Ha.
  - now rewrite run_depth_app, Ha.
Qed.
Lemma runs_iff (A B : Prop) ts : (A <-> B) -> runs A ts -> runs B ts.
Proof. intros H [[HA Ha]|[HA Ha]]; [left|right]; (split; [tauto|assumption]). Qed.
Lemma runs_plain ts : existsb (is_v Curly1) ts = false -> runs True ts.
Proof. intros H. left. split; [exact I|]. now apply v_run. Qed.
Lemma runs_text s : forallb text_char s = true -> runs (~ In c_rcurly s) (map Plain s).
Proof.
  intros H. destruct (in_dec N.eq_dec c_rcurly s) as [Hin|Hin]; [right|left].
  - split; [tauto|]. apply (run_close Curly1 s H Hin).
  - split; [tauto|]. apply v_run. rewrite existsb_v, (text_not_open _ _ H). now apply text_close.
Qed.
(** a bracketed body that is fine *)
Lemma runs_curly ts : (forall n, run_depth Curly1 n ts = Some n) ->
  runs True (Plain (open1 Curly1) :: ts ++ [Plain (close1 Curly1)]).
Proof.
  intros H. left. split; [exact I|]. intros n. cbn [run_depth]. rewrite open_open, run_depth_app, H. reflexivity.
Qed.
Lemma runs_other v A ts : v <> Curly1 -> runs A ts ->
  runs A (Plain (open1 v) :: ts ++ [Plain (close1 v)]).
Proof.
  intros Hv H. change (Plain (open1 v) :: ts ++ [Plain (close1 v)]) with ([Plain (open1 v)] ++ ts ++ [Plain (close1 v)]).
  apply runs_iff with (A := True /\ A /\ True); [tauto|].
  apply runs_app; [|apply runs_app; [exact H|]]; apply runs_plain; cbn [existsb]; rewrite orb_false_r; unfold is_v;
  destruct v; try reflexivity; congruence.
Qed.
Lemma no_bracket_close v c : no_bracket v c -> no_close v c.
Proof. unfold no_bracket, no_close. destruct (variant_of1 c); auto. Qed.

Lemma no_close_toks :
  (forall L d, canonical L d -> runs (everywhere (no_close Curly1) d) (dtoks d)) /\
  (forall args, canonical_args args ->
     runs (Forall (fun a => everywhere (no_close Curly1) (chunks1 (snd a))) args) (atoks args)).
Proof.
  apply canonical_canonical_args_ind.
  - intros L. eapply runs_iff; [|apply (runs_plain []); reflexivity].
    split; [intros _; apply everywhere_nil|trivial].
  - intros L s d Hne Hs Hf _ IH. rewrite dtoks_cons, ctoks_text.
    eapply runs_iff; [|apply runs_app; [apply runs_text; exact Hs|exact IH]].
    rewrite everywhere_cons. cbn. tauto.
  - intros L inner d Hi IHi He _ IH. rewrite dtoks_cons, ctoks_scope.
    eapply runs_iff; [|apply runs_app; [|exact IH]].
    2:{ apply runs_curly. destruct IHi as [[_ IHi]|[IHi _]]; [exact IHi|contradiction]. }
    rewrite everywhere_cons. cbn. tauto.
  - intros L c d Ha _ IH. rewrite dtoks_cons.
    eapply runs_iff; [|apply runs_app; [apply runs_plain|exact IH]]; [|reflexivity].
    rewrite everywhere_cons. cbn. split; [intros [_ H]; repeat split; auto|tauto].
  - intros L a lab args d Ha Hl _ IHa Hf _ IH. rewrite dtoks_cons, ctoks_word.
    eapply runs_iff; [|apply runs_app; [|exact IH]].
    2:{ change (Esc a :: map Plain lab ++ atoks args) with ([Esc a] ++ map Plain lab ++ atoks args).
        apply runs_app; [apply runs_plain; reflexivity|]. apply runs_app; [|exact IHa].
        apply runs_plain, label_no_v. now apply label_chars_label. }
    rewrite everywhere_cons. cbn. tauto.
  - intros L a lab args s Ha Hl _ IHa Hne Hs. rewrite !dtoks_cons, ctoks_word, ctoks_text.
    eapply runs_iff; [|apply runs_app; [|apply runs_app; [apply runs_plain; now apply ws_no_v|apply (runs_plain []); reflexivity]]].
    2:{ change (Esc a :: map Plain lab ++ atoks args) with ([Esc a] ++ map Plain lab ++ atoks args).
        apply runs_app; [apply runs_plain; reflexivity|]. apply runs_app; [|exact IHa].
        apply runs_plain, label_no_v. now apply label_chars_label. }
    rewrite !everywhere_cons. cbn.
    pose proof (ws_no_v Curly1 s Hs) as W. rewrite existsb_v in W. apply orb_false_iff in W as [_ W]. apply text_close in W.
    pose proof (everywhere_nil (no_close Curly1)). cbn in W. tauto.
  - eapply runs_iff; [|apply (runs_plain []); reflexivity]. split; [constructor|trivial].
  - intros pre inner w args Hp Hi IHi He _ IH.
    replace (atoks ((pre, mkScope1 inner w) :: args)) with
      (map Plain pre ++ (Plain (open1 w) :: dtoks inner ++ [Plain (close1 w)]) ++ atoks args)
      by (rewrite atoks_cons; cbn [app]; rewrite <- app_assoc; reflexivity).
    eapply runs_iff; [|apply runs_app; [apply runs_plain; now apply ws_no_v|apply runs_app; [|exact IH]]].
    2:{ instantiate (1 := everywhere (no_close Curly1) inner).
        destruct w.
        - eapply runs_iff; [|apply runs_curly; apply v_run; now apply (proj1 (no_bracket_toks Curly1) _ _ Hi)].
          split; [intros _|trivial]. eapply everywhere_imp; [|exact He]. intros c. apply no_bracket_close.
        - apply runs_other; [discriminate|exact IHi].
        - apply runs_other; [discriminate|exact IHi]. }
    split; [intros (_ & H1 & H2); constructor; auto|intros H; inversion H; subst; auto].
Qed.
Lemma canonical_balanced L d : canonical L d -> everywhere (no_close Curly1) d -> balanced Curly1 (dtoks d).
Proof.
  intros H He. apply run_depth_balanced. destruct (proj1 no_close_toks _ _ H) as [[_ R]|[R _]]; [apply R|contradiction].
Qed.
Lemma canonical_unbalanced L d : canonical L d -> balanced Curly1 (dtoks d) -> everywhere (no_close Curly1) d.
Proof.
  intros H He. apply run_depth_balanced in He.
  destruct (proj1 no_close_toks _ _ H) as [[R _]|[_ R]]; [exact R|congruence].
Qed.

(** ** The tokens of a canonical document are those of its Display *)
Lemma wf_map_plain s : forallb text_char s = true -> Forall wf_token (map Plain s).
Proof.
  intros H. apply Forall_forall. intros t Ht. apply in_map_iff in Ht as (c & <- & Hc).
  rewrite forallb_forall in H. specialize (H c Hc). unfold text_char in H. cbn.
  destruct (is_opening c); [discriminate|].
  destruct (N.eqb_spec c c_bslash); [discriminate|]. destruct (N.eqb_spec c c_percent); [discriminate|]. auto.
Qed.
Lemma wf_map_label s : forallb label_char s = true -> Forall wf_token (map Plain s).
Proof.
  intros H. apply Forall_forall. intros t Ht. apply in_map_iff in Ht as (c & <- & Hc).
  rewrite forallb_forall in H. specialize (H c Hc). now apply label_char_both in H.
Qed.
Lemma wf_open v : wf_token (Plain (open1 v)). Proof. destruct v; split; discriminate. Qed.
Lemma wf_close v : wf_token (Plain (close1 v)). Proof. destruct v; split; discriminate. Qed.

Lemma canonical_toks :
  (forall L d, canonical L d -> Forall wf_token (dtoks d) /\ untoks (dtoks d) = show1 d) /\
  (forall args, canonical_args args -> Forall wf_token (atoks args) /\ untoks (atoks args) = show_args1 args).
Proof.
  apply canonical_canonical_args_ind.
  - intros L. split; [constructor|reflexivity].
  - intros L s d Hne Hs Hf _ [W E]. rewrite dtoks_cons, ctoks_text, untoks_app, untoks_map_plain, E. split; [|reflexivity].
    apply Forall_app; split; [now apply wf_map_plain|exact W].
  - intros L inner d Hi [Wi Ei] He _ [W E].
    rewrite dtoks_cons, ctoks_scope, untoks_app, untoks_cons, untoks_app, E, Ei. split; [|reflexivity].
    apply Forall_app; split; [|exact W]. constructor; [apply wf_open|].
    apply Forall_app; split; [exact Wi|]. constructor; [apply wf_close|constructor].
  - intros L c d Ha _ [W E]. rewrite dtoks_cons, untoks_app, E. split; [|reflexivity].
    apply Forall_app; split; [|exact W]. repeat constructor.
  - intros L a lab args d Ha Hl _ [Wa Ea] Hf _ [W E].
    rewrite dtoks_cons, ctoks_word, untoks_app, untoks_cons, untoks_app, untoks_map_plain, E, Ea. split; [|reflexivity].
    apply Forall_app; split; [|exact W]. constructor; [exact I|]. apply Forall_app; split; [now apply wf_map_label|exact Wa].
  - intros L a lab args s Ha Hl _ [Wa Ea] Hne Hs.
    rewrite !dtoks_cons, ctoks_word, ctoks_text, !untoks_app, untoks_cons, untoks_app, !untoks_map_plain, Ea.
    split; [|reflexivity].
    apply Forall_app; split; [constructor; [exact I|]; apply Forall_app; split; [now apply wf_map_label|exact Wa]|].
    apply Forall_app; split; [apply wf_map_plain; now apply ws_text_chars|constructor].
  - split; [constructor|reflexivity].
  - intros pre inner w args Hp Hi [Wi Ei] He _ [W E].
    rewrite atoks_cons, untoks_app, untoks_map_plain, untoks_cons, untoks_app, untoks_cons, E, Ei.
    rewrite show_args_cons, show_scope_eq. cbn [untok app]. rewrite <- !app_assoc. cbn [app]. rewrite <- app_assoc. split; [|reflexivity].
    apply Forall_app; split; [apply wf_map_plain; now apply ws_text_chars|].
    constructor; [apply wf_open|]. apply Forall_app; split; [exact Wi|]. constructor; [apply wf_close|exact W].
Qed.
Lemma canonical_nl L d : canonical L d -> nl (dtoks d) = count_newlines (show1 d).
Proof. intros H. rewrite <- count_newlines_untoks. now rewrite (proj2 (proj1 canonical_toks _ _ H)). Qed.
Lemma canonical_args_nl args : canonical_args args -> nl (atoks args) = count_newlines (show_args1 args).
Proof. intros H. rewrite <- count_newlines_untoks. now rewrite (proj2 (proj2 canonical_toks _ H)). Qed.

(** ** Canonical documents parse back *)
Lemma dtoks_head L d : canonical L d -> text_first d = false ->
  match dtoks d with [] => True | t :: _ => is_text_tok t = false end.
Proof. destruct 1; cbn [text_first is_text1 variant_of1]; intros E; try discriminate; cbn; auto. Qed.

(** blanks at the start of a string *)
Lemma split_blanks s : exists w r, s = w ++ r /\ forallb is_whitespace w = true /\
  match r with [] => True | x :: _ => is_whitespace x = false end.
Proof.
  induction s as [|c s (w & r & -> & Hw & Hr)].
  - exists [], []. auto.
  - destruct (is_whitespace c) eqn:E.
    + exists (c :: w), r. cbn. rewrite E. auto.
    + exists [], (c :: w ++ r). auto.
Qed.
Lemma ws_tok_map w : forallb is_whitespace w = true -> forallb (fun t => is_whitespace (tchar t)) (map Plain w) = true.
Proof. induction w; cbn; [auto|]. intros H. apply andb_true_iff in H as [-> H]. auto. Qed.

Lemma next_ok_tok L d c : canonical L (c :: d) -> is_text1 c = false -> next_ok c = true ->
  exists x ts, dtoks (c :: d) = Esc x :: ts /\ is_whitespace x = false /\ is_opening x = false.
Proof.
  intros H Ht Hn. inversion H; subst; cbn [is_text1 next_ok variant_of1] in *; try discriminate;
  apply andb_true_iff in Hn as [N1 N2]; apply negb_true_iff in N1, N2; eexists _, _; (split; [reflexivity|auto]).
Qed.

Lemma after_word_split L has d : canonical L d -> after_word has d = true ->
  exists w rest, dtoks d = map Plain w ++ rest /\ forallb is_whitespace w = true /\
    follow_ok has (map Plain w) rest = true /\ (w = [] \/ rest <> []).
Proof.
  intros H Ha. destruct d as [|c d]. { exists [], []. auto. }
  unfold after_word in Ha. destruct (is_text1 c) eqn:Et.
  - destruct c as [l v]. unfold is_text1 in Et. cbn [variant_of1] in *. destruct v as [s|?|?]; try discriminate.
    assert (X : s <> [] /\ forallb text_char s = true /\ text_first d = false /\ canonical (L + count_newlines s) d)
      by (inversion H; subst; auto).
    destruct X as (Hne & Hs & Hf & Hd).
    destruct s as [|x s']; [discriminate|]. set (s := x :: s') in *.
    rewrite dtoks_cons, ctoks_text.
    destruct (forallb is_whitespace s) eqn:Eb.
    + exists s, (dtoks d). destruct d as [|c' d]; [discriminate|].
      destruct (next_ok_tok _ _ _ Hd Hf Ha) as (y & ts & -> & Y1 & Y2).
      repeat split; auto; [|right; discriminate]. cbn. rewrite Y1, Y2. reflexivity.
    + destruct (split_blanks s) as (w & r & Es & Hw & Hr).
      exists w, (map Plain r ++ dtoks d). rewrite Es at 1. rewrite map_app, <- app_assoc.
      destruct r as [|y r]. { rewrite app_nil_r in Es. rewrite Es in Eb. congruence. }
      repeat split; auto; [|right; discriminate].
      assert (Hy : is_opening y = false).
      { rewrite Es in Hs. rewrite forallb_app in Hs. apply andb_true_iff in Hs as [_ Hs]. cbn in Hs.
        apply andb_true_iff in Hs as [Hs _]. unfold text_char in Hs. destruct (is_opening y); [discriminate|reflexivity]. }
      cbn. rewrite Hr, Hy. cbn. destruct w as [|w0 w]; [|reflexivity].
      unfold s in Es. cbn in Es. injection Es as -> _. rewrite Hr in Ha. cbn in Ha.
      cbn. rewrite andb_comm. exact Ha.
  - assert (Hn : next_ok c = true).
    { destruct c as [l v]. cbn [variant_of1] in *. destruct v; [discriminate|exact Ha|exact Ha]. }
    destruct (next_ok_tok _ _ _ H Et Hn) as (y & ts & E & Y1 & Y2).
    exists [], (dtoks (c :: d)). rewrite E. repeat split; auto. cbn. now rewrite Y1, Y2.
Qed.

Lemma canonical_parses :
  (forall L d, canonical L d -> parses L (dtoks d) d) /\
  (forall args, canonical_args args -> parses_args (atoks args) args).
Proof.
  apply canonical_canonical_args_ind.
  - intros L. constructor.
  - intros L s d Hne Hs Hf Hd IH. rewrite dtoks_cons, ctoks_text.
    pose proof (P_text L (map Plain s) (dtoks d) d) as P. rewrite chars_map_plain, nl_map_plain in P.
    apply P; auto.
    + destruct s; [congruence|discriminate].
    + now apply text_char_text.
    + exact (dtoks_head _ _ Hd Hf).
  - intros L inner d Hi IHi He Hd IH. rewrite dtoks_cons, ctoks_scope.
    change (Plain (open1 Curly1) :: dtoks inner ++ [Plain (close1 Curly1)]) with
      ([Plain (open1 Curly1)] ++ dtoks inner ++ [Plain (close1 Curly1)]).
    rewrite <- !app_assoc. cbn [app]. apply P_scope; auto.
    + eapply canonical_balanced; eauto.
    + now rewrite (canonical_nl _ _ Hi).
  - intros L c d Ha Hd IH. rewrite dtoks_cons.
    change (L + count_newlines [c]) with (L + nl [Esc c]). apply (P_symbol L c (dtoks d) d Ha). exact IH.
  - intros L a lab args d Ha Hl Hargs IHa Hf Hd IH. rewrite dtoks_cons, ctoks_word.
    destruct (after_word_split _ _ _ Hd Hf) as (w & rest & E & Hw & Hfo & Hne). rewrite E.
    cbn [app]. rewrite <- app_assoc. apply P_command; auto.
    + now apply label_chars_label.
    + now apply ws_tok_map.
    + destruct Hne as [-> | Hne]; auto.
    + rewrite chars_map_plain, <- E, (canonical_args_nl _ Hargs). exact IH.
  - intros L a lab args s Ha Hl Hargs IHa Hne Hs. rewrite !dtoks_cons, ctoks_word, ctoks_text.
    change (dtoks []) with (@nil token). rewrite app_nil_r. cbn [app]. rewrite <- app_assoc.
    rewrite <- (canonical_args_nl _ Hargs), <- (nl_map_plain s).
    replace (Text1 s) with (Text1 (chars (map Plain s))) by now rewrite chars_map_plain.
    apply P_command_eof; auto.
    + now apply label_chars_label.
    + now apply ws_tok_map.
    + destruct s; [congruence|discriminate].
  - constructor.
  - intros pre inner v args Hp Hi IHi He Hargs IH. rewrite atoks_cons.
    pose proof (PA_cons (map Plain pre) (Plain (open1 v)) v (dtoks inner) inner (atoks args) args) as P.
    rewrite chars_map_plain in P.
    apply (proj1 (no_bracket_toks v) _ _ Hi) in He. apply P; auto.
    + now apply ws_tok_map.
    + apply run_depth_balanced. now apply v_run.
    + now rewrite v_drop.
Qed.

Theorem canonical_from_str1 p d : N.of_nat (length (show1 d)) + 1 < two32 ->
  canonical 1 d -> from_str1 p (show1 d) = Ok d.
Proof.
  intros B H. apply (from_str1_iff p _ _ B). destruct (proj1 canonical_toks _ _ H) as [W E].
  rewrite <- E, (tokens_untoks _ W). now apply canonical_parses.
Qed.

(** ** Documents obtained by parsing are canonical, up to [reparse_safe] *)
Definition no_bracket' (v : sv1) (c : chunk1) : Prop :=
  match variant_of1 c with
  | Text1 s => ~ In (close1 v) s
  | Command1 (mkCommand1 _ args) => Forall (fun a => scope_variant1 (snd a) <> v) args
  | Scope1 _ => True
  end.
Lemma drop_own_no_v v w ts : existsb (is_v v) ts = false -> existsb (is_v v) (drop_own w ts) = false.
Proof.
  induction ts as [|t ts IH]; cbn [existsb drop_own filter]; [reflexivity|]. intros H. apply orb_false_iff in H as [H1 H2].
  destruct (negb _); cbn [existsb]; [rewrite H1|]; now apply IH.
Qed.
Lemma drop_own_self v ts : existsb (is_v v) (drop_own v ts) = false.
Proof.
  induction ts as [|t ts IH]; cbn [drop_own filter]; [reflexivity|].
  destruct (is_open_tok v t || is_close_tok v t) eqn:E; cbn [negb existsb]; [exact IH|].
  unfold is_v at 1. rewrite E. exact IH.
Qed.
Lemma text_run_no_v v run : forallb is_text_tok run = true -> existsb (is_v v) run = false -> ~ In (close1 v) (chars run).
Proof.
  induction run as [|t run IH]; cbn [forallb existsb chars map In]; intros H1 H2; [tauto|].
  apply andb_true_iff in H1 as [H1 H1']. apply orb_false_iff in H2 as [H2 H2'].
  intros [E|E]; [|now apply IH]. destruct t as [c|c]; [|discriminate]. cbn [tchar] in E. subst c.
  unfold is_v in H2. rewrite close_close, orb_true_r in H2. discriminate.
Qed.
Lemma ws_toks_no_v v ws : forallb (fun t => is_whitespace (tchar t)) ws = true -> existsb (is_v v) (map Plain (chars ws)) = false.
Proof.
  intros H. apply ws_no_v. revert H. induction ws; cbn; [auto|]. intros H. apply andb_true_iff in H as [-> H]. auto.
Qed.

Lemma parses_no_v v :
  (forall L ts d, parses L ts d -> existsb (is_v v) ts = false -> everywhere (no_bracket' v) d) /\
  (forall ts args, parses_args ts args -> existsb (is_v v) ts = false ->
     Forall (fun a => scope_variant1 (snd a) <> v) args /\ Forall (fun a => everywhere (no_bracket' v) (chunks1 (snd a))) args).
Proof.
  apply parses_parses_args_ind.
  - intros L _. apply everywhere_nil.
  - intros L run rest cs Hne Hrun Hrest _ IH E. rewrite existsb_app in E. apply orb_false_iff in E as [E1 E2].
    apply everywhere_cons. split; [exact (text_run_no_v _ _ Hrun E1)|]. split; [exact I|auto].
  - intros L w body rest inner cs Hb Hp IHi _ IH E. cbn [existsb] in E. rewrite existsb_app in E. cbn [existsb] in E.
    rewrite !orb_false_iff in E. apply everywhere_cons. split; [exact I|]. split; [apply IHi; tauto|apply IH; tauto].
  - intros L c rest cs Ha _ IH E. cbn [existsb] in E. rewrite orb_false_iff in E.
    apply everywhere_cons. split; [constructor|]. split; [constructor|apply IH; tauto].
  - intros L a lab argtoks args ws rest cs Ha Hl _ IHa Hws Hf Hne _ IH E.
    cbn [existsb] in E. rewrite !existsb_app, !orb_false_iff in E.
    apply everywhere_cons. destruct (IHa ltac:(tauto)) as [A1 A2].
    split; [exact A1|]. split; [exact A2|]. apply IH. rewrite existsb_app, (ws_toks_no_v _ _ Hws). tauto.
  - intros L a lab argtoks args ws Ha Hl _ IHa Hws Hne E.
    cbn [existsb] in E. rewrite !existsb_app, !orb_false_iff in E.
    destruct (IHa ltac:(tauto)) as [A1 A2].
    apply everywhere_cons. split; [exact A1|]. split; [exact A2|]. apply everywhere_cons.
    split; [|split; [exact I|apply everywhere_nil]].
    pose proof (ws_toks_no_v v _ Hws) as W. rewrite existsb_v in W. apply orb_false_iff in W as [_ W]. now apply text_close in W.
  - split; constructor.
  - intros pre o w body inner rest args Hpre Ho Hb Hp IHi _ IH E.
    rewrite existsb_app in E. cbn [existsb] in E. rewrite existsb_app in E. cbn [existsb] in E. rewrite !orb_false_iff in E.
    destruct E as (E1 & E2 & E3 & E4 & E5). destruct (IH E5) as [A1 A2].
    split; constructor; auto; cbn [snd scope_variant1 chunks1].
    + unfold is_v in E4. rewrite plain_close_v, orb_false_iff in E4. now apply sv1_eqb_false.
    + apply IHi. now apply drop_own_no_v.
Qed.

Lemma parsed_after_word L has ws rest cs :
  forallb (fun t => is_whitespace (tchar t)) ws = true ->
  follow_ok has ws rest = true -> (ws = [] \/ rest <> []) ->
  parses L (map Plain (chars ws) ++ rest) cs -> after_word has cs = true.
Proof.
  intros Hws Hf Hne H. destruct cs as [|c post]; [reflexivity|].
  pose proof (word_follow _ _ _ _ _ Hws Hf Hne H) as [Hns Hbl].
  pose proof (parses_head _ _ _ _ H) as Hh. unfold after_word, is_scope1, is_blank1 in *.
  destruct (variant_of1 c) as [s|[lab a]|sc] eqn:Ev.
  - destruct Hh as (run & rest' & Heq & Hrne & -> & Hrun & Hr' & Hp).
    destruct run as [|t run]; [congruence|]. cbn [chars map]. fold (chars run).
    destruct (forallb is_whitespace (tchar t :: chars run)) eqn:Eb.
    + specialize (Hbl Eb). destruct post as [|c' post]; [destruct Hbl|].
      (* the run covers exactly the blanks *)
      assert (Hrest : rest' = rest).
      { clear -Heq Eb Hws Hf Hrun Hr' Hne.
        change (tchar t :: chars run) with (chars (t :: run)) in Eb.
        set (r := t :: run) in *. assert (Hrne : r <> []) by discriminate. clearbody r. clear t run.
        revert r Heq Eb Hrun Hrne. induction ws as [|w ws IH]; intros run Heq Hb Hrun Hrne.
        - cbn [chars map app] in Heq. destruct run as [|t run]; [congruence|]. subst rest. cbn [app follow_ok] in Hf.
          cbn [chars map forallb] in Hb. destruct (is_whitespace (tchar t)); discriminate.
        - destruct run as [|t run]; [congruence|].
          cbn [chars map app] in Heq. injection Heq as <- Heq.
          cbn [forallb] in *. apply andb_true_iff in Hws as [_ Hws]. apply andb_true_iff in Hrun as [_ Hrun].
          cbn [chars map forallb] in Hb. apply andb_true_iff in Hb as [_ Hb].
          destruct ws as [|w' ws].
          + cbn [chars map app] in Heq. destruct run as [|t run]; [exact (eq_sym Heq)|].
            exfalso. destruct rest as [|t' rest]; [discriminate|]. injection Heq as -> _.
            cbn [follow_ok] in Hf. cbn [chars map forallb] in Hb. destruct (is_whitespace (tchar t)); discriminate.
          + assert (run <> []).
            { intros ->. cbn [chars map app] in Heq. subst rest'. cbn [is_text_tok] in Hr'.
              cbn [forallb] in Hws. apply andb_true_iff in Hws as [Hw _]. rewrite (ws_not_opening _ Hw) in Hr'. discriminate. }
            apply (IH Hws) with (r := run); auto. destruct Hne as [Hne|Hne]; [discriminate|now right]. }
      subst rest'. pose proof (parses_head _ _ _ _ Hp) as Hh. unfold next_ok.
      destruct (variant_of1 c') as [s|[lab a]|sc]; [reflexivity| |discriminate].
      destruct Hh as (x & lab' & ts' & -> & ->). cbn in Hf. rewrite andb_true_r in Hf. exact Hf.
    + destruct ws as [|w ws].
      * cbn [chars map app] in Heq. subst rest. cbn in Hf. destruct t as [x|x]; [|discriminate].
        cbn [tchar] in *. destruct (is_whitespace x); [discriminate|]. destruct (is_opening x); [discriminate|].
        cbn in *. rewrite andb_comm. exact Hf.
      * cbn [chars map app] in Heq. injection Heq as <- _. cbn [tchar]. cbn [forallb] in Hws.
        apply andb_true_iff in Hws as [-> _]. reflexivity.
  - unfold next_ok. rewrite Ev. destruct Hh as (x & lab' & ts' & -> & Heq).
    destruct ws as [|w ws]; [|discriminate]. cbn [chars map app] in Heq. subst rest. cbn in Hf.
    rewrite andb_true_r in Hf. exact Hf.
  - discriminate.
Qed.

Lemma text_run_char run : Forall wf_token run -> forallb is_text_tok run = true -> forallb text_char (chars run) = true.
Proof.
  induction 1 as [|t run Ht _ IH]; cbn [forallb chars map]; [reflexivity|]. intros H. apply andb_true_iff in H as [H1 H2].
  fold (chars run). rewrite (IH H2), andb_true_r. destruct t as [c|c]; [|discriminate]. cbn [tchar is_text_tok] in *. destruct Ht as [T1 T2].
  unfold text_char. rewrite H1. apply N.eqb_neq in T1, T2. now rewrite T1, T2.
Qed.
Lemma label_wf lab : Forall wf_token (map Plain lab) -> forallb is_label_char lab = true -> forallb label_char lab = true.
Proof.
  induction lab as [|c lab IH]; cbn [forallb map]; [reflexivity|]. intros W H. inversion W as [|? ? T W2]; subst. destruct T as [T1 T2].
  apply andb_true_iff in H as [H1 H2]. rewrite (IH W2 H2), andb_true_r. unfold label_char. rewrite H1.
  apply N.eqb_neq in T1, T2. now rewrite T1, T2.
Qed.
Lemma text_first_rest L rest cs :
  match rest with [] => True | t :: _ => is_text_tok t = false end -> parses L rest cs -> text_first cs = false.
Proof.
  intros Hr Hp. destruct cs as [|c cs]; [reflexivity|]. cbn [text_first]. pose proof (parses_head _ _ _ _ Hp) as Hh.
  unfold is_text1. destruct (variant_of1 c) as [s|[lab a]|sc]; [|reflexivity|reflexivity].
  destruct Hh as (run & rest' & -> & Hne & _ & Hrun & _). destruct run as [|t run]; [congruence|].
  cbn in *. rewrite Hr in Hrun. discriminate.
Qed.
Lemma ws_chars ws : forallb (fun t => is_whitespace (tchar t)) ws = true -> forallb is_whitespace (chars ws) = true.
Proof. induction ws; cbn; [auto|]. intros H. apply andb_true_iff in H as [-> H]. auto. Qed.

Lemma no_bracket_join v d : everywhere (no_bracket' v) d -> (v = Curly1 -> everywhere (fun c => is_scope1 c = false) d) ->
  (forall cs l inner w, within1 d cs -> In (mkChunk1 l (Scope1 (mkScope1 inner w))) cs -> w = Curly1) ->
  everywhere (no_bracket v) d.
Proof.
  intros H1 H2 H3 cs Hw. specialize (H1 cs Hw). rewrite Forall_forall in *. intros c Hc. specialize (H1 c Hc).
  unfold no_bracket, no_bracket' in *. destruct c as [l [s|[lab args]|[inner w]]]; cbn [variant_of1] in *; auto.
  cbn [scope_variant1]. pose proof (H3 _ _ _ _ Hw Hc) as ->. intros <-. specialize (H2 eq_refl cs Hw).
  rewrite Forall_forall in H2. specialize (H2 _ Hc). discriminate.
Qed.
(** scopes of parsed documents are curly *)
Lemma parses_curly L ts d : parses L ts d -> forall l inner w, In (mkChunk1 l (Scope1 (mkScope1 inner w))) d -> w = Curly1.
Proof.
  induction 1 as [|L run rest cs Hne Hrun Hrest _ IH|L v body rest inner cs Hb Hp IHi _ IH|L c rest cs Ha _ IH
    |L a lab argtoks args ws rest cs Ha Hl Hargs Hws Hf Hne _ IH|L a lab argtoks args ws Ha Hl Hargs Hws Hne];
  intros l inner' w Hin; [destruct Hin| | | | |]; destruct Hin as [E|Hin]; try discriminate; eauto.
  - injection E as _ _ <-. reflexivity.
  - destruct Hin as [E|[]]; discriminate.
Qed.

Lemma parsed_canonical :
  (forall L ts d, parses L ts d -> Forall wf_token ts -> everywhere reparse_safe d -> canonical L d) /\
  (forall ts args, parses_args ts args -> Forall wf_token ts ->
     Forall (fun a => scope_variant1 (snd a) = Curly1 -> everywhere (fun c => is_scope1 c = false) (chunks1 (snd a))) args ->
     Forall (fun a => everywhere reparse_safe (chunks1 (snd a))) args ->
     canonical_args args).
Proof.
  apply parses_parses_args_ind.
  - constructor.
  - intros L run rest cs Hne Hrun Hrest Hp IH W S. apply Forall_app in W as [W1 W2].
    apply everywhere_cons in S as (_ & _ & S). constructor.
    + destruct run; [congruence|discriminate].
    + now apply text_run_char.
    + eapply text_first_rest; eauto.
    + now apply IH.
  - intros L v body rest inner cs Hb Hp IHi _ IH W S. inversion W as [|? ? W0 W1]; subst.
    apply Forall_app in W1 as [W1 W2]. inversion W2; subst.
    apply everywhere_cons in S as (S1 & S2 & S3). constructor; auto.
    change (count_newlines (show1 inner)) with (nls inner). rewrite (parses_nls _ _ _ Hp). auto.
  - intros L c rest cs Ha _ IH W S. inversion W; subst. apply everywhere_cons in S as (S1 & S2 & S3).
    change (nl [Esc c]) with (count_newlines [c]) in *. constructor; auto.
  - intros L a lab argtoks args ws rest cs Ha Hl Hargs IHa Hws Hf Hne Hp IH W S.
    inversion W as [|? ? W0 W1]; subst.
    apply Forall_app in W1 as [W1 W2]. apply Forall_app in W2 as [W2 W3]. apply Forall_app in W3 as [W3 W4].
    apply everywhere_cons in S as (S1 & S2 & S3). constructor; auto.
    + now apply label_wf.
    + eapply parsed_after_word; eauto.
    + rewrite (parses_args_nls _ _ Hargs). apply IH; [|exact S3]. apply Forall_app; split; [now apply wf_plain_ws|exact W4].
  - intros L a lab argtoks args ws Ha Hl Hargs IHa Hws Hne W S.
    inversion W as [|? ? W0 W1]; subst.
    apply Forall_app in W1 as [W1 W2]. apply Forall_app in W2 as [W2 W3].
    apply everywhere_cons in S as (S1 & S2 & S3). rewrite <- (parses_args_nls _ _ Hargs).
    change (nl ws) with (count_newlines (chars ws)). apply cn_word_eof; auto.
    + now apply label_wf.
    + destruct ws; [congruence|discriminate].
    + now apply ws_chars.
  - constructor.
  - intros pre o v body inner rest args Hpre Ho Hb Hp IHi _ IH W S1 S2.
    apply Forall_app in W as [W1 W2]. inversion W2 as [|? ? W3 W4]; subst.
    apply Forall_app in W4 as [W4 W5]. inversion W5; subst.
    inversion S1 as [|? ? A1 A2]; inversion S2 as [|? ? B1 B2]; subst. cbn [snd scope_variant1 chunks1] in *.
    assert (Wd : Forall wf_token (drop_own v body)) by now apply wf_drop_own.
    constructor; auto.
    + now apply ws_chars.
    + apply no_bracket_join; [|exact A1|].
      * eapply (proj1 (parses_no_v v)); [exact Hp|apply drop_own_self].
      * intros cs l i w Hw Hin.
        destruct (within_parse inner cs) as (ts' & _ & Hp'); [exists (drop_own v body); auto|exact Hw|].
        eapply parses_curly; eauto.
Qed.

(** ** Conversely *)
Lemma untoks_inj ts us : Forall wf_token ts -> Forall wf_token us -> untoks ts = untoks us -> ts = us.
Proof. intros W1 W2 E. rewrite <- (tokens_untoks _ W1), E. now apply tokens_untoks. Qed.
Lemma everywhere_and (P Q : chunk1 -> Prop) d : everywhere P d -> everywhere Q d -> everywhere (fun c => P c /\ Q c) d.
Proof.
  intros HP HQ cs Hw. specialize (HP cs Hw). specialize (HQ cs Hw). rewrite Forall_forall in *. intros c Hc. split; auto.
Qed.

Lemma parses_length L ts d : parses L ts d -> (length (show1 d) <= length (untoks ts))%nat.
Proof. intros H. apply degrades_length. exact (proj1 parses_degrades _ _ _ H). Qed.
Lemma parses_args_length ts args : parses_args ts args -> (length (show_args1 args) <= length (untoks ts))%nat.
Proof. intros H. apply degrades_length. exact (proj2 parses_degrades _ _ H). Qed.
Lemma app_inj_len {A} (a b c d : list A) : a ++ b = c ++ d -> length a = length c -> a = c /\ b = d.
Proof.
  revert c. induction a as [|x a IH]; intros [|y c] E L; cbn in *; try discriminate; auto.
  injection E as -> E. injection L as L. destruct (IH c E L) as [-> ->]. auto.
Qed.
Lemma chars_le_untoks ts : (length (chars ts) <= length (untoks ts))%nat.
Proof. rewrite length_chars. apply length_untoks_le. Qed.
Lemma untoks_chars_plain ts : length (untoks ts) = length (chars ts) -> ts = map Plain (chars ts).
Proof.
  induction ts as [|t ts IH]; [reflexivity|]. rewrite untoks_cons, app_length. pose proof (chars_le_untoks ts) as P.
  destruct t as [c|c]; cbn [untok length chars map tchar] in *; fold (chars ts); intros E; [|unfold chars in *; lia].
  f_equal. apply IH. unfold chars in *. lia.
Qed.
Lemma drop_own_untoks_length v ts : (length (untoks (drop_own v ts)) <= length (untoks ts))%nat.
Proof. apply degrades_length, degrades_drop_own. Qed.
Lemma drop_own_exact v ts : length (untoks (drop_own v ts)) = length (untoks ts) -> existsb (is_v v) ts = false.
Proof.
  induction ts as [|t ts IH]; [reflexivity|]. cbn [drop_own filter existsb]. unfold is_v at 1. intros E.
  pose proof (drop_own_untoks_length v ts) as P. unfold drop_own in P, IH.
  destruct (is_open_tok v t || is_close_tok v t); cbn [negb orb] in *.
  - rewrite untoks_cons, app_length in E. destruct t; cbn [untok length] in E; lia.
  - apply IH. rewrite !untoks_cons, !app_length in E. lia.
Qed.

Lemma exact_safe :
  (forall L ts d, parses L ts d -> Forall wf_token ts -> untoks ts = show1 d -> everywhere reparse_safe d) /\
  (forall ts args, parses_args ts args -> Forall wf_token ts -> untoks ts = show_args1 args ->
     Forall (fun a => scope_variant1 (snd a) = Curly1 -> everywhere (fun c => is_scope1 c = false) (chunks1 (snd a))) args /\
     Forall (fun a => everywhere reparse_safe (chunks1 (snd a))) args).
Proof.
  apply parses_parses_args_ind.
  - intros L _ _. apply everywhere_nil.
  - intros L run rest cs Hne Hrun Hrest Hp IH W E. apply Forall_app in W as [W1 W2].
    rewrite show1_cons, untoks_app, untoks_text in E by exact Hrun. cbn [show_chunk1 show_variant1] in E.
    apply app_inv_head in E. apply everywhere_cons. repeat split; auto.
  - intros L v body rest inner cs Hb Hp IHi Hp2 IH W E. inversion W as [|? ? W0 W1]; subst.
    apply Forall_app in W1 as [W1 W2]. inversion W2 as [|? ? W3 W4]; subst.
    pose proof (parses_length _ _ _ Hp) as L1. pose proof (parses_length _ _ _ Hp2) as L2.
    rewrite untoks_cons, untoks_app, untoks_cons, show1_cons in E. cbn [show_chunk1 show_variant1] in E.
    rewrite show_scope_eq in E. cbn [untok app] in E. injection E as Ev E. rewrite <- app_assoc in E. cbn [app] in E.
    assert (LE : length (untoks body) = length (show1 inner)).
    { apply (f_equal (@length _)) in E. rewrite !app_length in E. cbn [length] in E. lia. }
    apply app_inj_len in E as [E1 E2]; [|exact LE]. injection E2 as _ E2.
    assert (v = Curly1) as -> by (destruct v; [reflexivity|discriminate|discriminate]).
    specialize (IHi W1 E1). assert (C : canonical 1 inner) by (eapply (proj1 parsed_canonical); eauto).
    assert (body = dtoks inner) as ->.
    { destruct (proj1 canonical_toks _ _ C) as [Wd Ed]. apply untoks_inj; auto. congruence. }
    apply everywhere_cons. split; [|split; [exact IHi|auto]]. exact (canonical_unbalanced _ _ C Hb).
  - intros L c rest cs Ha _ IH W E. inversion W; subst. apply everywhere_cons.
    rewrite untoks_cons, show1_cons in E. cbn in E. injection E as E. split; [constructor|]. split; [constructor|auto].
  - intros L a lab argtoks args ws rest cs Ha Hl Hargs IHa Hws Hf Hne Hp IH W E.
    inversion W as [|? ? W0 W1]; subst.
    apply Forall_app in W1 as [W1 W2]. apply Forall_app in W2 as [W2 W3]. apply Forall_app in W3 as [W3 W4].
    rewrite untoks_cons, !untoks_app, untoks_map_plain, show1_cons in E.
    cbn [show_chunk1 show_variant1 show_command1 untok app] in E. injection E as E.
    fold (show_args1 args) in E. rewrite <- app_assoc in E. apply app_inv_head in E.
    pose proof (parses_args_length _ _ Hargs) as L1. pose proof (parses_length _ _ _ Hp) as L2.
    rewrite untoks_app, untoks_map_plain, app_length in L2. pose proof (chars_le_untoks ws) as L3.
    assert (LE : length (untoks argtoks) = length (show_args1 args) /\ length (untoks ws) = length (chars ws)).
    { apply (f_equal (@length _)) in E. rewrite !app_length in E. lia. }
    destruct LE as [LE1 LE2].
    apply app_inj_len in E as [E1 E2]; [|exact LE1].
    destruct (IHa W2 E1) as [A1 A2]. apply everywhere_cons. split; [exact A1|]. split; [exact A2|].
    apply IH; [apply Forall_app; split; [now apply wf_plain_ws|exact W4]|].
    rewrite <- (untoks_chars_plain _ LE2), untoks_app. exact E2.
  - intros L a lab argtoks args ws Ha Hl Hargs IHa Hws Hne W E.
    inversion W as [|? ? W0 W1]; subst.
    apply Forall_app in W1 as [W1 W2]. apply Forall_app in W2 as [W2 W3].
    rewrite untoks_cons, !untoks_app, untoks_map_plain, !show1_cons in E.
    cbn [show_chunk1 show_variant1 show_command1 untok app] in E. injection E as E.
    fold (show_args1 args) in E. rewrite <- app_assoc in E. apply app_inv_head in E.
    pose proof (parses_args_length _ _ Hargs) as L1. pose proof (chars_le_untoks ws) as L3.
    assert (LE1 : length (untoks argtoks) = length (show_args1 args)).
    { apply (f_equal (@length _)) in E. rewrite !app_length in E. cbn [length show1 map concat] in E. lia. }
    apply app_inj_len in E as [E1 E2]; [|exact LE1].
    destruct (IHa W2 E1) as [A1 A2]. apply everywhere_cons. split; [exact A1|]. split; [exact A2|].
    apply everywhere_cons. split; [exact I|]. split; [exact I|apply everywhere_nil].
  - split; constructor.
  - intros pre o v body inner rest args Hpre Ho Hb Hp IHi Hargs IH W E.
    apply Forall_app in W as [W1 W2]. inversion W2 as [|? ? W3 W4]; subst.
    apply Forall_app in W4 as [W4 W5]. inversion W5 as [|? ? W6 W7]; subst.
    rewrite untoks_app, untoks_cons, untoks_app, untoks_cons, show_args_cons, show_scope_eq in E.
    pose proof (chars_le_untoks pre) as L1. pose proof (parses_length _ _ _ Hp) as L2.
    pose proof (drop_own_untoks_length v body) as L3. pose proof (parses_args_length _ _ Hargs) as L4.
    rewrite <- !app_assoc in E. cbn [app untok] in E. rewrite <- app_assoc in E. cbn [app] in E.
    assert (Lo : (1 <= length (untok o))%nat) by (destruct o; cbn; lia).
    assert (LE : length (untoks pre) = length (chars pre) /\ length (untok o) = 1%nat /\
                 length (untoks body) = length (show1 inner)).
    { apply (f_equal (@length _)) in E. rewrite !app_length in E. cbn [length] in E. rewrite !app_length in E. cbn [length] in E. lia. }
    destruct LE as (LE1 & LE2 & LE3). apply app_inj_len in E as [E1 E]; [|exact LE1].
    destruct o as [x|x]; [|discriminate]. cbn [untok app] in E. injection E as _ E.
    apply app_inj_len in E as [E2 E3]; [|exact LE3]. injection E3 as E3.
    assert (ND : existsb (is_v v) body = false) by (apply drop_own_exact; lia).
    rewrite (v_drop _ _ ND) in *.
    specialize (IHi W4 E2). destruct (IH W7 E3) as [A1 A2].
    split; constructor; auto; cbn [snd scope_variant1 chunks1]. intros ->.
    assert (C : canonical 1 inner) by (eapply (proj1 parsed_canonical); eauto).
    assert (body = dtoks inner) as ->.
    { destruct (proj1 canonical_toks _ _ C) as [Wd Ed]. apply untoks_inj; auto. congruence. }
    apply (proj1 (no_bracket_toks Curly1) _ _ C) in ND.
    intros cs Hw. specialize (ND cs Hw). apply Forall_forall. intros c Hc. rewrite Forall_forall in ND. specialize (ND c Hc).
    destruct c as [l [s|cm|[i w]]]; try reflexivity. exfalso. cbn in ND.
    destruct (within_parse inner cs) as (ts' & _ & Hp'); [exists (dtoks inner); auto|exact Hw|].
    apply ND. eapply parses_curly; eauto.
Qed.

(** [tokens] of a Display that is parsed back *)
Lemma exact_tokens d : parses 1 (tokens (show1 d)) d -> untoks (tokens (show1 d)) = show1 d.
Proof.
  intros H. pose proof (proj1 parses_degrades _ _ _ H) as D2.
  assert (D1 : degrades (show1 d) (untoks (tokens (show1 d)))) by apply (lex_degrades (show1 d) false false).
  apply degrades_exact; [exact D1| |].
  - apply degrades_length in D1, D2. lia.
  - intros x Hx. pose proof (degrades_count _ _ D1 x Hx). pose proof (degrades_count _ _ D2 x Hx). lia.
Qed.

Theorem from_str1_show_iff p d : N.of_nat (length (show1 d)) + 1 < two32 ->
  (from_str1 p (show1 d) = Ok d <-> canonical 1 d).
Proof.
  intros B. split; [|intros H; now apply canonical_from_str1].
  intros H. apply (from_str1_iff p _ _ B) in H. pose proof (exact_tokens _ H) as E.
  pose proof (tokens_wf (show1 d)) as W. eapply (proj1 parsed_canonical); [exact H|exact W|].
  eapply (proj1 exact_safe); eauto.
Qed.

Lemma canonical_safe d : canonical 1 d -> everywhere reparse_safe d.
Proof.
  intros C. destruct (proj1 canonical_toks _ _ C) as [W E].
  eapply (proj1 exact_safe); [|exact W|exact E]. exact (proj1 canonical_parses _ _ C).
Qed.

Theorem reparse_iff p q s d : N.of_nat (length s) + 1 < two32 -> from_str1 p s = Ok d ->
  (from_str1 q (show1 d) = Ok d <-> everywhere reparse_safe d).
Proof.
  intros B H. pose proof (from_str1_has_parse p s d B H) as [_ Hp].
  assert (B' : N.of_nat (length (show1 d)) + 1 < two32).
  { pose proof (degrades_length _ _ (from_str1_degrades p s d B H)). lia. }
  rewrite (from_str1_show_iff q d B'). split; [apply canonical_safe|].
  intros S. eapply (proj1 parsed_canonical); [exact Hp|apply tokens_wf|exact S].
Qed.
