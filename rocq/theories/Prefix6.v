(** * Prefix6: what stage 3 keeps, document level *)
From Coq Require Import Lia.
From Verif Require Import Base Ast1 Parse1 Ast2 Ast3 Valid1 Valid2 SpecPar3 SpecClass3 Par3 MathsRun MathsRec SpecPrefix Prefix3 Prefix4 Prefix5.
Local Open Scope N_scope.

Section Prefix6.
  Context (p : profile).
  Notation rec := (maths_from_chunks p).
  Definition grow (c c' : document3) : Prop := (forall k, d_class c = Some k -> d_class c' = Some k) /\ (exists more, d_options c' = d_options c ++ more).
  Definition same_class (c c' : document3) : Prop := d_class c' = d_class c /\ d_options c' = d_options c.
  Definition same_body (c c' : document3) : Prop := d_body c' = d_body c /\ d_body_args c' = d_body_args c /\ d_begin_prec c' = d_begin_prec c /\ d_end_prec c' = d_end_prec c.
  Lemma grow_refl c : grow c c.
  Proof. split; [auto|exists []; now rewrite app_nil_r]. Qed.
  Lemma grow_trans a b c : grow a b -> grow b c -> grow a c.
  Proof. intros [A (m & M)] [B (n & N)]. split; [auto|]. exists (m ++ n). now rewrite N, M, app_assoc. Qed.
  Lemma class_args l more : forall co co', foldM (class_arg_step l) co more = Ok co' -> (forall k, fst co = Some k -> fst co' = Some k) /\ (exists x, snd co' = snd co ++ x).
  Proof.
    induction more as [|[b [cs v]] more IH]; intros [cls opts] co'; cbn [foldM].
    - intros H. injection H as <-. split; [auto|exists []; now rewrite app_nil_r].
    - cbn [class_arg_step].
      assert (O : forall o, (let* x := Ok (cls, opts ++ o) in foldM (class_arg_step l) x more) = Ok co' -> (forall k, cls = Some k -> fst co' = Some k) /\ (exists x, snd co' = opts ++ x)).
      { intros o. cbn [bind]. intros H. destruct (IH _ _ H) as [A (x & B)]. cbn in *. split; [exact A|]. rewrite B, <- app_assoc. eauto. }
      destruct v; try exact (O _). destruct cls; cbn [bind]; try discriminate. intros H. destruct (IH _ _ H) as [A (x & B)]. cbn in *. split; [discriminate|eauto].
  Qed.
  Lemma d_mono st c s : d_step p st c = Ok s ->
    grow (ds_construct st) (ds_construct s) /\ (ds_trailing st = true -> same_class (ds_construct st) (ds_construct s) /\ ds_trailing s = true) /\
    (~ is_document c -> same_body (ds_construct st) (ds_construct s)).
  Proof.
    assert (O : forall s, Ok (d_push_other st c) = @Ok error _ s -> grow (ds_construct st) (ds_construct s) /\ (ds_trailing st = true -> same_class (ds_construct st) (ds_construct s) /\ ds_trailing s = true) /\
      (~ is_document c -> same_body (ds_construct st) (ds_construct s))).
    { intros s0 H. injection H as <-. unfold d_push_other, d_push_pre. destruct (ds_trailing st) eqn:T; cbn; (split; [apply grow_refl|]); (split; [|now repeat split]); [now repeat split|congruence]. }
    destruct c as [l v]. destruct v as [t|[lab args]|sc|env]; cbn [d_step label2 arguments2]; auto.
    - destruct (str_eqb lab s_documentclass && negb (ds_trailing st)) eqn:Q; [|auto]. apply andb_true_iff in Q as [_ T]. apply negb_true_iff in T.
      destruct (d_class (ds_construct st)) eqn:Cl; [discriminate|]. destruct (foldM (class_arg_step l) _ args) as [co| | |] eqn:F; cbn [bind]; try discriminate. intros H. injection H as <-. cbn.
      destruct (class_args _ _ _ _ F) as [A B]. cbn in *. split; [split; cbn; [intros k K; congruence|exact B]|]. split; [congruence|now repeat split].
    - destruct (str_eqb (env_label2 env) s_document) eqn:Q; [|auto]. destruct (env3_try_from p rec env) as [[? ? ? ? ?]| | |]; cbn [bind]; try discriminate. intros H. injection H as <-. cbn.
      split; [split; cbn; [auto|exists []; now rewrite app_nil_r]|]. split; [now repeat split|]. intros N. exfalso. apply N. apply str_eqb_eq in Q. destruct env as [lb a co pb pe]. cbn in Q. subst lb. repeat eexists.
  Qed.
  Lemma ds_mono r : forall st s, foldM (d_step p) st r = Ok s ->
    grow (ds_construct st) (ds_construct s) /\ (ds_trailing st = true -> same_class (ds_construct st) (ds_construct s)) /\
    (Forall (fun c => ~ is_document c) r -> same_body (ds_construct st) (ds_construct s)).
  Proof.
    induction r as [|c r IH]; intros st s; cbn [foldM].
    - intros H. injection H as <-. split; [apply grow_refl|]. now repeat split.
    - destruct (d_step p st c) as [s1| | |] eqn:D; cbn [bind]; try discriminate. intros H. destruct (d_mono _ _ _ D) as (A & B & C). destruct (IH _ _ H) as (A' & B' & C').
      split; [exact (grow_trans _ _ _ A A')|]. split.
      + intros T. destruct (B T) as [[X Y] T1]. destruct (B' T1) as [X' Y']. split; congruence.
      + intros F. inversion F; subst. destruct (C ltac:(assumption)) as (X1 & X2 & X3 & X4). destruct (C' ltac:(assumption)) as (Y1 & Y2 & Y3 & Y4). repeat split; congruence.
  Qed.
  Lemma cmd_class st l lab args more s s' : d_step p st (cmd2 l lab args) = Ok s -> d_step p st (cmd2 l lab (args ++ more)) = Ok s' -> grow (ds_construct s) (ds_construct s').
  Proof.
    unfold cmd2. cbn [d_step label2 arguments2]. destruct (str_eqb lab s_documentclass && negb (ds_trailing st)).
    - destruct (d_class (ds_construct st)); [discriminate|]. rewrite foldM_app'. destruct (foldM (class_arg_step l) _ args) as [co| | |]; cbn [bind]; try discriminate. intros H. injection H as <-.
      destruct (foldM (class_arg_step l) co more) as [co'| | |] eqn:F; cbn [bind]; try discriminate. intros H. injection H as <-. exact (class_args _ _ _ _ F).
    - intros H H'. injection H as <-. injection H' as <-. unfold d_push_other, d_push_pre. destruct (ds_trailing st); apply grow_refl.
  Qed.
  Lemma cmd_bare st l lab s : d_step p st (cmd2 l lab []) = Ok s -> ds_construct s = ds_construct st.
  Proof.
    unfold cmd2. cbn [d_step label2 arguments2]. destruct (str_eqb lab s_documentclass && negb (ds_trailing st)).
    - destruct (ds_construct st) as [cl op pr bo ba be en tr] eqn:E. cbn [d_class d_options]. destruct cl; [discriminate|]. cbn. intros H. injection H as <-. reflexivity.
    - intros H. injection H as <-. unfold d_push_other, d_push_pre. now destruct (ds_trailing st).
  Qed.
  Lemma text_construct st l t s : d_step p st (mkChunk2 l (Text2 t)) = Ok s -> ds_construct s = ds_construct st.
  Proof. cbn. intros H. injection H as <-. unfold d_push_other, d_push_pre. now destruct (ds_trailing st). Qed.

  Lemma construct_kept st tail rest s1 s2 : continues2 tail rest -> foldM (d_step p) st tail = Ok s1 -> foldM (d_step p) st rest = Ok s2 -> grow (ds_construct s1) (ds_construct s2).
  Proof.
    intros C F F'. destruct (ds_mono _ _ _ F') as (G & _).
    assert (One : forall c, foldM (d_step p) st [c] = Ok s1 -> d_step p st c = Ok s1). { intros c. cbn [foldM]. destruct (d_step p st c); cbn [bind]; auto. }
    destruct C as [r|l s u r|l lab args more r|l lab u args r W|l lab u l' env r W E U L|l' l'' w u r W|l lab args l' w u sc more r W].
    - injection F as <-. exact G.
    - rewrite (text_construct _ _ _ _ (One _ F)). exact G.
    - cbn [foldM] in F'. destruct (d_step p st (mkChunk2 l (Command2 (mkCommand2 lab (args ++ more))))) as [s3| | |] eqn:D; cbn [bind] in F'; try discriminate.
      apply One in F. destruct (ds_mono _ _ _ F') as (G2 & _). exact (grow_trans _ _ _ (cmd_class _ _ _ _ _ _ _ F D) G2).
    - rewrite (cmd_bare _ _ _ _ (One _ F)). exact G.
    - rewrite (cmd_bare _ _ _ _ (One _ F)). exact G.
    - rewrite (text_construct _ _ _ _ (One _ F)). exact G.
    - cbn [foldM] in F, F'. destruct (d_step p st (mkChunk2 l (Command2 (mkCommand2 lab args)))) as [s0| | |] eqn:D0; cbn [bind] in F; try discriminate.
      destruct (d_step p s0 (mkChunk2 l' (Text2 w))) as [s0'| | |] eqn:Dt; cbn [bind] in F; try discriminate. injection F as <-. rewrite (text_construct _ _ _ _ Dt).
      destruct (d_step p st (mkChunk2 l (Command2 (mkCommand2 lab (args ++ (w ++ u, sc) :: more))))) as [s3| | |] eqn:D; cbn [bind] in F'; try discriminate.
      destruct (ds_mono _ _ _ F') as (G2 & _). exact (grow_trans _ _ _ (cmd_class _ _ _ _ _ _ _ D0 D) G2).
  Qed.
  Lemma trailing_iff d : forall st s, foldM (d_step p) st d = Ok s -> (ds_trailing s = true <-> ds_trailing st = true \/ Exists is_document d).
  Proof.
    induction d as [|c d IH]; intros st s; cbn [foldM].
    - intros H. injection H as <-. split; [auto|intros [K|K]; [exact K|inversion K]].
    - destruct (d_step p st c) as [s1| | |] eqn:D; cbn [bind]; try discriminate. intros H. rewrite (IH _ _ H).
      assert (X : ds_trailing s1 = true <-> ds_trailing st = true \/ is_document c).
      { assert (P : plainc c -> ds_trailing s1 = true <-> ds_trailing st = true \/ is_document c).
        { intros P. destruct (d_plain _ _ _ _ D P) as (-> & _). split; [auto|]. intros [K|(? & ? & ? & ? & ? & ->)]; [exact K|destruct P]. }
        destruct c as [l v]. destruct v as [t|cm|sc|env]; try (apply P; exact I). cbn [d_step] in D. destruct (str_eqb (env_label2 env) s_document) eqn:Q.
        - destruct (env3_try_from p rec env) as [[? ? ? ? ?]| | |]; cbn [bind] in D; try discriminate. injection D as <-. cbn. split; [|auto]. intros _. right. apply str_eqb_eq in Q.
          destruct env as [lb a co pb pe]. cbn in Q. subst lb. repeat eexists.
        - injection D as <-. unfold d_push_other, d_push_pre. assert (N : ~ is_document (mkChunk2 l (Environment2 env))).
          { intros (? & ? & ? & ? & ? & K). injection K as -> ->. discriminate Q. }
          destruct (ds_trailing st) eqn:T; cbn; rewrite ?T; tauto. }
      rewrite X, Exists_cons. tauto.
  Qed.
  Theorem kept3 same tail rest x x' : continues2 tail rest -> Forall textc tail -> try_from3 p (same ++ tail) = Ok x -> try_from3 p (same ++ rest) = Ok x' ->
    keeps 3 (d_preamable x) (d_preamable x') /\ keeps 3 (d_trailing x) (d_trailing x') /\ grow x x' /\
    (Exists is_document same -> d_preamable x' = d_preamable x /\ same_class x x') /\
    (Forall (fun c => ~ is_document c) rest -> same_body x x').
  Proof.
    intros C R. unfold try_from3. rewrite !foldM_app'. destruct (foldM (d_step p) dinit same) as [st| | |] eqn:D0; cbn [bind]; try discriminate.
    assert (NT := d_no_trail p same dinit st D0 (fun _ => eq_refl)). pose proof (trailing_iff _ _ _ D0) as TI.
    destruct (foldM (d_step p) st tail) as [s1|e1| |] eqn:F; cbn [bind]; try discriminate; intros H.
    destruct (foldM (d_step p) st rest) as [s2| | |] eqn:F'; cbn [bind]; try discriminate; intros H'.
    pose proof (construct_kept _ _ _ _ _ C F F') as G. destruct (ds_mono _ _ _ F') as (_ & S2 & B2). destruct (ds_mono _ _ _ F) as (_ & S1 & B1).
    assert (Pl : Forall plainc tail) by (destruct C; repeat constructor).
    assert (Nd : Forall (fun c => ~ is_document c) tail). { rewrite Forall_forall in *. intros c Ic (? & ? & ? & ? & ? & ->). exact (Pl _ Ic). }
    assert (P : ds_pre s1 = ds_pre st ++ (if ds_trailing st then [] else tail) /\ ds_trail s1 = ds_trail st ++ (if ds_trailing st then tail else [])).
    { clear - Pl F. revert st F. induction tail as [|c t IH]; intros st; cbn [foldM].
      - intros F. injection F as <-. destruct (ds_trailing st); now rewrite !app_nil_r.
      - inversion Pl; subst. destruct (d_step p st c) as [s0| | |] eqn:D; cbn [bind]; try discriminate. intros F. destruct (d_plain _ _ _ _ D ltac:(assumption)) as (T & Ep & Et).
        destruct (IH ltac:(assumption) _ F) as (-> & ->). rewrite T, Ep, Et. destruct (ds_trailing st); now rewrite <- !app_assoc. }
    assert (Q : exists r, (continues2 tail r \/ (exists l lab, tail = [cmd2 l lab []] /\ word lab)) /\
      if ds_trailing st then ds_pre s2 = ds_pre st /\ ds_trail s2 = ds_trail st ++ r else ds_pre s2 = ds_pre st ++ r).
    { assert (G0 : forall c r, rest = c :: r -> plainc c -> exists r', if ds_trailing st then ds_pre s2 = ds_pre st /\ ds_trail s2 = ds_trail st ++ c :: r' else ds_pre s2 = ds_pre st ++ c :: r').
      { intros c r -> Pc. cbn [foldM] in F'. destruct (d_step p st c) as [s0| | |] eqn:D; cbn [bind] in F'; try discriminate. destruct (d_plain _ _ _ _ D Pc) as (T & Ep & Et).
        destruct (d_grows _ _ _ _ F') as (a & b & -> & -> & K). rewrite Ep, Et. destruct (ds_trailing st).
        - exists b. rewrite <- !app_assoc, (K T). split; [now rewrite app_nil_r|reflexivity].
        - exists a. now rewrite <- app_assoc. }
      assert (G2 : exists r, if ds_trailing st then ds_pre s2 = ds_pre st /\ ds_trail s2 = ds_trail st ++ r else ds_pre s2 = ds_pre st ++ r).
      { destruct (d_grows _ _ _ _ F') as (a & b & -> & -> & K). destruct (ds_trailing st); [exists b|now exists a]. rewrite (K eq_refl). split; [apply app_nil_r|reflexivity]. }
      destruct C as [r|l s u r|l lab args more r|l lab u args r W|l lab u l' env r W E U L|l' l'' w u r W|l lab args l' w u sc more r W].
      1:{ destruct G2 as (r' & G2). exists r'. split; [left; constructor|exact G2]. }
      4:{ destruct G2 as (r' & G2). exists r'. split; [right; now exists l, lab|exact G2]. }
      all: destruct (G0 _ _ eq_refl I) as (r' & G'); eexists; (split; [left|exact G']); now constructor. }
    destruct (maths_from_chunks p (ds_pre s1)) as [a1| | |] eqn:A1; cbn [bind] in H; try discriminate. destruct (paragraph_from_chunks p a1) as [a2| | |] eqn:A2; cbn [bind] in H; try discriminate.
    destruct (maths_from_chunks p (ds_trail s1)) as [a3| | |] eqn:A3; cbn [bind] in H; try discriminate. destruct (paragraph_from_chunks p a3) as [a4| | |] eqn:A4; cbn [bind] in H; try discriminate.
    destruct (maths_from_chunks p (ds_pre s2)) as [b1| | |] eqn:B1'; cbn [bind] in H'; try discriminate. destruct (paragraph_from_chunks p b1) as [b2| | |] eqn:B2'; cbn [bind] in H'; try discriminate.
    destruct (maths_from_chunks p (ds_trail s2)) as [b3| | |] eqn:B3; cbn [bind] in H'; try discriminate. destruct (paragraph_from_chunks p b3) as [b4| | |] eqn:B4; cbn [bind] in H'; try discriminate.
    injection H as <-. injection H' as <-. cbn [d_preamable d_trailing]. destruct P as (P1 & P2). destruct Q as (r & Q & Q').
    assert (Sec : keeps 3 a2 b2 /\ keeps 3 a4 b4 /\ (ds_trailing st = true -> b2 = a2)).
    { destruct (ds_trailing st) eqn:T.
      - destruct Q' as [Q1 Q2]. rewrite app_nil_r in P1. assert (E : b2 = a2) by congruence. rewrite E. split; [exists a2, [], []; rewrite app_nil_r; repeat split; cbn; lia|]. split; [|auto].
        rewrite P2 in A3. rewrite Q2 in B3. exact (section_kept p _ _ _ _ _ _ _ R A3 A4 B3 B4 Q).
      - rewrite P1 in A1. rewrite Q' in B1'. split; [exact (section_kept p _ _ _ _ _ _ _ R A1 A2 B1' B2' Q)|]. split; [|discriminate].
        rewrite (NT eq_refl), app_nil_r in P2. rewrite P2 in A3. cbn in A3. injection A3 as <-. cbn in A4. injection A4 as <-. exact (keeps_all 3 [] b4). }
    destruct Sec as (K1 & K2 & K3). split; [exact K1|]. split; [exact K2|]. split; [exact G|]. split.
    - intros Ex. assert (T : ds_trailing st = true) by (apply TI; now right). split; [exact (K3 T)|]. destruct (S1 T) as [X1 X2]. destruct (S2 T) as [X3 X4]. split; cbn; congruence.
    - intros Fr. destruct (B1 Nd) as (X1 & X2 & X3 & X4). destruct (B2 Fr) as (Y1 & Y2 & Y3 & Y4). repeat split; cbn; congruence.
  Qed.
End Prefix6.
