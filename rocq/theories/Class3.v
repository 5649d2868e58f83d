(** * Class3: the conversion to stage 3 at document level: class, options, sections *)
From Verif Require Import Base Ast1 Parse1 Ast2 Ast3 SpecClass3 Tok Ind Lines Eqb Refine1 Par3 Maths3 MathsRun Mono MathsRec.
From Coq Require Import Lia.

Definition docb (c : chunk2) : bool :=
  match c with mkChunk2 _ (Environment2 e) => str_eqb (env_label2 e) s_document | _ => false end.
Lemma docb_iff c : docb c = true <-> is_document c.
Proof.
  split.
  - destruct c as [l [s|cm|s|[lab args content pb pe]]]; try discriminate. cbn [docb env_label2]. intros H. apply str_eqb_iff in H. subst lab. now exists l, args, content, pb, pe.
  - intros (l & args & content & pb & pe & ->). reflexivity.
Qed.
Lemma docb_not c : ~ is_document c -> docb c = false.
Proof. intros H. destruct (docb c) eqn:E; [|reflexivity]. apply docb_iff in E. contradiction. Qed.
Lemma preamble_exists d : exists pr, preamble_of d pr.
Proof.
  induction d as [|c d (pr & H1 & H2)]; [exists []; split; [constructor|now left]|]. destruct (docb c) eqn:E.
  - exists []. split; [constructor|]. right. exists c, d. split; [now apply docb_iff|reflexivity].
  - exists (c :: pr). split; [constructor; [intros K; apply docb_iff in K; congruence|exact H1]|]. destruct H2 as [->|(x & post & Hx & ->)]; [now left|right; now exists x, post].
Qed.

(** the class commands alone *)
Definition cstep (st : option str * list option_entry) (c : N * list (str * scope2)) : outcome error (option str * list option_entry) :=
  match fst st with
  | Some _ => Err (mkError (fst c) DoubleDocumentClass)
  | None => foldM (class_arg_step (fst c)) st (snd c)
  end.
Definition base (co : option str * list option_entry) : document3 := mkDoc3 (fst co) (snd co) [] [] [] [] [] [].
Lemma fold_pre p pr : Forall (fun c => ~ is_document c) pr -> forall co pre0,
  foldM (d_step p) (mkD (base co) pre0 [] false) pr =
  let* co' := foldM cstep co (class_commands pr) in Ok (mkD (base co') (pre0 ++ pr) [] false).
Proof.
  induction 1 as [|c pr Hc HF IH]; intros co pre0; cbn [foldM class_commands]; [cbn [bind]; now rewrite app_nil_r|].
  assert (O : d_step p (mkD (base co) pre0 [] false) c = Ok (mkD (base co) (pre0 ++ [c]) [] false) ->
    class_commands (c :: pr) = class_commands pr ->
    (let* s' := d_step p (mkD (base co) pre0 [] false) c in foldM (d_step p) s' pr) =
    (let* co' := foldM cstep co (class_commands (c :: pr)) in Ok (mkD (base co') (pre0 ++ c :: pr) [] false))).
  { intros -> ->. cbn [bind]. rewrite IH. now rewrite <- app_assoc. }
  apply docb_not in Hc. destruct c as [l [s|[lab args]|s|e]]; try (apply O; reflexivity).
  - cbn [class_commands] in *. change (S! "documentclass") with s_documentclass in *. destruct (str_eqb lab s_documentclass) eqn:El.
    + clear O. cbn [foldM]. unfold d_step at 1, cstep at 1. cbn [label2 ds_trailing negb andb]. rewrite El. cbn [andb ds_construct base d_class arguments2 fst snd].
      destruct co as [[cl|] os]; cbn [fst snd]; [reflexivity|]. unfold base at 1. cbn [d_options fst snd].
      change (d_options (base (None, os))) with os.
      destruct (foldM (class_arg_step l) (None, os) args) as [co'|e| |]; cbn [bind]; try reflexivity.
      change (foldM (d_step p) (mkD (base co') (pre0 ++ [mkChunk2 l (Command2 (mkCommand2 lab args))]) [] false) pr = let* co'0 := foldM cstep co' (class_commands pr) in Ok (mkD (base co'0) (pre0 ++ mkChunk2 l (Command2 (mkCommand2 lab args)) :: pr) [] false)). rewrite IH. now rewrite <- app_assoc.
    + apply O; [|reflexivity]. unfold d_step. cbn [label2]. now rewrite El.
  - apply O; [|reflexivity]. cbn [docb] in Hc. unfold d_step. now rewrite Hc.
Qed.

(** arguments of one class command *)
Lemma args_none l args : forall cl os,
  match curly_texts args with
  | [] => foldM (class_arg_step l) (cl, os) args = Ok (cl, os ++ flat_map (fun t => map parse_option (split_on c_comma t)) (option_texts args))
  | x :: r => match cl, r with
      | None, [] => foldM (class_arg_step l) (cl, os) args = Ok (Some x, os ++ flat_map (fun t => map parse_option (split_on c_comma t)) (option_texts args))
      | _, _ => foldM (class_arg_step l) (cl, os) args = Err (mkError l TooManyArgsDocumentClass)
      end
  end.
Proof.
  induction args as [|[w [cs v]] args IH]; intros cl os; cbn [curly_texts option_texts foldM flat_map]; [now rewrite app_nil_r|].
  destruct v; cbn [class_arg_step flat_map].
  - destruct cl as [c|]; cbn [bind]; [reflexivity|]. specialize (IH (Some (show2 cs)) os). destruct (curly_texts args); exact IH.
  - cbn [bind]. specialize (IH cl (os ++ map parse_option (split_on c_comma (show2 cs)))).
    destruct (curly_texts args) as [|x [|y r]]; [|destruct cl|destruct cl]; rewrite IH; try reflexivity; now rewrite <- app_assoc.
  - cbn [bind]. specialize (IH cl (os ++ map parse_option (split_on c_comma (show2 cs)))).
    destruct (curly_texts args) as [|x [|y r]]; [|destruct cl|destruct cl]; rewrite IH; try reflexivity; now rewrite <- app_assoc.
Qed.
Lemma cstep_fold cmds : forall os,
  match declared_class cmds with
  | inl e => foldM cstep (None, os) cmds = Err e
  | inr c => foldM cstep (None, os) cmds = Ok (c, os ++ flat_map (fun t => map parse_option (split_on c_comma t)) (all_options cmds))
  end.
Proof.
  induction cmds as [|[l args] cmds IH]; intros os; cbn [declared_class foldM]; [cbn; now rewrite app_nil_r|].
  unfold cstep at 1 3. cbn [fst snd]. pose proof (args_none l args None os) as HA. unfold all_options. cbn [flat_map snd]. fold (all_options cmds). rewrite flat_map_app.
  destruct (curly_texts args) as [|x [|y r]].
  - rewrite HA. cbn [bind]. specialize (IH (os ++ flat_map (fun t => map parse_option (split_on c_comma t)) (option_texts args))).
    destruct (declared_class cmds); rewrite IH; [reflexivity|]. now rewrite <- app_assoc.
  - rewrite HA. cbn [bind]. destruct cmds as [|[l' args'] cmds].
    + cbn [foldM]. change (all_options []) with (@nil str). cbn [flat_map]. now rewrite app_nil_r.
    + reflexivity.
  - rewrite HA. reflexivity.
Qed.

(** after the document environment *)
Lemma fold_post_frame p post : forall st st', ds_trailing st = true -> foldM (d_step p) st post = Ok st' ->
  ds_trailing st' = true /\ ds_pre st' = ds_pre st /\ d_class (ds_construct st') = d_class (ds_construct st) /\ d_options (ds_construct st') = d_options (ds_construct st).
Proof.
  induction post as [|[l v] post IH]; intros st st' Ht E; cbn [foldM] in E; [injection E as <-; auto|].
  destruct (d_step p st (mkChunk2 l v)) as [st1|e| |] eqn:Es; cbn [bind] in E; try discriminate.
  assert (K : ds_trailing st1 = true /\ ds_pre st1 = ds_pre st /\ d_class (ds_construct st1) = d_class (ds_construct st) /\ d_options (ds_construct st1) = d_options (ds_construct st)).
  { unfold d_step, d_push_other in Es. rewrite Ht in Es. cbn [negb] in Es. destruct v as [s|c|s|e].
    - injection Es as <-. cbn. auto.
    - rewrite andb_false_r in Es. injection Es as <-. cbn. auto.
    - injection Es as <-. cbn. auto.
    - destruct (str_eqb _ _); [|injection Es as <-; cbn; auto]. destruct (env3_try_from p _ e) as [[? ? ? ? ?]|x| |]; cbn [bind] in Es; try discriminate. injection Es as <-. cbn. auto. }
  destruct K as (K1 & K2 & K3 & K4). destruct (IH st1 st' K1 E) as (J1 & J2 & J3 & J4). rewrite J2, J3, J4. auto.
Qed.
Lemma fold_post_plain p post : Forall (fun c => ~ is_document c) post -> forall c pre tr,
  foldM (d_step p) (mkD c pre tr true) post = Ok (mkD c pre (tr ++ post) true).
Proof.
  induction 1 as [|x post Hx HF IH]; intros c pre tr; cbn [foldM]; [now rewrite app_nil_r|]. apply docb_not in Hx.
  assert (d_step p (mkD c pre tr true) x = Ok (mkD c pre (tr ++ [x]) true)) as ->.
  { destruct x as [l [s|cm|s|e]]; unfold d_step, d_push_other; cbn [ds_trailing negb andb]; try reflexivity; [now rewrite andb_false_r|]. cbn [docb] in Hx. now rewrite Hx. }
  cbn [bind]. rewrite IH. now rewrite <- app_assoc.
Qed.

(** ** Kinds of errors *)
Definition errs {A} (P : error -> Prop) (x : outcome error A) : Prop := forall e, x = Err e -> P e.
Lemma errs_ok {A} P (a : A) : errs P (Ok a). Proof. intros e H. discriminate. Qed.
Lemma errs_bind {A B} P (x : outcome error A) (f : A -> outcome error B) : errs P x -> (forall a, errs P (f a)) -> errs P (bind x f).
Proof. intros H K e. destruct x; cbn [bind]; [apply K|intros X; injection X as <-; now apply H|discriminate..]. Qed.
Lemma errs_mapM {A B} P (f : A -> outcome error B) l : (forall a, errs P (f a)) -> errs P (mapM f l).
Proof. intros H. induction l; cbn [mapM]; [apply errs_ok|]. apply errs_bind; [apply H|]. intros. apply errs_bind; [assumption|]. intros; apply errs_ok. Qed.
Lemma errs_foldM {A S} P (f : S -> A -> outcome error S) l : (forall s a, errs P (f s a)) -> forall s, errs P (foldM f s l).
Proof. intros H. induction l; intros s; cbn [foldM]; [apply errs_ok|]. apply errs_bind; [apply H|]. intros. apply IHl. Qed.
Lemma errs_add P p a b : errs P (add32 p a b).
Proof. intros e. unfold add32, overflow32. destruct (_ <? _); [discriminate|destruct p; discriminate]. Qed.
Lemma errs_sub P p a b : errs P (sub32 p a b).
Proof. intros e. unfold sub32, overflow32. destruct (_ <=? _); [discriminate|destruct p; discriminate]. Qed.
Lemma errs_inc P p z : errs P (inc_i32 p z).
Proof. intros e. unfold inc_i32. destruct (_ <? _)%Z; [discriminate|destruct p; discriminate]. Qed.
Ltac errs1 :=
  lazymatch goal with
  | |- forall _, _ => intro
  | |- errs _ (Ok _) => apply errs_ok
  | |- errs _ (bind _ _) => apply errs_bind
  | |- errs _ (add32 _ _ _) => apply errs_add
  | |- errs _ (sub32 _ _ _) => apply errs_sub
  | |- errs _ (inc_i32 _ _) => apply errs_inc
  | |- errs _ (mapM _ _) => apply errs_mapM
  | |- errs _ (foldM _ _ _) => apply errs_foldM
  | |- errs _ (if ?c then _ else _) => destruct c
  | |- errs _ (match ?c with _ => _ end) => destruct c
  end.
Definition maths_error (e : error) : Prop := err_type e = UnexpectedMathsEnd \/ err_type e = UnclosedMaths.
Lemma par_errs P p cs : errs P (@paragraph_from_chunks error p cs).
Proof. unfold paragraph_from_chunks, par_chunk. repeat errs1. unfold par_step. repeat (first [progress cbv zeta|errs1]). Qed.
Section ME.
  Context (p : profile) (rec : list chunk2 -> outcome error (list chunk3)) (HR : forall cs, errs maths_error (rec cs)).
  Lemma scope_errs s : errs maths_error (scope3_try_from p rec s).
  Proof. unfold scope3_try_from. repeat (first [apply HR|apply par_errs|errs1]). Qed.
  Lemma args_errs a : errs maths_error (args3_try_from p rec a).
  Proof. unfold args3_try_from. repeat (first [apply scope_errs|errs1]). Qed.
  Lemma env_errs e : errs maths_error (env3_try_from p rec e).
  Proof. unfold env3_try_from. repeat (first [apply HR|apply par_errs|apply args_errs|errs1]). Qed.
  Lemma mt_close_errs m t : errs maths_error (mt_close p rec m t).
  Proof. unfold mt_close. cbv zeta. repeat (first [apply HR|errs1]). Qed.
  Lemma mt_step_errs m c : errs maths_error (mt_step p rec m c).
  Proof. unfold mt_step. repeat (first [progress cbv zeta|apply mt_close_errs|errs1]). Qed.
  Lemma m_step_errs m c : errs maths_error (m_step p rec m c).
  Proof.
    unfold m_step, m_text, m_close_brackets, command3_try_from.
    repeat (first [progress cbv zeta|apply mt_step_errs|apply HR|apply scope_errs|apply env_errs|apply args_errs|errs1]).
    intros e H. injection H as <-. now left.
  Qed.
End ME.
Lemma maths_fuel_errs p n : forall cs, errs maths_error (maths_fuel n p cs).
Proof.
  induction n as [|n IH]; intros cs; cbn [maths_fuel]; [intros e; discriminate|]. cbv zeta. apply errs_bind; [apply errs_foldM; intros; now apply m_step_errs|].
  intros st. unfold m_finish. destruct (negb _); [intros e H; injection H as <-; now right|apply par_errs].
Qed.
Lemma maths_errs p cs : errs maths_error (maths_from_chunks p cs). Proof. apply maths_fuel_errs. Qed.

(** ** try_from3, decomposed *)
Definition sections (p : profile) (st : dstate) : outcome error document3 :=
  let c := ds_construct st in
  let* pre := maths_from_chunks p (ds_pre st) in
  let* pre := paragraph_from_chunks p pre in
  let* trail := maths_from_chunks p (ds_trail st) in
  let* trail := paragraph_from_chunks p trail in
  Ok (mkDoc3 (d_class c) (d_options c) pre (d_body c) (d_body_args c) (d_begin_prec c) (d_end_prec c) trail).
Lemma dinit_base : dinit = mkD (base (None, [])) [] [] false. Proof. reflexivity. Qed.
Lemma sections_errs p st : errs maths_error (sections p st).
Proof. unfold sections. cbv zeta. repeat (first [apply maths_errs|apply par_errs|errs1]). Qed.
Lemma post_errs p post st : ds_trailing st = true -> errs maths_error (foldM (d_step p) st post).
Proof.
  intros Ht e. revert st Ht. induction post as [|[l v] post IH]; intros st Ht; cbn [foldM]; [discriminate|].
  destruct (d_step p st (mkChunk2 l v)) as [st1|e1| |] eqn:Es; cbn [bind]; try discriminate.
  - apply IH. apply (fold_post_frame p [mkChunk2 l v] st st1 Ht). cbn [foldM]. rewrite Es. reflexivity.
  - intros E. injection E as <-. unfold d_step in Es. destruct v as [s|c|s|en]; try discriminate.
    + rewrite Ht, andb_false_r in Es. discriminate.
    + destruct (str_eqb _ _); [|discriminate]. apply (env_errs p (maths_from_chunks p) (maths_errs p) en e1). destruct (env3_try_from p (maths_from_chunks p) en) as [[? ? ? ? ?]|x| |]; cbn [bind] in Es; congruence.
Qed.
Theorem class_exact p d pr : preamble_of d pr ->
  match declared_class (class_commands pr) with
  | inl e => try_from3 p d = Err e
  | inr c =>
      (forall d3, try_from3 p d = Ok d3 ->
        d_class d3 = c /\ d_options d3 = flat_map (fun t => map parse_option (split_on c_comma t)) (all_options (class_commands pr))) /\
      (forall e, try_from3 p d = Err e -> maths_error e)
  end.
Proof.
  intros [HF Hd]. unfold try_from3. rewrite dinit_base.
  assert (E : foldM (d_step p) (mkD (base (None, [])) [] [] false) d =
    let* co := foldM cstep (None, []) (class_commands pr) in
    foldM (d_step p) (mkD (base co) pr [] false) (skipn (length pr) d)).
  { destruct Hd as [->|(c & post & Hc & ->)].
    - rewrite (fold_pre p pr HF), skipn_all. reflexivity.
    - rewrite foldM_app', (fold_pre p pr HF). cbn [app]. destruct (foldM cstep _ _); cbn [bind]; try reflexivity.
      now rewrite skipn_app, skipn_all, Nat.sub_diag. }
  rewrite E. clear E. pose proof (cstep_fold (class_commands pr) []) as HC. destruct (declared_class (class_commands pr)) as [e|c].
  - rewrite HC. reflexivity.
  - rewrite HC. cbn [bind app]. set (os := flat_map _ _) in *.
    assert (S : forall x, x = Ok (mkD (base (c, os)) pr [] false) \/ (exists cd post, is_document cd /\ x = foldM (d_step p) (mkD (base (c, os)) pr [] false) (cd :: post)) ->
      (forall d3, (let* st := x in sections p st) = Ok d3 -> d_class d3 = c /\ d_options d3 = os) /\ (forall e, (let* st := x in sections p st) = Err e -> maths_error e)).
    { intros x Hx. assert (X1 : forall st, x = Ok st -> d_class (ds_construct st) = c /\ d_options (ds_construct st) = os).
      { intros st Es. destruct Hx as [->|(cd & post & Hcd & ->)]; [injection Es as <-; auto|]. destruct Hcd as (l & args & content & pb & pe & ->).
        cbn [foldM] in Es. unfold d_step at 1 in Es. cbn [env_label2] in Es. change (str_eqb (S! "document") s_document) with true in Es. cbn iota in Es.
        destruct (env3_try_from p _ _) as [[? ? ? ? ?]|e| |]; cbn [bind] in Es; try discriminate. apply fold_post_frame in Es as (_ & _ & E1 & E2); [|reflexivity]. rewrite E1, E2. auto. }
      assert (X2 : errs maths_error x).
      { destruct Hx as [->|(cd & post & Hcd & ->)]; [apply errs_ok|]. destruct Hcd as (l & args & content & pb & pe & ->).
        cbn [foldM]. unfold d_step at 1. cbn [env_label2]. change (str_eqb (S! "document") s_document) with true. cbn iota.
        pose proof (env_errs p (maths_from_chunks p) (maths_errs p) (mkEnv2 (S! "document") args content pb pe)) as HE.
        destruct (env3_try_from p _ _) as [[? ? ? ? ?]|e| |]; cbn [bind]; [now apply post_errs|intros e' H; injection H as <-; now apply HE|intros e' H; discriminate H|intros e' H; discriminate H]. }
      split.
      - intros d3. destruct x as [st|e| |]; cbn [bind]; try discriminate. destruct (X1 st eq_refl) as [K1 K2]. unfold sections. cbv zeta.
        destruct (maths_from_chunks p (ds_pre st)); cbn [bind]; try discriminate. destruct (paragraph_from_chunks p _); cbn [bind]; try discriminate.
        destruct (maths_from_chunks p (ds_trail st)); cbn [bind]; try discriminate. destruct (paragraph_from_chunks p _); cbn [bind]; try discriminate.
        intros H. injection H as <-. cbn [d_class d_options]. auto.
      - intros e. destruct x as [st|e1| |]; cbn [bind]; try discriminate; [apply sections_errs|]. intros H. injection H as <-. now apply X2. }
    apply S. destruct Hd as [->|(cd & post & Hcd & ->)]; [left; now rewrite skipn_all|]. right. exists cd, post. split; [exact Hcd|]. rewrite skipn_app, skipn_all, Nat.sub_diag. reflexivity.
Qed.
(** what follows the preamble has no influence on class, options and preamble *)
Theorem preamble_only p pr c post d3 : Forall (fun c => ~ is_document c) pr -> is_document c ->
  try_from3 p (pr ++ c :: post) = Ok d3 ->
  exists d3', try_from3 p pr = Ok d3' /\ d_class d3 = d_class d3' /\ d_options d3 = d_options d3' /\ d_preamable d3 = d_preamable d3'.
Proof.
  intros HF Hc H. unfold try_from3 in *. rewrite dinit_base in *. rewrite foldM_app', (fold_pre p pr HF) in H. rewrite (fold_pre p pr HF). cbn [app] in *.
  destruct (foldM cstep _ _) as [co|e| |]; cbn [bind] in *; try discriminate.
  destruct (foldM (d_step p) (mkD (base co) pr [] false) (c :: post)) as [st|e| |] eqn:Es; cbn [bind] in H; try discriminate.
  assert (K : ds_pre st = pr /\ d_class (ds_construct st) = fst co /\ d_options (ds_construct st) = snd co).
  { destruct Hc as (l & args & content & pb & pe & ->). cbn [foldM] in Es. unfold d_step at 1 in Es. cbn [env_label2] in Es. change (str_eqb (S! "document") s_document) with true in Es. cbn iota in Es.
    destruct (env3_try_from p _ _) as [[? ? ? ? ?]|e| |]; cbn [bind] in Es; try discriminate. apply fold_post_frame in Es as (_ & E0 & E1 & E2); [|reflexivity]. rewrite E0, E1, E2. auto. }
  destruct K as (K0 & K1 & K2). rewrite K0 in H. cbn [ds_pre ds_trail]. destruct (maths_from_chunks p pr) as [o|e| |]; cbn [bind] in *; try discriminate.
  destruct (paragraph_from_chunks p o) as [o'|e| |]; cbn [bind] in *; try discriminate.
  change (maths_from_chunks p []) with (@Ok error (list chunk3) []). cbn [bind]. change (@paragraph_from_chunks error p []) with (@Ok error (list chunk3) []). cbn [bind].
  eexists. split; [reflexivity|]. destruct (maths_from_chunks p (ds_trail st)); cbn [bind] in *; try discriminate. destruct (paragraph_from_chunks p _); cbn [bind] in *; try discriminate.
  injection H as <-. cbn. auto.
Qed.
