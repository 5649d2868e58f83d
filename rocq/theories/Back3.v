(** * Back3: [From<ast3::Document> for ast2::Document] *)
From Verif Require Import Base Ast1 Parse1 Ast2 Ast3 SpecDoc1 SpecDoc2 SpecDoc3 SpecBack3 Tok Ind Lines Eqb Refine1 Valid2 Valid3 MathsRun Mono Doc3.
From Coq Require Import Lia.

Lemma open23 v : open2 (sv2_of_sv3 v) = open3 v. Proof. now destruct v. Qed.
Lemma close23 v : close2 (sv2_of_sv3 v) = close3 v. Proof. now destruct v. Qed.
Lemma show2_concat css : show2 (concat css) = concat (map show2 css).
Proof. induction css as [|c css IH]; [reflexivity|]. cbn [concat map]. now rewrite show2_app, IH. Qed.

(** ** Display *)
Lemma shift_show {E} p off c c' : @shift_chunk2 E p off c = Ok c' -> show_chunk2 c' = show_chunk2 c.
Proof. destruct c as [l v]. unfold shift_chunk2. destruct (add32 p l off); cbn [bind]; try discriminate. intros H. now injection H as <-. Qed.
Lemma mapM_show {E} (f : chunk2 -> outcome E chunk2) cs : (forall c c', f c = Ok c' -> show_chunk2 c' = show_chunk2 c) -> forall cs', mapM f cs = Ok cs' -> show2 cs' = show2 cs.
Proof.
  intros H. induction cs as [|c cs IH]; intros cs'; cbn [mapM]; [intros E0; now injection E0 as <-|].
  destruct (f c) as [x|e| |] eqn:Ef; cbn [bind]; try discriminate. destruct (mapM f cs) as [xs|e| |]; cbn [bind]; try discriminate. intros E0. injection E0 as <-.
  rewrite !show2_cons. now rewrite (H _ _ Ef), (IH xs eq_refl).
Qed.
Lemma prepend_show d out : show2 (prepend_dollars d out) = d ++ show2 out.
Proof. destruct out as [|[l [s|c|s|e]] out]; cbn [prepend_dollars]; rewrite ?show2_cons; cbn [show_chunk2 show_variant2]; rewrite ?app_assoc; reflexivity. Qed.
Lemma append_show d l out : show2 (append_dollars d l out) = show2 out ++ d.
Proof.
  induction out as [|x out IH]; [cbn; now rewrite app_nil_r|]. destruct out as [|y out].
  - destruct x as [lx [s|c|s|e]]; cbn [append_dollars]; rewrite !show2_cons; cbn [show_chunk2 show_variant2]; change (show2 []) with (@nil N); rewrite ?app_nil_r, ?app_assoc; reflexivity.
  - replace (append_dollars d l (x :: y :: out)) with (x :: append_dollars d l (y :: out)) by (destruct x as [? [?|?|?|?]]; reflexivity).
    rewrite show2_cons, IH, (show2_cons x). now rewrite app_assoc.
Qed.
Section Show.
  Context {E : Type} (p : profile).
  Definition Sh (c : chunk3) : Prop := forall cs, @into2_chunk E p c = Ok cs -> show2 cs = show_chunk3 c.
  Lemma chunks_show cs : Forall Sh cs -> forall css, mapM (@into2_chunk E p) cs = Ok css -> show2 (concat css) = show_chunks3 cs.
  Proof.
    induction 1 as [|c cs Hc HF IH]; intros css; cbn [mapM]; [intros H; now injection H as <-|].
    destruct (into2_chunk p c) as [x|e| |] eqn:Ex; cbn [bind]; try discriminate. destruct (mapM (into2_chunk p) cs) as [xs|e| |]; cbn [bind]; try discriminate. intros H. injection H as <-.
    cbn [concat]. rewrite show2_app, show_chunks3_cons, (Hc _ Ex), (IH xs eq_refl). reflexivity.
  Qed.
  Lemma scope_show cs v sc : Forall Sh cs -> @into2_scope E p (mkScope3 cs v) = Ok sc -> show_scope2 sc = show_scope3 (mkScope3 cs v).
  Proof.
    intros H. rewrite i2scope. destruct (mapM _ cs) as [css|e| |] eqn:Em; cbn [bind]; try discriminate. intros K. injection K as <-.
    cbn [show_scope2 show_scope3]. rewrite open23, close23. change (concat (map show_chunk2 (concat css))) with (show2 (concat css)). now rewrite (chunks_show cs H _ Em).
  Qed.
  Lemma args_show args : Forall (fun a => Forall Sh (chunks3 (snd a))) args -> forall args2,
    mapM (fun a : str * scope3 => match a with (s, sc) => let* sc := @into2_scope E p sc in Ok (s, sc) end) args = Ok args2 -> show_args2 args2 = show_args3 args.
  Proof.
    induction 1 as [|[pre [cs v]] args Ha HF IH]; intros args2; cbn [mapM]; [intros H; now injection H as <-|]. cbn [snd chunks3] in Ha.
    destruct (into2_scope p (mkScope3 cs v)) as [sc|e| |] eqn:Es; cbn [bind]; try discriminate. destruct (mapM _ args) as [xs|e| |]; cbn [bind]; try discriminate. intros H. injection H as <-.
    unfold show_args2, show_args3 in *. cbn [map concat]. rewrite (IH xs eq_refl). now rewrite (scope_show _ _ _ Ha Es).
  Qed.
  Lemma into2_show c : Sh c.
  Proof.
    induction c as [l s|l s|l lab args IH|l cs v IH|l lab args cs pb pe IHa IHc|l v t cs IH] using chunk3_ind'; intros out.
    - intros H. injection H as <-. unfold show2. cbn. now rewrite app_nil_r.
    - intros H. injection H as <-. unfold show2. cbn. now rewrite app_nil_r.
    - change (@into2_chunk E p (mkChunk3 l (Command3 (mkCommand3 lab args)))) with (let* c := @into2_command E p (mkCommand3 lab args) in Ok [mkChunk2 l (Command2 c)]). rewrite i2command.
      destruct (mapM _ args) as [a|e| |] eqn:Em; cbn [bind]; try discriminate. intros H. injection H as <-. apply args_show in Em; [|exact IH]. unfold show2. cbn [map concat show_chunk2 show_variant2 show_command2 show_chunk3 show_variant3 show_command3].
      fold (show_args2 a). fold (show_args3 args). now rewrite Em, app_nil_r.
    - change (@into2_chunk E p (mkChunk3 l (Scope3 (mkScope3 cs v)))) with (let* c := @into2_scope E p (mkScope3 cs v) in Ok [mkChunk2 l (Scope2 c)]).
      destruct (into2_scope p (mkScope3 cs v)) as [sc|e| |] eqn:Em; cbn [bind]; try discriminate. intros H. injection H as <-. apply scope_show in Em; [|exact IH].
      unfold show2. cbn [map concat show_chunk2 show_variant2 show_chunk3 show_variant3]. now rewrite Em, app_nil_r.
    - change (@into2_chunk E p (mkChunk3 l (Environment3 (mkEnv3 lab args cs pb pe)))) with (let* c := @into2_env E p (mkEnv3 lab args cs pb pe) in Ok [mkChunk2 l (Environment2 c)]). rewrite i2env.
      destruct (mapM _ args) as [a|e| |] eqn:Em; cbn [bind]; try discriminate. destruct (mapM (into2_chunk p) cs) as [css|e| |] eqn:Ec; cbn [bind]; try discriminate. intros H. injection H as <-.
      apply args_show in Em; [|exact IHa]. apply chunks_show in Ec; [|exact IHc]. unfold show2 in *. cbn [map concat show_chunk2 show_variant2 show_env2 show_chunk3 show_variant3 show_env3].
      fold (show_args2 a). fold (show_args3 args). fold (show_chunks3 cs). now rewrite Em, Ec, app_nil_r.
    - change (@into2_chunk E p (mkChunk3 l (Maths3 (mkMaths3 v t cs)))) with (let* cs := @into2_maths E p (mkMaths3 v t cs) in mapM (fun c => let* off := sub32 p l 1 in shift_chunk2 p off c) cs).
      rewrite i2maths. destruct (mapM _ cs) as [ls|e| |]; cbn [bind]; try discriminate. destruct (sum32 p ls) as [su|e| |]; cbn [bind]; try discriminate.
      destruct (add32 p su 1) as [li|e| |]; cbn [bind]; try discriminate. destruct (mapM (into2_chunk p) cs) as [css|e| |] eqn:Ec; cbn [bind]; try discriminate.
      apply chunks_show in Ec; [|exact IH]. intros H.
      assert (K : forall x, (let* cs := Ok x in mapM (fun c => let* off := sub32 p l 1 in @shift_chunk2 E p off c) cs) = Ok out -> show2 out = show2 x).
      { intros x. cbn [bind]. apply mapM_show. intros c c'. destruct (sub32 p l 1); cbn [bind]; try discriminate. apply shift_show. }
      cbn [show_chunk3 show_variant3 show_maths3]. fold (show_chunks3 cs). rewrite <- Ec. clear Ec.
      destruct v, t; cbn [maths_delims fst snd] in *.
      + apply K in H. rewrite H, !show2_app. reflexivity.
      + apply K in H. rewrite H, !show2_app. reflexivity.
      + destruct (concat css) eqn:Ec; apply K in H; rewrite H; [reflexivity|]. rewrite append_show, prepend_show. now rewrite <- app_assoc.
      + destruct (concat css) eqn:Ec; apply K in H; rewrite H; [reflexivity|]. rewrite append_show, prepend_show. now rewrite <- app_assoc.
  Qed.
  Lemma all_Sh cs : Forall Sh cs. Proof. apply Forall_forall. intros c _. apply into2_show. Qed.
  Lemma all_Sh_args (args : list (str * scope3)) : Forall (fun a => Forall Sh (chunks3 (snd a))) args.
  Proof. apply Forall_forall. intros c _. apply all_Sh. Qed.
End Show.
Lemma fold_push_show cs : forall d, show2 (fold_left push_chunk_unchecked2 cs d) = show2 d ++ show2 cs.
Proof. induction cs as [|c cs IH]; intros d; cbn [fold_left]; [change (show2 []) with (@nil N); now rewrite app_nil_r|]. now rewrite IH, push_chunk_unchecked2_show, show2_cons, app_assoc. Qed.
Theorem back3_show {E} p d d2 : @from3_to2 E p d = Ok d2 -> show2 d2 = full_text d.
Proof.
  unfold from3_to2. cbv zeta. destruct (mapM (into2_chunk p) (d_preamable d)) as [pre|e| |] eqn:E1; cbn [bind]; try discriminate.
  destruct (mapM _ (concat pre)); cbn [bind]; try discriminate. destruct (sum32 p _) as [pl|e| |]; cbn [bind]; try discriminate. destruct (mapM _ (d_body_args d)); cbn [bind]; try discriminate.
  destruct (sum32 p _) as [of|e| |]; cbn [bind]; try discriminate. destruct (add32 p _ _) as [bo|e| |]; cbn [bind]; try discriminate. destruct (mapM (into2_chunk p) (d_body d)) as [bd|e| |] eqn:E2; cbn [bind]; try discriminate.
  destruct (mapM (shift_chunk2 p bo) _) as [bd'|e| |] eqn:E3; cbn [bind]; try discriminate. destruct (mapM _ (d_body_args d)) as [ar|e| |] eqn:E4; cbn [bind]; try discriminate.
  destruct (lines_chunk2 p _) as [li|e| |]; cbn [bind]; try discriminate. destruct (add32 p _ _) as [x|e| |]; cbn [bind]; try discriminate. destruct (sub32 p _ _) as [tr|e| |]; cbn [bind]; try discriminate.
  destruct (mapM (into2_chunk p) (d_trailing d)) as [tl|e| |] eqn:E5; cbn [bind]; try discriminate. destruct (mapM (shift_chunk2 p tr) _) as [tl'|e| |] eqn:E6; cbn [bind]; try discriminate.
  intros H. injection H as <-. rewrite fold_push_show, push_chunk_unchecked2_show.
  apply chunks_show in E1; [|apply all_Sh]. apply chunks_show in E2; [|apply all_Sh]. apply chunks_show in E5; [|apply all_Sh]. apply args_show in E4; [|apply all_Sh_args].
  apply mapM_show in E3; [|intros; eapply shift_show; eassumption]. apply mapM_show in E6; [|intros; eapply shift_show; eassumption].
  unfold full_text, upto_end. rewrite E1, E6, E5. f_equal. f_equal. cbn [show_chunk2 show_variant2 show_env2 show_env3].
  fold (show_args2 ar). fold (show_args3 (d_body_args d)). fold (show_chunks3 (d_body d)). fold (show2 bd'). now rewrite E3, E2, E4.
Qed.
Theorem back3_same {E} p d d2 : @from3_to2 E p d = Ok d2 -> (show2 d2 = show3 d <-> d_begin_prec d = d_end_prec d).
Proof.
  intros H. rewrite (back3_show p d d2 H), show3_env. unfold full_text, upto_end, doc_env. cbn [show_chunk3 show_variant3 show_env3]. rewrite <- !app_assoc. split.
  - intros K. apply app_inv_head in K. repeat (apply app_inv_head in K || (cbn [app] in K; injection K as K)). rewrite !app_assoc in K. do 4 apply app_inv_tail in K. now symmetry.
  - intros ->. reflexivity.
Qed.
(** ** The only failure is a panic, and only with overflow checks *)
Section Fine.
  Context {E : Type} (p : profile).
  Definition fine {A} (x : outcome E A) : Prop := (exists a, x = Ok a) \/ (p = Debug /\ x = Panic).
  Lemma fine_ok {A} (a : A) : fine (Ok a). Proof. left. now exists a. Qed.
  Lemma fine_bind {A B} (x : outcome E A) (f : A -> outcome E B) : fine x -> (forall a, fine (f a)) -> fine (bind x f).
  Proof. intros [(a & ->)|[Hp ->]] H; cbn [bind]; [apply H|now right]. Qed.
  Lemma fine_add a b : fine (add32 p a b).
  Proof. unfold add32, fine. destruct (_ <? _); [left; eexists; reflexivity|]. destruct p; [right; split; reflexivity|left; eexists; reflexivity]. Qed.
  Lemma fine_sub a b : fine (sub32 p a b).
  Proof. unfold sub32, fine. destruct (_ <=? _); [left; eexists; reflexivity|]. destruct p; [right; split; reflexivity|left; eexists; reflexivity]. Qed.
  Lemma fine_mul a b : fine (mul32 p a b).
  Proof. unfold mul32, fine. destruct (_ <? _); [left; eexists; reflexivity|]. destruct p; [right; split; reflexivity|left; eexists; reflexivity]. Qed.
  Lemma fine_mapM {A B} (f : A -> outcome E B) l : Forall (fun a => fine (f a)) l -> fine (mapM f l).
  Proof. induction 1; cbn [mapM]; [apply fine_ok|]. apply fine_bind; [assumption|]. intros. apply fine_bind; [assumption|]. intros. apply fine_ok. Qed.
  Lemma fine_foldM {A S} (f : S -> A -> outcome E S) l : Forall (fun a => forall s, fine (f s a)) l -> forall s, fine (foldM f s l).
  Proof. induction 1; intros s; cbn [foldM]; [apply fine_ok|]. apply fine_bind; [auto|]. assumption. Qed.
  Lemma fine_sum l : fine (sum32 p l).
  Proof. unfold sum32. apply fine_foldM. apply Forall_forall. intros. apply fine_add. Qed.
  Lemma fine_all {A B} (f : A -> outcome E B) l : (forall a, fine (f a)) -> fine (mapM f l).
  Proof. intros H. apply fine_mapM. apply Forall_forall. auto. Qed.
  Ltac fin1 :=
    lazymatch goal with
    | |- forall _, _ => intro
    | |- fine (Ok _) => apply fine_ok
    | |- fine (bind _ _) => apply fine_bind
    | |- fine (add32 _ _ _) => apply fine_add
    | |- fine (sub32 _ _ _) => apply fine_sub
    | |- fine (mul32 _ _ _) => apply fine_mul
    | |- fine (sum32 _ _) => apply fine_sum
    | |- fine (match ?c with _ => _ end) => destruct c
    end.
  Ltac fin := repeat (first [eassumption|fin1]).
  Lemma fine_lines2 c : fine (lines_chunk2 p c).
  Proof.
    assert (SC : forall cs v, Forall (fun c => fine (lines_chunk2 p c)) cs -> fine (lines_scope2 p (mkScope2 cs v))).
    { intros cs v H. rewrite lscope2. fin. apply fine_mapM. eapply Forall_impl; [|exact H]. fin. }
    induction c as [l s|l lab args IH|l cs v IH|l lab args cs pb pe IHa IHc] using chunk2_ind'.
    - apply fine_add.
    - change (fine (lines_command2 p (mkCommand2 lab args))). rewrite lcommand2. fin. apply fine_foldM. eapply Forall_impl; [|exact IH]. intros [pre [cs v]] K s. cbn [snd chunks2] in K. fin. now apply SC.
    - now apply (SC cs v).
    - change (fine (lines_env2 p (mkEnv2 lab args cs pb pe))). rewrite lenv2. fin.
      + apply fine_foldM. eapply Forall_impl; [|exact IHa]. intros [pre [cs' v]] K s. cbn [snd chunks2] in K. fin. now apply SC.
      + apply fine_foldM. eapply Forall_impl; [|exact IHc]. fin.
  Qed.
  Lemma fine_lines3 c : fine (lines_chunk3 p c).
  Proof.
    assert (SC : forall cs v, Forall (fun c => fine (lines_chunk3 p c)) cs -> fine (lines_scope3 p (mkScope3 cs v))).
    { intros cs v H. rewrite lscope3. fin. apply fine_mapM. eapply Forall_impl; [|exact H]. fin. }
    induction c as [l s|l s|l lab args IH|l cs v IH|l lab args cs pb pe IHa IHc|l v t cs IH] using chunk3_ind'.
    - apply fine_add.
    - apply fine_add.
    - change (fine (lines_command3 p (mkCommand3 lab args))). rewrite lcommand3. fin. apply fine_foldM. eapply Forall_impl; [|exact IH]. intros [pre [cs v]] K s. cbn [snd chunks3] in K. fin. now apply SC.
    - now apply (SC cs v).
    - change (fine (lines_env3 p (mkEnv3 lab args cs pb pe))). rewrite lenv3. fin.
      + apply fine_foldM. eapply Forall_impl; [|exact IHa]. intros [pre [cs' v]] K s. cbn [snd chunks3] in K. fin. now apply SC.
      + apply fine_foldM. eapply Forall_impl; [|exact IHc]. fin.
    - change (fine (lines_maths3 p (mkMaths3 v t cs))). rewrite lmaths3. fin. apply fine_mapM. eapply Forall_impl; [|exact IH]. fin.
  Qed.
  Lemma fine_lines_scope3 sc : fine (lines_scope3 p sc).
  Proof. destruct sc as [cs v]. rewrite lscope3. fin. apply fine_all. intros. fin. apply fine_lines3. Qed.
  Lemma fine_into2 c : fine (into2_chunk p c).
  Proof.
    assert (SC : forall cs v, Forall (fun c => fine (into2_chunk p c)) cs -> fine (into2_scope p (mkScope3 cs v))).
    { intros cs v H. rewrite i2scope. fin. now apply fine_mapM. }
    assert (AR : forall args, Forall (fun a => Forall (fun c => fine (into2_chunk p c)) (chunks3 (snd a))) args ->
      fine (mapM (fun a : str * scope3 => match a with (s, sc) => let* sc := into2_scope p sc in Ok (s, sc) end) args)).
    { intros args H. apply fine_mapM. eapply Forall_impl; [|exact H]. intros [pre [cs v]] K. cbn [snd chunks3] in K. fin. now apply SC. }
    induction c as [l s|l s|l lab args IH|l cs v IH|l lab args cs pb pe IHa IHc|l v t cs IH] using chunk3_ind'.
    - apply fine_ok.
    - apply fine_ok.
    - change (fine (let* c := @into2_command E p (mkCommand3 lab args) in Ok [mkChunk2 l (Command2 c)])). rewrite i2command. fin. now apply AR.
    - change (fine (let* c := @into2_scope E p (mkScope3 cs v) in Ok [mkChunk2 l (Scope2 c)])). fin. now apply SC.
    - change (fine (let* c := @into2_env E p (mkEnv3 lab args cs pb pe) in Ok [mkChunk2 l (Environment2 c)])). rewrite i2env. fin; [now apply AR|now apply fine_mapM].
    - change (fine (let* cs := @into2_maths E p (mkMaths3 v t cs) in mapM (fun c => let* off := sub32 p l 1 in shift_chunk2 p off c) cs)). rewrite i2maths. apply fine_bind.
      + apply fine_bind; [apply fine_all; intros; fin; apply fine_lines3|]. intros. apply fine_bind; [fin|]. intros. apply fine_bind; [fin|]. intros. apply fine_bind; [now apply fine_mapM|]. intros css.
        destruct v, t; try apply fine_ok; destruct (concat css); apply fine_ok.
      + intros cs'. apply fine_all. intros [? ?]. unfold shift_chunk2. fin.
  Qed.
  Theorem fine_back d : fine (from3_to2 p d).
  Proof.
    unfold from3_to2. cbv zeta. apply fine_bind; [apply fine_all; apply fine_into2|]. intros pre. apply fine_bind; [apply fine_all; intros; fin; apply fine_lines2|]. intros ls.
    apply fine_bind; [fin|]. intros pl. apply fine_bind; [apply fine_all; intros [? ?]; fin; apply fine_lines_scope3|]. intros offs. apply fine_bind; [fin|]. intros off. apply fine_bind; [fin|]. intros bo.
    apply fine_bind; [apply fine_all; apply fine_into2|]. intros bd. apply fine_bind; [apply fine_all; intros [? ?]; unfold shift_chunk2; fin|]. intros bd'.
    apply fine_bind; [apply fine_all; intros [? [? ?]]; rewrite i2scope; fin; apply fine_all; apply fine_into2|]. intros ar. apply fine_bind; [apply fine_lines2|]. intros li. apply fine_bind; [fin|]. intros x.
    apply fine_bind; [fin|]. intros tr. apply fine_bind; [apply fine_all; apply fine_into2|]. intros tl. apply fine_bind; [apply fine_all; intros [? ?]; unfold shift_chunk2; fin|]. intros. apply fine_ok.
  Qed.
End Fine.
Theorem back3_release {E} d : exists d2, @from3_to2 E Release d = Ok d2.
Proof. destruct (@fine_back E Release d) as [H|[H _]]; [exact H|discriminate]. Qed.

(** ** With overflow checks *)
Lemma within3_trans d cs : within3 d cs -> forall es, within3 cs es -> within3 d es.
Proof.
  intros H es K. induction K; [exact H|eapply w3_scope; eassumption|eapply w3_arg; eassumption|eapply w3_env_arg; eassumption|eapply w3_env; eassumption|eapply w3_maths; eassumption].
Qed.
Definition numbered (cs : list chunk3) : Prop := forall es l m, within3 cs es -> In (mkChunk3 l (Maths3 m)) es -> 1 <= l.
Lemma numbered_within cs es : numbered cs -> within3 cs es -> numbered es.
Proof. intros H K fs l m W. apply H. eapply within3_trans; eassumption. Qed.
Lemma within_incl ds cs es : incl cs ds -> within3 cs es -> es = cs \/ within3 ds es.
Proof.
  intros H K. induction K as [|? ? ? ? K IH Hi|? ? ? ? ? ? ? K IH Hi Ha|? ? ? ? ? ? ? ? ? ? K IH Hi Ha|? ? ? ? ? ? ? K IH Hi|? ? ? ? ? K IH Hi]; [now left|right..].
  - destruct IH as [->|IH]; [eapply w3_scope; [apply w3_self|apply H; eassumption]|eapply w3_scope; eassumption].
  - destruct IH as [->|IH]; [eapply w3_arg; [apply w3_self|apply H; eassumption|eassumption]|eapply w3_arg; eassumption].
  - destruct IH as [->|IH]; [eapply w3_env_arg; [apply w3_self|apply H; eassumption|eassumption]|eapply w3_env_arg; eassumption].
  - destruct IH as [->|IH]; [eapply w3_env; [apply w3_self|apply H; eassumption]|eapply w3_env; eassumption].
  - destruct IH as [->|IH]; [eapply w3_maths; [apply w3_self|apply H; eassumption]|eapply w3_maths; eassumption].
Qed.
Lemma numbered_incl ds cs : incl cs ds -> numbered ds -> numbered cs.
Proof. intros H N es l m W Hm. destruct (within_incl ds cs es H W) as [->|W']; [eapply N; [apply w3_self|apply H; exact Hm]|eapply N; eassumption]. Qed.

Definition lsum (cs : list chunk3) : N := fold_right N.add 0 (map line_sum cs).
Definition asum (args : list (str * scope3)) : N := fold_right N.add 0 (map (fun a => match a with (_, sc) => line_sum_scope sc end) args).
Lemma lsum_cons c cs : lsum (c :: cs) = line_sum c + lsum cs. Proof. reflexivity. Qed.
Lemma lsum_app a b : lsum (a ++ b) = lsum a + lsum b.
Proof. induction a as [|c a IH]; cbn [app]; [reflexivity|]. rewrite !lsum_cons, IH. lia. Qed.
Section Ok.
  Context {E : Type} (p : profile).
  Definition upto (n : N) (c : chunk2) : Prop := line_no2 c <= n.
  Definition G (c : chunk3) : Prop := numbered [c] -> 1 + line_sum c + count_newlines (show_chunk3 c) < two32 ->
    exists cs, @into2_chunk E p c = Ok cs /\ Forall (upto (line_sum c + count_newlines (show_chunk3 c))) cs.
  Lemma upto_mono n m cs : n <= m -> Forall (upto n) cs -> Forall (upto m) cs.
  Proof. intros H. apply Forall_impl. unfold upto. intros. lia. Qed.
  Lemma G_list cs : Forall G cs -> numbered cs -> 1 + lsum cs + count_newlines (show_chunks3 cs) < two32 ->
    exists css, mapM (@into2_chunk E p) cs = Ok css /\ Forall (upto (lsum cs + count_newlines (show_chunks3 cs))) (concat css).
  Proof.
    induction 1 as [|c cs Hc HF IH]; intros HN HB; cbn [mapM]; [exists []; split; [reflexivity|constructor]|]. rewrite show_chunks3_cons, count_newlines_app, lsum_cons in *.
    destruct Hc as (x & -> & Hx); [apply (numbered_incl (c :: cs)); [intros y [<-|[]]; now left|exact HN]|lia|]. cbn [bind].
    destruct IH as (xs & -> & Hxs); [apply (numbered_incl (c :: cs)); [intros y Hy; now right|exact HN]|lia|]. cbn [bind].
    exists (x :: xs). split; [reflexivity|]. cbn [concat]. apply Forall_app. split; [eapply upto_mono; [|exact Hx]; lia|eapply upto_mono; [|exact Hxs]; lia].
  Qed.
  Lemma G_args args : Forall (fun a => Forall G (chunks3 (snd a))) args -> (forall pre inner v, In (pre, mkScope3 inner v) args -> numbered inner) ->
    1 + asum args + count_newlines (show_args3 args) < two32 ->
    exists a2, mapM (fun a : str * scope3 => match a with (s, sc) => let* sc := @into2_scope E p sc in Ok (s, sc) end) args = Ok a2.
  Proof.
    induction 1 as [|[pre [cs v]] args Hc HF IH]; intros HN HB; cbn [mapM]; [now exists []|]. cbn [snd chunks3] in Hc.
    unfold show_args3 in HB. cbn [map concat] in HB. fold (show_args3 args) in HB. rewrite !count_newlines_app, nl_scope3 in HB. unfold asum in HB. cbn [map fold_right line_sum_scope] in HB. fold (asum args) in HB. fold (lsum cs) in HB.
    destruct (G_list cs Hc) as (x & Ex & _); [apply (HN pre cs v); now left|lia|]. rewrite i2scope, Ex. cbn [bind].
    destruct IH as (xs & ->); [intros; eapply HN; right; eassumption|lia|]. cbn [bind]. eexists. reflexivity.
  Qed.
  Lemma shift_ok n off cs : Forall (upto n) cs -> n + off < two32 -> exists cs', mapM (@shift_chunk2 E p off) cs = Ok cs' /\ Forall (upto (n + off)) cs'.
  Proof.
    induction 1 as [|[l v] cs Hc HF IH]; intros HB; cbn [mapM]; [exists []; split; [reflexivity|constructor]|]. unfold upto in Hc. cbn [line_no2] in Hc. unfold shift_chunk2 at 1. rewrite add32_ok by lia. cbn [bind].
    destruct (IH HB) as (xs & -> & Hx). cbn [bind]. eexists. split; [reflexivity|]. constructor; [unfold upto; cbn [line_no2]; lia|exact Hx].
  Qed.
  Lemma maths_shift_ok n l cs : Forall (upto n) cs -> 1 <= l -> n + (l - 1) < two32 ->
    exists cs', mapM (fun c => let* off := sub32 p l 1 in @shift_chunk2 E p off c) cs = Ok cs' /\ Forall (upto (n + (l - 1))) cs'.
  Proof.
    intros H Hl HB. destruct (shift_ok n (l - 1) cs H HB) as (cs' & E1 & F). exists cs'. split; [|exact F]. rewrite <- E1. rewrite sub32_ok by lia. reflexivity.
  Qed.
  Lemma prepend_upto n d out : 1 <= n -> Forall (upto n) out -> Forall (upto n) (prepend_dollars d out).
  Proof. intros Hn H. destruct out as [|[l [s|c|s|e]] out]; cbn [prepend_dollars]; try (constructor; [exact Hn|exact H]). inversion H; subst. constructor; assumption. Qed.
  Lemma append_upto n d l out : l <= n -> Forall (upto n) out -> Forall (upto n) (append_dollars d l out).
  Proof.
    intros Hn H. induction H as [|x out Hx H IH]; [repeat constructor; exact Hn|]. destruct out as [|y out].
    - destruct x as [lx [s|c|s|e]]; cbn [append_dollars]; repeat constructor; try exact Hx; exact Hn.
    - replace (append_dollars d l (x :: y :: out)) with (x :: append_dollars d l (y :: out)) by (destruct x as [? [?|?|?|?]]; reflexivity). constructor; assumption.
  Qed.
  Lemma all_good cs : Forall (good (@lines_chunk3 E p) show_chunk3) cs.
  Proof. apply Forall_forall. intros c _. apply lines_chunk3_ok. Qed.
  Lemma G_all c : G c.
  Proof.
    induction c as [l s|l s|l lab args IH|l cs v IH|l lab args cs pb pe IHa IHc|l v t cs IH] using chunk3_ind'; intros HN HB.
    - eexists. split; [reflexivity|]. repeat constructor. unfold upto. cbn [line_no2 line_sum line_sum_variant]. lia.
    - eexists. split; [reflexivity|]. repeat constructor. unfold upto. cbn [line_no2 line_sum line_sum_variant]. lia.
    - change (@into2_chunk E p (mkChunk3 l (Command3 (mkCommand3 lab args)))) with (let* c := @into2_command E p (mkCommand3 lab args) in Ok [mkChunk2 l (Command2 c)]). rewrite i2command.
      pose proof (nl_cmd3 l lab args) as NC. cbn [line_sum line_sum_variant] in *. fold (asum args) in *.
      destruct (G_args args IH) as (a2 & ->); [intros pre inner v Hi; eapply numbered_within; [exact HN|]; eapply w3_arg; [apply w3_self|now left|exact Hi]|lia|].
      cbn [bind]. eexists. split; [reflexivity|]. repeat constructor. unfold upto. cbn [line_no2]. lia.
    - change (@into2_chunk E p (mkChunk3 l (Scope3 (mkScope3 cs v)))) with (let* c := @into2_scope E p (mkScope3 cs v) in Ok [mkChunk2 l (Scope2 c)]).
      assert (NS : count_newlines (show_chunk3 (mkChunk3 l (Scope3 (mkScope3 cs v)))) = count_newlines (show_chunks3 cs)) by apply nl_scope3.
      cbn [line_sum line_sum_variant line_sum_scope] in *. fold (lsum cs) in *. rewrite i2scope.
      destruct (G_list cs IH) as (css & -> & _); [eapply numbered_within; [exact HN|]; eapply w3_scope; [apply w3_self|now left]|lia|].
      cbn [bind]. eexists. split; [reflexivity|]. repeat constructor. unfold upto. cbn [line_no2]. lia.
    - change (@into2_chunk E p (mkChunk3 l (Environment3 (mkEnv3 lab args cs pb pe)))) with (let* c := @into2_env E p (mkEnv3 lab args cs pb pe) in Ok [mkChunk2 l (Environment2 c)]). rewrite i2env.
      pose proof (nl_env3 l lab args cs pb pe) as NE. cbn [line_sum line_sum_variant] in *. fold (asum args) in *. fold (lsum cs) in *.
      destruct (G_args args IHa) as (a2 & ->); [intros pre inner v Hi; eapply numbered_within; [exact HN|]; eapply w3_env_arg; [apply w3_self|now left|exact Hi]|lia|]. cbn [bind].
      destruct (G_list cs IHc) as (css & -> & _); [eapply numbered_within; [exact HN|]; eapply w3_env; [apply w3_self|now left]|lia|].
      cbn [bind]. eexists. split; [reflexivity|]. repeat constructor. unfold upto. cbn [line_no2]. lia.
    - change (@into2_chunk E p (mkChunk3 l (Maths3 (mkMaths3 v t cs)))) with (let* cs := @into2_maths E p (mkMaths3 v t cs) in mapM (fun c => let* off := sub32 p l 1 in shift_chunk2 p off c) cs).
      assert (NM : count_newlines (show_chunk3 (mkChunk3 l (Maths3 (mkMaths3 v t cs)))) = count_newlines (show_chunks3 cs)) by apply nlc_maths3.
      assert (Hl : 1 <= l) by (eapply HN; [apply w3_self|now left]).
      cbn [line_sum line_sum_variant] in *. fold (lsum cs) in *. rewrite NM in *.
      rewrite i2maths, (mapM_lines p (lines_chunk3 p) show_chunk3); [|apply all_good|fold (show_chunks3 cs); lia]. cbn [bind]. unfold sum32. rewrite (sum_lines p show_chunk3) by (fold (show_chunks3 cs); lia). fold (show_chunks3 cs). cbn [bind]. rewrite add32_ok by lia. cbn [bind].
      destruct (G_list cs IH) as (css & -> & F); [eapply numbered_within; [exact HN|]; eapply w3_maths; [apply w3_self|now left]|lia|]. cbn [bind].
      assert (K : forall x, Forall (upto (1 + lsum cs + count_newlines (show_chunks3 cs))) x ->
        exists cs', (let* c := Ok x in mapM (fun c => let* off := sub32 p l 1 in @shift_chunk2 E p off c) c) = Ok cs' /\ Forall (upto (l + lsum cs + count_newlines (show_chunks3 cs))) cs').
      { intros x Fx. cbn [bind]. destruct (maths_shift_ok _ l x Fx Hl) as (cs' & -> & F'); [lia|]. eexists. split; [reflexivity|]. eapply upto_mono; [|exact F']. lia. }
      assert (F1 : Forall (upto (1 + lsum cs + count_newlines (show_chunks3 cs))) (concat css)) by (eapply upto_mono; [|exact F]; lia).
      destruct v, t; [apply K|apply K|destruct (concat css); apply K..].
      1,2: apply Forall_app; split; [repeat constructor; unfold upto; cbn [line_no2]; lia|apply Forall_app; split; [exact F1|repeat constructor; unfold upto; cbn [line_no2]; lia]].
      all: try (repeat constructor; unfold upto; cbn [line_no2]; lia).
      all: apply append_upto; [lia|]; apply prepend_upto; [lia|exact F1].
  Qed.
  Lemma G_every cs : Forall G cs. Proof. apply Forall_forall. intros c _. apply G_all. Qed.
  Lemma asum_snd args : asum args = fold_right N.add 0 (map (fun a : str * scope3 => line_sum_scope (snd a)) args).
  Proof. unfold asum. f_equal. apply map_ext. now intros [? ?]. Qed.
  Lemma offs_ok args : 1 + count_newlines (show_args3 args) < two32 -> forall acc, acc + count_newlines (show_args3 args) < two32 ->
    exists ls, mapM (fun a : str * scope3 => match a with (s, arg) => let* l := @lines_scope3 E p arg in let* x := add32 p (as_u32 (count_newlines s)) l in sub32 p x 1 end) args = Ok ls /\
      foldM (@add32 E p) acc ls = Ok (acc + count_newlines (show_args3 args)).
  Proof.
    induction args as [|[pre sc] args IH]; intros HB acc HA; cbn [mapM]; [exists []; split; [reflexivity|]; cbn; now rewrite N.add_0_r|].
    unfold show_args3 in *. cbn [map concat] in *. fold (show_args3 args) in *. rewrite !count_newlines_app in *.
    rewrite lines_scope3_correct by lia. cbn [bind]. replace (as_u32 (count_newlines pre)) with (count_newlines pre) by (unfold as_u32; now rewrite N.mod_small by lia). rewrite add32_ok by lia. cbn [bind]. rewrite sub32_ok by lia. cbn [bind].
    destruct (IH ltac:(lia) (acc + (count_newlines pre + count_newlines (show_scope3 sc))) ltac:(lia)) as (ls & -> & F). cbn [bind]. eexists. split; [reflexivity|]. cbn [foldM].
    rewrite add32_ok by lia. cbn [bind]. replace (acc + (count_newlines pre + (1 + count_newlines (show_scope3 sc)) - 1)) with (acc + (count_newlines pre + count_newlines (show_scope3 sc))) by lia.
    rewrite F. f_equal. lia.
  Qed.
End Ok.
Theorem back3_debug {E} p d : maths_numbered d -> 1 + line_sum_doc d + count_newlines (full_text d) < two32 ->
  (1 <= count_newlines (upto_end d) -> exists d2, @from3_to2 E p d = Ok d2) /\
  (count_newlines (upto_end d) = 0 -> p = Debug -> @from3_to2 E p d = Panic).
Proof.
  intros HN HB. assert (HN1 : numbered (d_preamable d)) by (intros es l m W; apply HN; now left).
  assert (HN2 : numbered (d_body d)) by (intros es l m W; apply HN; right; now left).
  assert (HN3 : numbered (d_trailing d)) by (intros es l m W; apply HN; right; right; now left).
  assert (HN4 : forall pre inner v, In (pre, mkScope3 inner v) (d_body_args d) -> numbered inner).
  { intros pre inner v Hi es l m W. apply HN. right; right; right. now exists pre, inner, v. }
  unfold full_text in HB. unfold upto_end in *. rewrite !count_newlines_app, nlc_env3 in *. fold (show_args3 (d_body_args d)) in *. fold (show_chunks3 (d_body d)) in *. change (count_newlines (S! "document")) with 0 in *. rewrite count_newlines_app in *.
  unfold line_sum_doc in HB. rewrite <- asum_snd in HB. fold (lsum (d_preamable d ++ d_body d ++ d_trailing d)) in HB. rewrite !lsum_app in HB.
  unfold from3_to2. cbv zeta.
  destruct (@G_list E p (d_preamable d) (G_every p _) HN1) as (pre & E1 & _); [lia|]. rewrite E1. cbn [bind]. pose proof (chunks_show p _ (all_Sh p _) _ E1) as S1.
  rewrite (mapM_lines p (lines_chunk2 p) show_chunk2); [|apply Forall_forall; intros; apply lines_chunk2_ok|fold (show2 (concat pre)); rewrite S1; lia]. cbn [bind]. unfold sum32 at 1 3.
  rewrite (sum_lines p show_chunk2) by (fold (show2 (concat pre)); rewrite S1; lia). fold (show2 (concat pre)). rewrite S1. cbn [bind].
  destruct (@offs_ok E p (d_body_args d)) with (acc := 0) as (ls & E2 & E3); [lia|lia|]. rewrite E2. cbn [bind]. unfold sum32. rewrite E3. cbn [bind].
  unfold as_u32. rewrite N.mod_small by lia. rewrite add32_ok by lia. cbn [bind].
  destruct (@G_list E p (d_body d) (G_every p _) HN2) as (bd & E4 & F4); [lia|]. rewrite E4. cbn [bind]. pose proof (chunks_show p _ (all_Sh p _) _ E4) as S4.
  edestruct (@shift_ok E p) as (bd' & E5 & _); [exact F4| |rewrite E5; cbn [bind]]; [lia|]. pose proof (mapM_show _ _ (shift_show p _) _ E5) as S5.
  destruct (@G_args E p (d_body_args d)) as (ar & E6); [apply Forall_forall; intros; apply G_every|exact HN4|lia|]. rewrite E6. cbn [bind]. pose proof (args_show p _ (all_Sh_args p _) _ E6) as S6.
  match goal with |- context [lines_chunk2 p ?c] => set (env := c) end.
  assert (NE : count_newlines (show_chunk2 env) = count_newlines (d_begin_prec d) + count_newlines (d_end_prec d) + count_newlines (show_args3 (d_body_args d)) + count_newlines (show_chunks3 (d_body d))).
  { unfold env. cbn [show_chunk2 show_variant2]. rewrite nlc_env2. fold (show_args2 ar). fold (show2 bd'). rewrite S6, S5, S4, count_newlines_app. change (count_newlines s_document) with 0. lia. }
  assert (LE : @lines_chunk2 E p env = Ok (1 + count_newlines (show_chunk2 env))) by (apply (lines_chunk2_ok p env); rewrite NE; lia).
  rewrite LE, NE. cbn [bind]. rewrite add32_ok by lia. cbn [bind].
  split.
  - intros H1. rewrite sub32_ok by lia. cbn [bind]. destruct (@G_list E p (d_trailing d) (G_every p _) HN3) as (tl & E7 & F7); [lia|]. rewrite E7. cbn [bind].
    edestruct (@shift_ok E p) as (tl' & E8 & _); [exact F7| |rewrite E8; cbn [bind]]; [lia|]. eexists. reflexivity.
  - intros H0 ->. unfold sub32. destruct (N.leb_spec 2 (1 + (count_newlines (d_begin_prec d) + count_newlines (d_end_prec d) + count_newlines (show_args3 (d_body_args d)) + count_newlines (show_chunks3 (d_body d))) + (0 + count_newlines (show_chunks3 (d_preamable d))))); [lia|reflexivity].
Qed.
(** ** A decision procedure for [maths_numbered] *)
Fixpoint nbc (c : chunk3) : bool :=
  match c with
  | mkChunk3 l v =>
      match v with
      | Text3 _ | ParagraphBreak3 _ => true
      | Command3 (mkCommand3 _ args) => forallb (fun a => match a with (_, mkScope3 cs _) => forallb nbc cs end) args
      | Scope3 (mkScope3 cs _) => forallb nbc cs
      | Environment3 (mkEnv3 _ args content _ _) => forallb (fun a => match a with (_, mkScope3 cs _) => forallb nbc cs end) args && forallb nbc content
      | Maths3 (mkMaths3 _ _ content) => (1 <=? l) && forallb nbc content
      end
  end.
Lemma nbc_within d cs : within3 d cs -> forallb nbc d = true -> forallb nbc cs = true.
Proof.
  intros H HD. induction H as [|? ? ? ? K IH Hi|? ? ? ? ? ? ? K IH Hi Ha|? ? ? ? ? ? ? ? ? ? K IH Hi Ha|? ? ? ? ? ? ? K IH Hi|? ? ? ? ? K IH Hi]; [exact HD|..];
    rewrite forallb_forall in IH; apply IH in Hi; cbn [nbc] in Hi.
  - exact Hi.
  - rewrite forallb_forall in Hi. exact (Hi _ Ha).
  - apply andb_prop in Hi as [Hi _]. rewrite forallb_forall in Hi. exact (Hi _ Ha).
  - now apply andb_prop in Hi as [_ Hi].
  - now apply andb_prop in Hi as [_ Hi].
Qed.
Lemma nbc_numbered d : forallb nbc d = true -> numbered d.
Proof.
  intros H es l m W Hi. apply (nbc_within d es W) in H. rewrite forallb_forall in H. apply H in Hi. destruct m. cbn [nbc] in Hi. apply andb_prop in Hi as [Hi _]. now apply N.leb_le in Hi.
Qed.
Lemma nbc_doc d : forallb nbc (d_preamable d) && forallb nbc (d_body d) && forallb nbc (d_trailing d)
  && forallb (fun a => match a with (_, mkScope3 cs _) => forallb nbc cs end) (d_body_args d) = true -> maths_numbered d.
Proof.
  intros H. apply andb_prop in H as [H H4]. apply andb_prop in H as [H H3]. apply andb_prop in H as [H1 H2].
  intros cs l m [W|[W|[W|(pre & inner & v & Hi & W)]]] K; [eapply nbc_numbered; [exact H1|exact W|exact K]|eapply nbc_numbered; [exact H2|exact W|exact K]|eapply nbc_numbered; [exact H3|exact W|exact K]|].
  rewrite forallb_forall in H4. apply H4 in Hi. eapply nbc_numbered; [exact Hi|exact W|exact K].
Qed.
