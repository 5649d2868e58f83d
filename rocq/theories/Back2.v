(** * Back2: from stage 2 back to stage 1 *)
From Verif Require Import Base Ast1 Parse1 Ast2 Ast3 Spec1 SpecDoc1 SpecDoc2 SpecDoc3 SpecCanon1 Spec2 SpecBack2 Tok Pure1 Refine1 Gram1 Ind Lines Facts1
  Valid1 Valid2 Eqb Conv2 Fail2 Facts2 Good2 Env2 Canon1.
Open Scope N_scope.

(** ** Labels *)
Definition stable (lab : str) : Prop := forall p x, from_str1 p lab = Ok x -> show1 x = lab.
Lemma special_text_char c : special c = false -> text_char c = true.
Proof.
  intros H. rewrite <- unsanitised_special in H. unfold unsanitised, text_char in *.
  destruct (c =? c_bslash), (c =? c_percent), (is_opening c); try discriminate; reflexivity.
Qed.
Lemma plain_label_parse p lab : plain_label lab ->
  exists x, from_str1 p lab = Ok x /\ show1 x = lab.
Proof.
  intros [H F]. destruct lab as [|c lab]; [exists []; split; reflexivity|].
  exists [mkChunk1 1 (Text1 (c :: lab))].
  assert (E : show1 [mkChunk1 1 (Text1 (c :: lab))] = c :: lab) by (unfold show1; cbn; now rewrite app_nil_r).
  split; [|exact E]. rewrite <- E at 1. apply canonical_from_str1; [rewrite E; exact F|].
  constructor; [discriminate| |reflexivity|constructor].
  apply forallb_forall. intros x Hx. apply special_text_char.
  destruct (special x) eqn:Es; [|reflexivity]. assert (K : existsb special (c :: lab) = true) by (apply existsb_exists; eauto). congruence.
Qed.
Lemma plain_label_stable lab : plain_label lab -> stable lab.
Proof. intros H p x Hx. destruct (plain_label_parse p lab H) as (y & Hy & E). congruence. Qed.

(** ** Unfolding equations *)
Section Eqs.
  Context {E : Type} (p : profile).
  Definition into_line (line0 : N) (shift : option N) : outcome E N :=
    match shift with None => Ok line0 | Some self_line => let* o := sub32 p self_line 1 in add32 p line0 o end.
  Definition into_args (args : list (str * scope2)) : outcome E (list (str * scope1)) :=
    mapM (fun a => match a with (s, sc) => let* sc := @into1_scope E p sc in Ok (s, sc) end) args.
  Definition into_list (sh : option N) (cs : list chunk2) : outcome E (list (list chunk1)) :=
    mapM (fun c => @into1_chunk E p c sh) cs.
  Lemma into_text_eq l s sh : @into1_chunk E p (mkChunk2 l (Text2 s)) sh =
    let* line := into_line l sh in Ok [mkChunk1 line (Text1 s)].
  Proof. reflexivity. Qed.
  Lemma into_scope_eq cs v : @into1_scope E p (mkScope2 cs v) =
    let* css := into_list None cs in Ok (mkScope1 (concat css) (sv1_of_sv2 v)).
  Proof. reflexivity. Qed.
  Lemma into_scope_chunk_eq l sc sh : @into1_chunk E p (mkChunk2 l (Scope2 sc)) sh =
    let* line := into_line l sh in let* sc := @into1_scope E p sc in Ok [mkChunk1 line (Scope1 sc)].
  Proof. reflexivity. Qed.
  Lemma into_cmd_eq l lab args sh : @into1_chunk E p (mkChunk2 l (Command2 (mkCommand2 lab args))) sh =
    let* line := into_line l sh in let* c := (let* args := into_args args in Ok (mkCommand1 lab args)) in Ok [mkChunk1 line (Command1 c)].
  Proof. reflexivity. Qed.
  Definition end_extra (pb lab : str) (content : list chunk2) (args : list (str * scope2)) : N :=
    count_newlines pb + count_newlines lab + count_newlines (show2 content)
    + fold_right N.add 0 (map (fun a => match a with (prec, arg) => count_newlines prec + count_newlines (show_scope2 arg) end) args).
  Lemma into_env_eq l lab args content pb pe sh : @into1_chunk E p (mkChunk2 l (Environment2 (mkEnv2 lab args content pb pe))) sh =
    let* line := into_line l sh in
    let* end_line := add32 p line (as_u32 (end_extra pb lab content args)) in
    let* lab := unwrap (from_str1 p lab) in
    let* args1 := into_args args in
    let* css := into_list (Some line) content in
    Ok (begin_cmd line pb lab args1 :: concat css ++ [end_cmd end_line pe lab]).
  Proof. reflexivity. Qed.
End Eqs.

(** ** Display *)
Lemma open1_of v : open1 (sv1_of_sv2 v) = open2 v. Proof. now destruct v. Qed.
Lemma close1_of v : close1 (sv1_of_sv2 v) = close2 v. Proof. now destruct v. Qed.
Lemma show1_concat css : show1 (concat css) = concat (map show1 css).
Proof. induction css as [|cs css IH]; [reflexivity|]. cbn [concat map]. now rewrite show1_app, IH. Qed.

Section Show.
  Context {E : Type} (p : profile).
  Definition shows (c : chunk2) : Prop := forall sh css, @into1_chunk E p c sh = Ok css -> show1 css = show_chunk2 c.
  Lemma into_list_show sh cs : forall css, Forall shows cs -> @into_list E p sh cs = Ok css -> show1 (concat css) = show2 cs.
  Proof.
    induction cs as [|c cs IH]; intros css HF H; unfold into_list in *; cbn [mapM] in H.
    - injection H as <-. reflexivity.
    - inversion HF as [|? ? H1 H2]; subst.
      destruct (into1_chunk p c sh) as [x|e| |] eqn:Ex; cbn [bind] in H; try discriminate.
      destruct (mapM (fun c => into1_chunk p c sh) cs) as [y|e| |] eqn:Ey; cbn [bind] in H; try discriminate.
      injection H as <-. cbn [concat]. rewrite show1_app, show2_cons, (H1 _ _ Ex). f_equal. now apply IH.
  Qed.
  Lemma into_scope_show cs v sc : Forall shows cs ->
    @into1_scope E p (mkScope2 cs v) = Ok sc -> show_scope1 sc = show_scope2 (mkScope2 cs v).
  Proof.
    intros HF H. rewrite into_scope_eq in H.
    destruct (into_list p None cs) as [css|e| |] eqn:Ec; cbn [bind] in H; try discriminate.
    injection H as <-. rewrite show_scope_eq, open1_of, close1_of. cbn [show_scope2]. fold (show2 cs).
    now rewrite (into_list_show None cs css HF Ec).
  Qed.
  Lemma into_args_show (args : list (str * scope2)) : forall args1,
    Forall (fun a => Forall shows (chunks2 (snd a))) args ->
    @into_args E p args = Ok args1 -> args_text args1 = show_args2 args.
  Proof.
    induction args as [|[pre [cs v]] args IH]; intros args1 HF H; unfold into_args in *; cbn [mapM] in H.
    - injection H as <-. reflexivity.
    - inversion HF as [|? ? H1 H2]; subst. cbn [snd chunks2] in H1.
      destruct (into1_scope p (mkScope2 cs v)) as [x|e| |] eqn:Ex; cbn [bind] in H; try discriminate.
      destruct (mapM _ args) as [y|e| |] eqn:Ey; cbn [bind] in H; try discriminate.
      injection H as <-. unfold args_text, show_args2. cbn [map concat]. fold (args_text y) (show_args2 args).
      rewrite (into_scope_show _ _ _ H1 Ex). f_equal. now apply IH.
  Qed.
  Lemma into_chunk_show d : every_label stable d -> forall c, (exists cs, within2 d cs /\ In c cs) -> shows c.
  Proof.
    intros HS. intros c. induction c as [l s|l lab args IH|l cs v IH|l lab args cs pb pe IHa IH] using chunk2_ind';
      intros (cs0 & Hw & Hin) sh css H.
    - rewrite into_text_eq in H. destruct (into_line p l sh) as [line|e| |]; cbn [bind] in H; try discriminate.
      injection H as <-. unfold show1. cbn. apply app_nil_r.
    - rewrite into_cmd_eq in H. destruct (into_line p l sh) as [line|e| |]; cbn [bind] in H; try discriminate.
      destruct (into_args p args) as [args1|e| |] eqn:Ea; cbn [bind] in H; try discriminate. injection H as <-.
      unfold show1. cbn [map concat show_chunk1 show_variant1 show_command1]. fold (args_text args1). rewrite app_nil_r.
      cbn [show_chunk2 show_variant2 show_command2]. fold (show_args2 args). f_equal. f_equal.
      apply into_args_show; [|exact Ea].
      apply Forall_forall. intros [pre [ics v]] Ha. rewrite Forall_forall in IH. specialize (IH _ Ha). cbn [snd chunks2] in *.
      apply Forall_forall. intros x Hx. rewrite Forall_forall in IH. apply (IH _ Hx). exists ics. split; [|assumption].
      eapply w2_arg; eauto.
    - rewrite into_scope_chunk_eq in H. destruct (into_line p l sh) as [line|e| |]; cbn [bind] in H; try discriminate.
      destruct (into1_scope p (mkScope2 cs v)) as [sc|e| |] eqn:Es; cbn [bind] in H; try discriminate. injection H as <-.
      unfold show1. cbn [map concat show_chunk1 show_variant1]. rewrite app_nil_r.
      rewrite (into_scope_show cs v sc); [reflexivity| |exact Es].
      apply Forall_forall. intros x Hx. rewrite Forall_forall in IH. apply (IH _ Hx). exists cs. split; [|assumption].
      eapply w2_scope; eauto.
    - rewrite into_env_eq in H. destruct (into_line p l sh) as [line|e| |]; cbn [bind] in H; try discriminate.
      destruct (add32 p line _) as [el|e| |]; cbn [bind] in H; try discriminate.
      destruct (from_str1 p lab) as [x|e| |] eqn:El; cbn [unwrap bind] in H; try discriminate.
      destruct (into_args p args) as [args1|e| |] eqn:Ea; cbn [bind] in H; try discriminate.
      destruct (into_list p _ cs) as [css1|e| |] eqn:Ec; cbn [bind] in H; try discriminate.
      injection H as <-.
      assert (Elab : show1 x = lab) by (eapply HS; eauto).
      assert (Eargs : args_text args1 = show_args2 args).
      { apply into_args_show; [|exact Ea].
        apply Forall_forall. intros [pre [ics v]] Ha. rewrite Forall_forall in IHa. specialize (IHa _ Ha). cbn [snd chunks2] in *.
        apply Forall_forall. intros y Hy. rewrite Forall_forall in IHa. apply (IHa _ Hy). exists ics. split; [|assumption].
        eapply w2_env_arg; eauto. }
      assert (Ebody : show1 (concat css1) = show2 cs).
      { eapply into_list_show; [|exact Ec].
        apply Forall_forall. intros y Hy. rewrite Forall_forall in IH. apply (IH _ Hy). exists cs. split; [|assumption].
        eapply w2_env; eauto. }
      rewrite show1_cons, show1_app, show1_cons, show_begin, show_end, Elab, Eargs, Ebody.
      cbn [show_chunk2 show_variant2 show_env2]. fold (show_args2 args) (show2 cs).
      change s_begin with (S! "begin"). change s_end with (S! "end"). change (show1 []) with (@nil N).
      repeat (rewrite <- ?app_assoc, ?app_nil_r; cbn [app]). reflexivity.
  Qed.

  Lemma fold_push_show cs : forall out, show1 (fold_left push_chunk_unchecked1 cs out) = show1 out ++ show1 cs.
  Proof.
    induction cs as [|c cs IH]; intros out; cbn [fold_left]; [now rewrite app_nil_r|].
    rewrite IH, push_chunk_unchecked1_show, <- app_assoc. reflexivity.
  Qed.
  Theorem from2_to1_show d d1 : every_label stable d -> @from2_to1 E p d = Ok d1 -> show1 d1 = show2 d.
  Proof.
    intros HS. unfold from2_to1.
    assert (K : forall c, In c d -> forall sh css, @into1_chunk E p c sh = Ok css -> show1 css = show_chunk2 c).
    { intros c Hc. apply (into_chunk_show d HS). exists d. split; [constructor|exact Hc]. }
    clear HS. change (show2 d) with (show1 [] ++ show2 d). generalize (@nil chunk1) as out.
    induction d as [|c d IH]; intros out H; cbn [foldM] in H.
    - injection H as <-. now rewrite app_nil_r.
    - destruct (into1_chunk p c None) as [cs|e| |] eqn:Ec; cbn [bind] in H; try discriminate.
      rewrite (IH ltac:(intros x Hx; apply K; now right) _ H), fold_push_show.
      rewrite (K c (or_introl eq_refl) _ _ Ec), show2_cons. now rewrite app_assoc.
  Qed.

  (** it never returns an error, and the loop over a document's chunks is a map *)
  Lemma from2_to1_map d css : mapM (fun c => @into1_chunk E p c None) d = Ok css ->
    @from2_to1 E p d = Ok (fold_left push_chunk_unchecked1 (concat css) []).
  Proof.
    unfold from2_to1. generalize (@nil chunk1) as out. revert css.
    induction d as [|c d IH]; intros css out H; cbn [mapM] in H; cbn [foldM].
    - injection H as <-. reflexivity.
    - destruct (into1_chunk p c None) as [x|e| |] eqn:Ex; cbn [bind] in *; try discriminate.
      destruct (mapM (fun c => into1_chunk p c None) d) as [y|e| |] eqn:Ey; cbn [bind] in H; try discriminate.
      injection H as <-. cbn [concat]. rewrite fold_left_app. now apply IH.
  Qed.
End Show.

(** ** Release never panics when labels are plain *)
Lemma mapM_total {E A B} (f : A -> outcome E B) l : Forall (fun x => exists y, f x = Ok y) l -> exists r, mapM f l = Ok r.
Proof.
  induction 1 as [|x l [y Hy] _ [r Hr]]; cbn [mapM]; [eauto|]. rewrite Hy, Hr. cbn [bind]. eauto.
Qed.
Lemma into_line_release {E} l sh : exists line, @into_line E Release l sh = Ok line.
Proof.
  unfold into_line. destruct sh as [s0|]; [|eauto]. destruct (@sub32_release E s0 1) as [o ->]. cbn [bind]. apply add32_release.
Qed.
Lemma into_list_total {E} sh cs : Forall (fun c => forall sh, exists css, @into1_chunk E Release c sh = Ok css) cs ->
  exists r, @into_list E Release sh cs = Ok r.
Proof. intros H. apply mapM_total. eapply Forall_impl; [|exact H]. intros c Hc. apply Hc. Qed.
Lemma into_args_total {E} (args : list (str * scope2)) :
  Forall (fun a => Forall (fun c => forall sh, exists css, @into1_chunk E Release c sh = Ok css) (chunks2 (snd a))) args ->
  exists r, @into_args E Release args = Ok r.
Proof.
  intros H. apply mapM_total. eapply Forall_impl; [|exact H]. intros [pre [cs v]] Hc. cbn [snd chunks2] in Hc.
  rewrite into_scope_eq. destruct (into_list_total None cs Hc) as [r ->]. cbn [bind]. eauto.
Qed.
Lemma into_total {E} d : every_label plain_label d -> forall c, (exists cs, within2 d cs /\ In c cs) ->
  forall sh, exists css, @into1_chunk E Release c sh = Ok css.
Proof.
  intros HS. intros c. induction c as [l s|l lab args IH|l cs v IH|l lab args cs pb pe IHa IH] using chunk2_ind';
    intros (cs0 & Hw & Hin) sh; destruct (@into_line_release E l sh) as [line L].
  - rewrite into_text_eq, L. cbn [bind]. eauto.
  - rewrite into_cmd_eq, L. cbn [bind].
    destruct (@into_args_total E args) as [r ->]; [|cbn [bind]; eauto].
    apply Forall_forall. intros [pre [ics v]] Ha. rewrite Forall_forall in IH. specialize (IH _ Ha). cbn [snd chunks2] in *.
    apply Forall_forall. intros x Hx. rewrite Forall_forall in IH. apply (IH _ Hx). exists ics. split; [|assumption]. eapply w2_arg; eauto.
  - rewrite into_scope_chunk_eq, L. cbn [bind]. rewrite into_scope_eq.
    destruct (@into_list_total E None cs) as [r ->]; [|cbn [bind]; eauto].
    apply Forall_forall. intros x Hx. rewrite Forall_forall in IH. apply (IH _ Hx). exists cs. split; [|assumption]. eapply w2_scope; eauto.
  - rewrite into_env_eq, L. cbn [bind].
    match goal with |- context [add32 Release line ?n] => destruct (@add32_release E line n) as [el ->] end. cbn [bind].
    destruct (plain_label_parse Release lab) as (x & -> & _); [eapply HS; eauto|]. cbn [unwrap bind].
    destruct (@into_args_total E args) as [r ->].
    { apply Forall_forall. intros [pre [ics v]] Ha. rewrite Forall_forall in IHa. specialize (IHa _ Ha). cbn [snd chunks2] in *.
      apply Forall_forall. intros y Hy. rewrite Forall_forall in IHa. apply (IHa _ Hy). exists ics. split; [|assumption]. eapply w2_env_arg; eauto. }
    cbn [bind].
    destruct (@into_list_total E (Some line) cs) as [r' ->].
    { apply Forall_forall. intros y Hy. rewrite Forall_forall in IH. apply (IH _ Hy). exists cs. split; [|assumption]. eapply w2_env; eauto. }
    cbn [bind]. eauto.
Qed.
Theorem from2_to1_release {E} d : every_label plain_label d -> exists d1, @from2_to1 E Release d = Ok d1.
Proof.
  intros HS. destruct (mapM_total (fun c => @into1_chunk E Release c None) d) as [css Hc].
  - apply Forall_forall. intros c Hin. apply (into_total d HS). exists d. split; [constructor|exact Hin].
  - exact (ex_intro _ _ (from2_to1_map Release d css Hc)).
Qed.

(** ** Labels of parsed documents *)
Definition args_stable (c : chunk1) : Prop :=
  match variant_of1 c with
  | Command1 (mkCommand1 _ args) => Forall (fun a => scope_variant1 (snd a) = Curly1 -> canonical 1 (chunks1 (snd a))) args
  | _ => True
  end.
Lemma no_curly_canonical L ts d : Forall wf_token ts -> parses L ts d -> existsb (is_v Curly1) ts = false -> canonical L d.
Proof.
  intros W Hp Hv. pose proof (proj1 (parses_no_v Curly1) _ _ _ Hp Hv) as N.
  eapply (proj1 parsed_canonical); [exact Hp|exact W|]. intros cs Hw.
  apply Forall_forall. intros c Hc. unfold reparse_safe. destruct c as [l [s|[lab args]|[inner v]]]; cbn [variant_of1]; [exact I| |].
  - pose proof (N cs Hw) as Nc. rewrite Forall_forall in Nc. specialize (Nc _ Hc). cbn in Nc.
    eapply Forall_impl; [|exact Nc]. cbn. intros a H1 H2. contradiction.
  - intros cs' Hw'. assert (Hw2 : within1 d cs') by (eapply within_trans; [eapply w1_scope; eauto|exact Hw']).
    eapply Forall_impl; [|exact (N cs' Hw2)]. intros c. unfold no_bracket', no_close. destruct (variant_of1 c); auto.
Qed.
Lemma parses_args_stable :
  (forall L ts d, parses L ts d -> Forall wf_token ts -> everywhere args_stable d) /\
  (forall ts args, parses_args ts args -> Forall wf_token ts ->
     Forall (fun a => scope_variant1 (snd a) = Curly1 -> canonical 1 (chunks1 (snd a))) args /\
     Forall (fun a => everywhere args_stable (chunks1 (snd a))) args).
Proof.
  apply parses_parses_args_ind.
  - intros L _. apply everywhere_nil.
  - intros L run rest cs Hne Hrun Hrest Hp IH W. apply Forall_app in W as [W1 W2].
    apply everywhere_cons. repeat split; auto.
  - intros L v body rest inner cs Hb Hp IHi _ IH W. inversion W as [|? ? W0 W1]; subst.
    apply Forall_app in W1 as [W1 W2]. inversion W2; subst. apply everywhere_cons. repeat split; auto. exact (IHi W1).
  - intros L c rest cs Ha _ IH W. inversion W; subst. apply everywhere_cons. split; [constructor|]. split; [constructor|auto].
  - intros L a lab argtoks args ws rest cs Ha Hl Hargs IHa Hws Hf Hne Hp IH W.
    inversion W as [|? ? W0 W1]; subst.
    apply Forall_app in W1 as [W1 W2]. apply Forall_app in W2 as [W2 W3]. apply Forall_app in W3 as [W3 W4].
    destruct (IHa W2) as [A1 A2]. apply everywhere_cons. split; [exact A1|]. split; [exact A2|].
    apply IH. apply Forall_app; split; [now apply wf_plain_ws|exact W4].
  - intros L a lab argtoks args ws Ha Hl Hargs IHa Hws Hne W.
    inversion W as [|? ? W0 W1]; subst.
    apply Forall_app in W1 as [W1 W2]. apply Forall_app in W2 as [W2 W3].
    destruct (IHa W2) as [A1 A2]. apply everywhere_cons. split; [exact A1|]. split; [exact A2|].
    apply everywhere_cons. split; [exact I|]. split; [exact I|apply everywhere_nil].
  - split; constructor.
  - intros pre o v body inner rest args Hpre Ho Hb Hp IHi _ IH W.
    apply Forall_app in W as [W1 W2]. inversion W2 as [|? ? W3 W4]; subst.
    apply Forall_app in W4 as [W4 W5]. inversion W5; subst.
    assert (Wd : Forall wf_token (drop_own v body)) by now apply wf_drop_own.
    destruct (IH ltac:(assumption)) as [A1 A2]. split; constructor; auto; cbn [snd scope_variant1 chunks1].
    intros ->. eapply no_curly_canonical; [exact Wd|exact Hp|apply drop_own_self].
Qed.
Lemma parsed_args_stable d : parsed d -> everywhere args_stable d.
Proof.
  intros (p & s & F & H). pose proof (from_str1_has_parse p s d F H) as [_ Hp].
  eapply (proj1 parses_args_stable); [exact Hp|apply tokens_wf].
Qed.

(** ** The way back from a converted document with good lines *)
Definition shift1 (k : N) (c : chunk1) : chunk1 := match c with mkChunk1 l v => mkChunk1 (l + k) v end.
Lemma shift_0 d : map (shift1 0) d = d.
Proof. induction d as [|[l v] d IH]; [reflexivity|]. cbn [map shift1]. now rewrite N.add_0_r, IH. Qed.
Lemma good_ge d : forall L, good L d -> Forall (fun c => L <= line_no1 c) d.
Proof.
  induction d as [|[l v] d IH]; intros L H; constructor.
  - inversion H; subst; cbn [line_no1]; lia.
  - inversion H; subst; (eapply Forall_impl; [|apply IH; eassumption]); cbn beta; intros; lia.
Qed.
Lemma shift_rebase start k d : 1 <= start -> good start d ->
  map (shift1 (start + k - 1)) (map (rebase start) d) = map (shift1 k) d.
Proof.
  intros Hs H. pose proof (good_ge _ _ H) as G. rewrite map_map. apply map_ext_in. intros [l v] Hin.
  rewrite Forall_forall in G. specialize (G _ Hin). cbn [line_no1] in G. cbn [rebase shift1]. f_equal. lia.
Qed.
Definition offset (sh : option N) (k : N) : Prop :=
  match sh with None => k = 0 | Some s => 1 <= s /\ k = s - 1 end.
Lemma into_line_ok {E} p l sh k : offset sh k -> l + k < two32 -> @into_line E p l sh = Ok (l + k).
Proof.
  intros O B. unfold into_line, offset in *. destruct sh as [s0|]; [|subst; now rewrite N.add_0_r].
  destruct O as [O1 ->]. rewrite sub32_ok by lia. cbn [bind]. now apply add32_ok.
Qed.
Lemma end_extra_eq pb lab content args : end_extra pb lab content args =
  count_newlines pb + count_newlines lab + count_newlines (show2 content) + count_newlines (show_args2 args).
Proof.
  unfold end_extra. f_equal. induction args as [|[pre sc] args IH]; [reflexivity|]. cbn [map fold_right]. rewrite IH.
  unfold show_args2. cbn [map concat]. now rewrite !count_newlines_app.
Qed.
Lemma sv_back v : sv1_of_sv2 (sv2_of_sv1 v) = v. Proof. now destruct v. Qed.
Lemma args_stable_rebase start d : everywhere args_stable d -> everywhere args_stable (map (rebase start) d).
Proof.
  induction d as [|[l v] d IH]; intros H; [exact H|]. cbn [map rebase].
  apply everywhere_cons in H as (H1 & H2 & H3). apply everywhere_cons. split; [exact H1|]. split; [exact H2|auto].
Qed.
Lemma everywhere_app Q a b : everywhere Q (a ++ b) <-> everywhere Q a /\ everywhere Q b.
Proof.
  induction a as [|c a IH]; cbn [app].
  - split; [intros H; split; [apply everywhere_nil|exact H]|tauto].
  - rewrite !everywhere_cons, IH. tauto.
Qed.
Lemma nl_begin l pb lab args : nlch (begin_cmd l pb lab args) = count_newlines (pb ++ show1 lab ++ args_text args).
Proof.
  unfold nlch. rewrite show_begin. rewrite !count_newlines_app.
  change (count_newlines [c_lcurly]) with 0. change (count_newlines [c_rcurly]) with 0. change (count_newlines (c_bslash :: S! "begin")) with 0. lia.
Qed.

Lemma into_restored {E} p :
  (forall d d2, converts d d2 -> forall L k sh, offset sh k -> 1 <= L -> good L d -> everywhere args_stable d ->
     L + k + 2 * len1 d < two32 ->
     exists css, @into_list E p sh d2 = Ok css /\ restored (map (shift1 k) d) (concat css)) /\
  (forall args args', converts_args args args' -> good_args args ->
     Forall (fun a => everywhere args_stable (chunks1 (snd a))) args ->
     1 + 2 * len_args args < two32 ->
     exists args1, @into_args E p args' = Ok args1 /\ restored_args args args1).
Proof.
  apply converts_both_ind.
  - intros L k sh _ _ _ _ _. exists []. split; [reflexivity|constructor].
  - intros l s d d' _ IH L k sh O HL G S B. apply everywhere_cons in S as (_ & _ & S).
    inversion G as [|? ? ? ? G1 G2| |]; subst. rewrite len1_cons in B. cbn [show_chunk1 show_variant1] in B.
    pose proof (count_newlines_le s) as Cs.
    pose proof (fun H => IH _ k sh O H G2 S) as IH'. destruct (IH' ltac:(lia) ltac:(lia)) as (css & Hc & R).
    exists ([mkChunk1 (l + k) (Text1 s)] :: css). unfold into_list in *. cbn [mapM].
    rewrite into_text_eq, (into_line_ok p l sh k O) by lia. cbn [bind]. rewrite Hc. cbn [bind]. split; [reflexivity|].
    cbn [map shift1 concat app]. now constructor.
  - intros l cs v cs' d d' _ IHc _ IH L k sh O HL G S B. apply everywhere_cons in S as (_ & S1 & S). cbn in S1.
    inversion G as [| |? ? ? ? G1 G2|]; subst. rewrite len1_cons, len_scope in B. pose proof (nls_len cs) as Cs.
    destruct (IHc 1 0 None eq_refl ltac:(lia) G1 S1 ltac:(lia)) as (ics & Hi & Ri). rewrite shift_0 in Ri.
    pose proof (fun H => IH _ k sh O H G2 S) as IH'. destruct (IH' ltac:(lia) ltac:(lia)) as (css & Hc & R).
    exists ([mkChunk1 (l + k) (Scope1 (mkScope1 (concat ics) v))] :: css). unfold into_list at 1. cbn [mapM].
    rewrite into_scope_chunk_eq, (into_line_ok p l sh k O) by lia. cbn [bind]. rewrite into_scope_eq, Hi. cbn [bind].
    unfold into_list in Hc. rewrite Hc. cbn [bind]. rewrite sv_back. split; [reflexivity|].
    cbn [map shift1 concat app]. now constructor.
  - intros l lab args args' d d' H1 H2 _ IHa _ IH L k sh O HL G S B. apply everywhere_cons in S as (_ & S1 & S). cbn in S1.
    inversion G as [| | |? ? ? ? ? G1 G2 G3 G4]; subst. pose proof (nlch_len (mkChunk1 l (Command1 (mkCommand1 lab args)))) as Cs.
    rewrite len1_cons in B. pose proof (len_cmd l lab args) as Lc.
    destruct (IHa G3 S1 ltac:(lia)) as (args1 & Hi & Ri).
    pose proof (fun H => IH _ k sh O H G4 S) as IH'. destruct (IH' ltac:(lia) ltac:(lia)) as (css & Hc & R).
    exists ([mkChunk1 (l + k) (Command1 (mkCommand1 lab args1))] :: css). unfold into_list at 1. cbn [mapM].
    rewrite into_cmd_eq, (into_line_ok p l sh k O) by lia. cbn [bind]. rewrite Hi. cbn [bind].
    unfold into_list in Hc. rewrite Hc. cbn [bind]. split; [reflexivity|].
    cbn [map shift1 concat app]. now constructor.
  - intros l pb lab args args' body content l' pe d d' start -> Hargs IHa Hb IHb _ IH L k sh O HL G S B.
    fold (begin_end_line l pb lab args) in *.
    apply everywhere_cons in S as (S0 & S1 & S). cbn in S0, S1. apply everywhere_app in S as [Sb S].
    apply everywhere_cons in S as (_ & _ & S).
    inversion S0 as [|? ? S0' _]; subst. specialize (S0' eq_refl). cbn [snd chunks1] in S0'.
    inversion S1 as [|? ? _ S1']; subst.
    pose proof (good_env L [] l pb lab args body _ G) as (El & _ & Ga & Gb & Gr & Eb).
    change (nls []) with 0 in El, Eb. rewrite N.add_0_r in El, Eb.
    set (start := begin_end_line l pb lab args) in *.
    assert (El' : l' = start + nls body).
    { pose proof Gr as Gr'. inversion Gr' as [| | |? ? ? ? ? G1 G2 G3 G4]; subst. apply G2. now right. }
    apply (good_mid _ []) in Gr as (_ & _ & _ & Gr). change (nls []) with 0 in Gr. rewrite N.add_0_r in Gr.
    pose proof (nlch_len (begin_cmd l pb lab args)) as C1. pose proof (nlch_len (end_cmd l' pe lab)) as C2.
    pose proof (nls_len body) as C3. pose proof (len_begin_args l pb lab args) as C4.
    rewrite len1_cons, len1_app, len1_cons in B.
    destruct (IHa Ga S1' ltac:(lia)) as (args1 & Hi & Ri).
    destruct (IHb 1 (start + k - 1) (Some (start + k))) as (bcss & Hbc & Rb).
    { cbn. lia. } { lia. } { now apply rebase_good0. } { now apply args_stable_rebase. } { rewrite len_rebase. lia. }
    rewrite shift_rebase in Rb by (assumption || lia).
    pose proof (fun H => IH _ k sh O H Gr S) as IH'. destruct (IH' ltac:(lia) ltac:(lia)) as (css & Hc & R).
    pose proof (nl_begin l pb lab args) as NB.
    assert (NE : end_extra pb (show1 lab) content args' = nlch (begin_cmd l pb lab args) + nls body).
    { rewrite end_extra_eq, NB, (proj2 converts_show _ _ Hargs), (proj1 converts_show _ _ Hb), show_rebase.
      rewrite !count_newlines_app. unfold nls. lia. }
    exists ((begin_cmd (start + k) pb lab args1 :: concat bcss ++ [end_cmd (l' + k + nlch (begin_cmd l pb lab args)) pe lab]) :: css).
    unfold into_list at 1. cbn [mapM].
    rewrite into_env_eq, (into_line_ok p start sh k O) by lia. cbn [bind].
    rewrite NE, as_u32_ok, add32_ok by lia. cbn [bind].
    rewrite (canonical_from_str1 p lab); [|pose proof (show_begin l pb lab args) as SB; rewrite SB, !app_length in B; cbn [length] in B; lia|exact S0'].
    cbn [unwrap bind]. rewrite Hi. cbn [bind]. rewrite Hbc. cbn [bind].
    unfold into_list in Hc. rewrite Hc. cbn [bind]. split.
    + f_equal. f_equal. f_equal. f_equal. f_equal. f_equal. lia.
    + cbn [concat map shift1 begin_cmd]. rewrite map_app. cbn [map shift1 end_cmd app]. rewrite <- app_assoc. cbn [app].
      replace (start + k) with (l + k + nlch (begin_cmd l pb lab args)) by lia.
      apply rs_env; auto.
  - intros _ _ _. exists []. split; [reflexivity|constructor].
  - intros pre cs v cs' args args' _ IHc _ IHa G S B. rewrite len_args_cons in B.
    inversion G; subst. inversion S as [|? ? S1 S2]; subst. cbn [snd chunks1] in S1.
    destruct (IHc 1 0 None eq_refl ltac:(lia) ltac:(assumption) S1 ltac:(lia)) as (ics & Hi & Ri). rewrite shift_0 in Ri.
    destruct (IHa ltac:(assumption) S2 ltac:(lia)) as (args1 & Ha & Ra).
    exists ((pre, mkScope1 (concat ics) v) :: args1). unfold into_args at 1. cbn [mapM]. rewrite into_scope_eq, Hi. cbn [bind].
    unfold into_args in Ha. rewrite Ha. cbn [bind]. rewrite sv_back. split; [reflexivity|]. now constructor.
Qed.

(** no adjacent texts: the pushes only append *)
Fixpoint no_adj (d : list chunk1) : bool :=
  match d with
  | a :: (b :: _) as d' => negb (is_text1 a && is_text1 b) && no_adj d'
  | _ => true
  end.
Lemma no_adj_of d : (forall pre a b post, d = pre ++ a :: b :: post -> is_text1 a && is_text1 b = false) -> no_adj d = true.
Proof.
  induction d as [|a d IH]; intros H; [reflexivity|]. destruct d as [|b d]; [reflexivity|].
  cbn [no_adj]. rewrite (H [] a b d eq_refl). cbn [negb andb]. apply IH. intros pre x y post E. apply (H (a :: pre) x y post). now rewrite E.
Qed.
Lemma fold_push_no_adj cs : forall out x, no_adj (x :: cs) = true ->
  fold_left push_chunk_unchecked1 cs (out ++ [x]) = out ++ x :: cs.
Proof.
  induction cs as [|c cs IH]; intros out x H; [reflexivity|]. cbn [fold_left].
  change (no_adj (x :: c :: cs)) with (negb (is_text1 x && is_text1 c) && no_adj (c :: cs)) in H.
  apply andb_true_iff in H as [H1 H2].
  assert (E : push_chunk_unchecked1 (out ++ [x]) c = (out ++ [x]) ++ [c]).
  { rewrite push_chunk_unchecked1_snoc, <- app_assoc. cbn [app]. unfold is_text1 in H1. destruct c as [lc [s|cm|sc]], x as [lx [s'|cm'|sc']]; try reflexivity. discriminate. }
  rewrite E, IH by exact H2. rewrite <- app_assoc. reflexivity.
Qed.
Lemma fold_push_nil cs : no_adj cs = true -> fold_left push_chunk_unchecked1 cs [] = cs.
Proof.
  destruct cs as [|c cs]; [reflexivity|]. intros H. cbn [fold_left push_chunk_unchecked1]. apply (fold_push_no_adj cs [] c H).
Qed.
Lemma restored_kinds d d' : restored d d' -> map is_text1 d = map is_text1 d'.
Proof.
  induction 1 as [| | | |l pb lab args args' body body' l' pe d d' k _ _ _ IHb _ IH]; cbn [map]; try reflexivity; try (unfold is_text1 in *; now f_equal).
  - f_equal. rewrite !map_app. cbn [map]. now rewrite IHb, IH.
Qed.
Lemma no_adj_kinds d : forall d', map is_text1 d = map is_text1 d' -> no_adj d = no_adj d'.
Proof.
  induction d as [|a d IH]; intros [|a' d'] H; try discriminate; [reflexivity|]. cbn [map] in H. injection H as Ha H.
  destruct d as [|b d], d' as [|b' d']; try discriminate; [reflexivity|]. pose proof H as H0. cbn [map] in H. injection H as Hb _.
  change (no_adj (a :: b :: d)) with (negb (is_text1 a && is_text1 b) && no_adj (b :: d)).
  change (no_adj (a' :: b' :: d')) with (negb (is_text1 a' && is_text1 b') && no_adj (b' :: d')).
  rewrite Ha, Hb. f_equal. now apply IH.
Qed.
Lemma parsed_no_adj d : parsed d -> no_adj d = true.
Proof.
  intros (p & s & F & H). apply no_adj_of. intros pre a b post E.
  exact (proj1 (from_str1_adjacent p s d F H d pre a b post (w1_self _) E)).
Qed.

(** documents parsed from sources of fewer than 2^31 - 1 characters *)
Theorem back_restored {E} p q s d1 d2 : 2 * (N.of_nat (length s) + 1) < two32 -> from_str1 p s = Ok d1 -> try_from2 p d1 = Ok d2 ->
  exists d', @from2_to1 E q d2 = Ok d' /\ restored d1 d'.
Proof.
  intros B H1 H2. assert (F : source_fits s) by (unfold source_fits; lia).
  assert (P : parsed d1) by (exists p, s; auto).
  pose proof (parsed_good d1 P) as [G _]. pose proof (parsed_args_stable d1 P) as S.
  apply (try_from2_converts p d1 d2 P) in H2.
  pose proof (Facts1.degrades_length _ _ (from_str1_degrades p s d1 F H1)) as Dl.
  destruct (proj1 (@into_restored E q) _ _ H2 1 0 None eq_refl ltac:(lia) G S) as (css & Hc & R).
  { unfold len1. lia. }
  rewrite shift_0 in R. exists (concat css). split; [|exact R].
  rewrite (from2_to1_map q d2 css Hc), fold_push_nil; [reflexivity|].
  rewrite <- (no_adj_kinds d1 (concat css) (restored_kinds _ _ R)). now apply parsed_no_adj.
Qed.

(** when no \begin has a newline in its arguments *)
Scheme restored_mut := Induction for restored Sort Prop
  with restored_args_mut := Induction for restored_args Sort Prop.
Combined Scheme restored_both_ind from restored_mut, restored_args_mut.
Definition one_line_begin (c : chunk1) : Prop :=
  match c with
  | mkChunk1 _ (Command1 (mkCommand1 lab args)) => lab = S! "begin" -> ~ In c_newline (args_text args)
  | _ => True
  end.
Lemma no_newline_count s : ~ In c_newline s -> count_newlines s = 0.
Proof.
  induction s as [|c s IH]; intros H; [reflexivity|]. rewrite count_newlines_cons, IH by (intros K; apply H; now right).
  destruct (N.eqb_spec c c_newline) as [->|]; [|reflexivity]. exfalso. apply H. now left.
Qed.
Lemma restored_same :
  (forall d d', restored d d' -> everywhere one_line_begin d -> d' = d) /\
  (forall args args', restored_args args args' -> Forall (fun a => everywhere one_line_begin (chunks1 (snd a))) args -> args' = args).
Proof.
  apply restored_both_ind.
  - reflexivity.
  - intros l s d d' _ IH S. apply everywhere_cons in S as (_ & _ & S). now rewrite IH.
  - intros l cs cs' v d d' _ IHc _ IH S. apply everywhere_cons in S as (_ & S1 & S). now rewrite IH, IHc.
  - intros l lab args args' d d' _ _ _ IHa _ IH S. apply everywhere_cons in S as (_ & S1 & S). now rewrite IH, IHa.
  - intros l pb lab args args' body body' l' pe d d' k -> _ IHa _ IHb _ IH S.
    apply everywhere_cons in S as (S0 & S1 & S). apply everywhere_app in S as [Sb S].
    apply everywhere_cons in S as (_ & _ & S). cbn in S1. inversion S1 as [|? ? _ S1']; subst.
    rewrite IHb, IH, IHa by assumption.
    assert (Z : count_newlines (pb ++ show1 lab ++ args_text args) = 0).
    { specialize (S0 eq_refl). apply no_newline_count in S0. unfold args_text in S0. cbn [map concat] in S0. fold (args_text args) in S0.
      rewrite show_scope_eq in S0. rewrite !count_newlines_app, count_newlines_cons, !count_newlines_app in S0.
      rewrite !count_newlines_app. lia. }
    now rewrite Z, !N.add_0_r.
  - reflexivity.
  - intros pre cs cs' v args args' _ IHc _ IHa S. inversion S as [|? ? S1 S2]; subst. cbn [snd chunks1] in S1. now rewrite IHc, IHa.
Qed.
Lemma one_line_everywhere d : one_line_begins d -> everywhere one_line_begin d.
Proof.
  intros H cs Hw. apply Forall_forall. intros [l [s|[lab args]|sc]] Hc; cbn; auto. intros ->. exact (H cs l args Hw Hc).
Qed.
Theorem back_identity {E} p q s d1 d2 : 2 * (N.of_nat (length s) + 1) < two32 -> from_str1 p s = Ok d1 -> try_from2 p d1 = Ok d2 ->
  one_line_begins d1 -> @from2_to1 E q d2 = Ok d1.
Proof.
  intros B H1 H2 H3. destruct (@back_restored E p q s d1 d2 B H1 H2) as (d' & Hd & R).
  now rewrite <- (proj1 restored_same _ _ R (one_line_everywhere _ H3)).
Qed.
Lemma restored_show :
  (forall d d', restored d d' -> show1 d' = show1 d) /\
  (forall args args', restored_args args args' -> args_text args' = args_text args).
Proof.
  apply restored_both_ind; intros; rewrite ?show1_cons; auto.
  - now f_equal.
  - cbn [show_chunk1 show_variant1]. rewrite !show_scope_eq. congruence.
  - cbn [show_chunk1 show_variant1 show_command1]. fold (args_text args) (args_text args'). congruence.
  - rewrite !show1_app, !show1_cons, !show_begin, !show_end. congruence.
  - unfold args_text. cbn [map concat]. fold (args_text args) (args_text args'). rewrite !show_scope_eq. congruence.
Qed.
Theorem back_show {E} p q s d2 : 2 * (N.of_nat (length s) + 1) < two32 -> from_str2 p s = Ok d2 ->
  exists d', @from2_to1 E q d2 = Ok d' /\ show1 d' = show2 d2.
Proof.
  intros B H. unfold from_str2 in H. destruct (from_str1 p s) as [d1|e| |] eqn:H1; cbn [bind] in H; try discriminate.
  destruct (@back_restored E p q s d1 d2 B H1 H) as (d' & Hd & R). exists d'. split; [exact Hd|].
  rewrite (proj1 restored_show _ _ R). symmetry. exact (try_from2_show _ _ _ H).
Qed.

(** C43: curly arguments parse back from their Display *)
Theorem curly_args_reparse p q s d cs l lab args pre inner : source_fits s -> from_str1 p s = Ok d ->
  within1 d cs -> In (mkChunk1 l (Command1 (mkCommand1 lab args))) cs -> In (pre, mkScope1 inner Curly1) args ->
  from_str1 q (show1 inner) = Ok inner.
Proof.
  intros F H Hw Hc Ha. assert (P : parsed d) by (exists p, s; auto).
  pose proof (parsed_args_stable d P cs Hw) as S. rewrite Forall_forall in S. specialize (S _ Hc). cbn in S.
  rewrite Forall_forall in S. specialize (S _ Ha eq_refl). cbn [snd chunks1] in S.
  apply canonical_from_str1; [|exact S].
  pose proof (Facts1.degrades_length _ _ (from_str1_degrades p s d F H)) as Dl.
  assert (K : forall cs, within1 d cs -> (length (show1 cs) <= length (show1 d))%nat).
  { assert (I : forall c (d : list chunk1), In c d -> (length (show_chunk1 c) <= length (show1 d))%nat).
    { intros c d0 Hin. apply in_split in Hin as (a & b & ->). rewrite show1_app, show1_cons, !app_length. lia. }
    assert (IA : forall pre sc args, In (pre, sc) args -> (length (show_scope1 sc) <= length (args_text args))%nat).
    { intros pre0 sc args0 Hin. apply in_split in Hin as (a & b & ->). unfold args_text. rewrite map_app, concat_app. cbn [map concat].
      rewrite !app_length. lia. }
    induction 1 as [|cs2 l2 inner2 v2 Hw2 IH2 Hin2|cs2 l2 lab2 args2 pre2 inner2 v2 Hw2 IH2 Hin2 Ha2]; [lia| |].
    - specialize (I _ _ Hin2). cbn [show_chunk1 show_variant1] in I. rewrite show_scope_eq in I. cbn [length] in I. rewrite app_length in I. lia.
    - specialize (I _ _ Hin2). specialize (IA _ _ _ Ha2). rewrite show_scope_eq in IA. cbn [length] in IA. rewrite app_length in IA.
      cbn [show_chunk1 show_variant1 show_command1 length] in I. fold (args_text args2) in I. rewrite app_length in I. lia. }
  assert (Hi : within1 d inner) by (eapply w1_arg; eauto). specialize (K _ Hi). unfold source_fits in F. lia.
Qed.

(** The identity holds only then. *)
Lemma restored_length d d' : restored d d' -> length d = length d'.
Proof. intros H. apply restored_kinds in H. apply (f_equal (@length bool)) in H. now rewrite !map_length in H. Qed.
Lemma count_zero_no_newline s : count_newlines s = 0 -> ~ In c_newline s.
Proof.
  induction s as [|c s IH]; intros H; [intros []|]. rewrite count_newlines_cons in H. intros [->|K].
  - rewrite N.eqb_refl in H. lia.
  - apply IH; [|exact K]. lia.
Qed.
Lemma in_show_chunk x c d : In c d -> In x (show_chunk1 c) -> In x (show1 d).
Proof. intros H1 H2. apply in_split in H1 as (a & b & ->). rewrite show1_app, show1_cons, !in_app_iff. auto. Qed.
Lemma in_args_text x pre sc args : In (pre, sc) args -> In x (show_scope1 sc) -> In x (args_text args).
Proof.
  intros H1 H2. apply in_split in H1 as (a & b & ->). unfold args_text. rewrite map_app, concat_app. cbn [map concat].
  rewrite !in_app_iff. auto.
Qed.
Lemma in_cmd_text x l lab args : In x (args_text args) -> In x (show_chunk1 (mkChunk1 l (Command1 (mkCommand1 lab args)))).
Proof.
  intros H. cbn [show_chunk1 show_variant1 show_command1]. fold (args_text args). apply in_cons. apply in_or_app. now right.
Qed.
Lemma in_within x d cs : within1 d cs -> In x (show1 cs) -> In x (show1 d).
Proof.
  induction 1 as [|cs2 l2 inner2 v2 Hw2 IH2 Hin2|cs2 l2 lab2 args2 pre2 inner2 v2 Hw2 IH2 Hin2 Ha2]; [auto| |]; intros H; apply IH2.
  - apply (in_show_chunk _ _ _ Hin2). cbn [show_chunk1 show_variant1]. rewrite show_scope_eq. apply in_cons. apply in_or_app. now left.
  - apply (in_show_chunk _ _ _ Hin2). apply in_cmd_text. apply (in_args_text _ _ _ _ Ha2). rewrite show_scope_eq. apply in_cons. apply in_or_app. now left.
Qed.
Lemma one_line_all d : ~ In c_newline (show1 d) -> everywhere one_line_begin d.
Proof.
  intros H cs Hw. apply Forall_forall. intros [l [s|[lab args]|sc]] Hc; cbn; auto. intros _ K. apply H.
  apply (in_within _ _ _ Hw). apply (in_show_chunk _ _ _ Hc). now apply in_cmd_text.
Qed.
Lemma restored_fix :
  (forall d d', restored d d' -> d = d' -> everywhere one_line_begin d) /\
  (forall args args', restored_args args args' -> args = args' -> Forall (fun a => everywhere one_line_begin (chunks1 (snd a))) args).
Proof.
  apply restored_both_ind.
  - intros _. apply everywhere_nil.
  - intros l s d d' _ IH E. injection E as E. apply everywhere_cons. repeat split; auto.
  - intros l cs cs' v d d' _ IHc _ IH E. injection E as E1 E2. apply everywhere_cons. split; [exact I|]. split; [exact (IHc E1)|auto].
  - intros l lab args args' d d' H1 H2 _ IHa _ IH E. injection E as E1 E2. apply everywhere_cons.
    split; [|split; [exact (IHa E1)|auto]]. intros K. contradiction.
  - intros l pb lab args args' body body' l' pe d d' k -> Ra IHa Rb IHb Rd IH E.
    injection E as El Ea E. apply restored_length in Rb.
    assert (Eb : body = body' /\ end_cmd l' pe lab :: d = end_cmd (l' + count_newlines (pb ++ show1 lab ++ args_text args)) pe lab :: d').
    { clear - E Rb. revert body' Rb E. induction body as [|b body IHb]; intros [|b' body'] Rb E; try discriminate.
      - split; [reflexivity|exact E].
      - cbn [app] in E. injection E as E1 E2. cbn [length] in Rb. injection Rb as Rb. destruct (IHb _ Rb E2) as [-> E3]. subst. split; [reflexivity|exact E3]. }
    destruct Eb as [Eb Ed]. injection Ed as _ Ed.
    assert (Z : count_newlines (pb ++ show1 lab ++ args_text args) = 0) by lia.
    assert (Hlab : everywhere one_line_begin lab).
    { apply one_line_all. apply count_zero_no_newline. rewrite !count_newlines_app in Z. lia. }
    apply everywhere_cons. split; [|split].
    + unfold one_line_begin, begin_cmd. intros _. apply count_zero_no_newline. unfold args_text. cbn [map concat fst snd]. fold (args_text args).
      rewrite show_scope_eq. rewrite !count_newlines_app in Z.
      rewrite !count_newlines_app, count_newlines_cons, !count_newlines_app.
      change (open1 Curly1 =? c_newline) with false. change (count_newlines [close1 Curly1]) with 0. cbv iota. lia.
    + cbn. constructor; [|exact (IHa Ea)]. exact Hlab.
    + apply everywhere_app. split; [exact (IHb Eb)|]. apply everywhere_cons. split; [|split; [|exact (IH Ed)]].
      * cbn. intros K. discriminate K.
      * cbn. constructor; [exact Hlab|constructor].
  - constructor.
  - intros pre cs cs' v args args' _ IHc _ IHa E. injection E as E1 E2. constructor; [exact (IHc E1)|exact (IHa E2)].
Qed.
Theorem back_identity_iff {E} p q s d1 d2 : 2 * (N.of_nat (length s) + 1) < two32 -> from_str1 p s = Ok d1 -> try_from2 p d1 = Ok d2 ->
  (@from2_to1 E q d2 = Ok d1 <-> one_line_begins d1).
Proof.
  intros B H1 H2. split; [|apply (back_identity p q s d1 d2 B H1 H2)].
  intros H. destruct (@back_restored E p q s d1 d2 B H1 H2) as (d' & Hd & R). assert (d1 = d') by congruence.
  pose proof (proj1 restored_fix _ _ R H0) as K. intros cs l args Hw Hc. specialize (K cs Hw). rewrite Forall_forall in K.
  exact (K _ Hc eq_refl).
Qed.
Theorem from2_to1_show_plain {E} p d d1 : every_label plain_label d -> @from2_to1 E p d = Ok d1 -> show1 d1 = show2 d.
Proof. intros H. apply from2_to1_show. intros cs l lab args body pb pe Hw Hc. apply plain_label_stable. exact (H _ _ _ _ _ _ _ Hw Hc). Qed.
