(** * Unnum3: line numbers and stage 3 *)
From Verif Require Import Base Ast1 Parse1 Ast2 Ast3 SpecUnnum Mono Unnum.
From Coq Require Import Lia Arith.

(** ** Display and sizes *)
Fixpoint ushow_chunk2 (c : chunk2) : show_chunk2 (unnumbered_chunk2 c) = show_chunk2 c
with ushow_scope2 (sc : scope2) : show_scope2 (unnumbered_scope2 sc) = show_scope2 sc.
Proof.
  - assert (A : forall args, concat (map (fun a => match a with (pre, sc) => pre ++ show_scope2 sc end) (map (fun a : str * scope2 => match a with (pre, sc) => (pre, unnumbered_scope2 sc) end) args)) =
      concat (map (fun a => match a with (pre, sc) => pre ++ show_scope2 sc end) args)).
    { induction args as [|[pre sc] args IH]; [reflexivity|]. cbn [map concat]. rewrite ushow_scope2, IH. reflexivity. }
    assert (B : forall cs, concat (map show_chunk2 (map unnumbered_chunk2 cs)) = concat (map show_chunk2 cs)).
    { induction cs as [|d cs IH]; [reflexivity|]. cbn [map concat]. rewrite ushow_chunk2, IH. reflexivity. }
    destruct c as [l [t|[lab args]|sc|[lab args content pb pe]]]; cbn [unnumbered_chunk2 unnumbered_variant2 unnumbered_command2 unnumbered_env2].
    + reflexivity.
    + change (show_command2 (mkCommand2 lab (map (fun a : str * scope2 => match a with (pre, sc) => (pre, unnumbered_scope2 sc) end) args)) = show_command2 (mkCommand2 lab args)).
      cbn [show_command2]. rewrite A. reflexivity.
    + apply ushow_scope2.
    + change (show_env2 (mkEnv2 lab (map (fun a : str * scope2 => match a with (pre, sc) => (pre, unnumbered_scope2 sc) end) args) (map unnumbered_chunk2 content) pb pe) = show_env2 (mkEnv2 lab args content pb pe)).
      cbn [show_env2]. rewrite A, B. reflexivity.
  - destruct sc as [cs v]. cbn [unnumbered_scope2 show_scope2].
    assert (B : concat (map show_chunk2 (map unnumbered_chunk2 cs)) = concat (map show_chunk2 cs)).
    { induction cs as [|d cs IH]; [reflexivity|]. cbn [map concat]. rewrite ushow_chunk2, IH. reflexivity. }
    rewrite B. reflexivity.
Qed.
Lemma ushow2 d : show2 (unnumbered2 d) = show2 d.
Proof. unfold show2, unnumbered2. rewrite map_map. f_equal. apply map_ext, ushow_chunk2. Qed.
Fixpoint usize_chunk2 (c : chunk2) : size_chunk2 (unnumbered_chunk2 c) = size_chunk2 c
with usize_scope2 (sc : scope2) : size_scope2 (unnumbered_scope2 sc) = size_scope2 sc.
Proof.
  - assert (A : forall args, list_sum (map (fun a => match a with (_, sc) => size_scope2 sc end) (map (fun a : str * scope2 => match a with (pre, sc) => (pre, unnumbered_scope2 sc) end) args)) =
      list_sum (map (fun a => match a with (_, sc) => size_scope2 sc end) args)).
    { induction args as [|[pre sc] args IH]; [reflexivity|]. cbn [map list_sum fold_right]. rewrite usize_scope2. f_equal. exact IH. }
    assert (B : forall cs, list_sum (map size_chunk2 (map unnumbered_chunk2 cs)) = list_sum (map size_chunk2 cs)).
    { induction cs as [|d cs IH]; [reflexivity|]. cbn [map list_sum fold_right]. rewrite usize_chunk2. f_equal. exact IH. }
    destruct c as [l [t|[lab args]|sc|[lab args content pb pe]]]; cbn [unnumbered_chunk2 unnumbered_variant2 unnumbered_command2 unnumbered_env2 size_chunk2 size_variant2]; f_equal.
    + cbn [size_command2]. rewrite A. reflexivity.
    + apply usize_scope2.
    + cbn [size_env2]. rewrite A, B. reflexivity.
  - destruct sc as [cs v]. cbn [unnumbered_scope2 size_scope2]. f_equal.
    induction cs as [|d cs IH]; [reflexivity|]. cbn [map list_sum fold_right]. rewrite usize_chunk2. f_equal. exact IH.
Qed.
Lemma usize2 d : size2 (unnumbered2 d) = size2 d.
Proof. unfold size2, unnumbered2. rewrite map_map. f_equal. apply map_ext, usize_chunk2. Qed.

(** ** Paragraphs *)
Definition uargs3 (args : list (str * scope3)) := map (fun a => match a with (pre, sc) => (pre, unnumbered_scope3 sc) end) args.
Definition doc3_eq (a b : list chunk3) : Prop := unnumbered3 a = unnumbered3 b.
Lemma unnumbered3_app a b : unnumbered3 (a ++ b) = unnumbered3 a ++ unnumbered3 b. Proof. apply map_app. Qed.
Lemma doc3_snoc a a' l l' v v' : doc3_eq a a' -> unnumbered_variant3 v = unnumbered_variant3 v' -> doc3_eq (a ++ [mkChunk3 l v]) (a' ++ [mkChunk3 l' v']).
Proof. unfold doc3_eq. intros H K. rewrite !unnumbered3_app, H. unfold unnumbered3. cbn [map unnumbered_chunk3]. now rewrite K. Qed.
Lemma doc2_snoc a a' l l' v v' : doc2_eq a a' -> unnumbered_variant2 v = unnumbered_variant2 v' -> doc2_eq (a ++ [mkChunk2 l v]) (a' ++ [mkChunk2 l' v']).
Proof. unfold doc2_eq. intros H K. rewrite !unnumbered2_app, H. unfold unnumbered2. cbn [map unnumbered_chunk2]. now rewrite K. Qed.
Section Stage3.
  Context (p q : profile) (b : bool) (Hb : b = true \/ (p = Release /\ q = Release)).
  Definition same_par (s s' : parstate) : Prop :=
    match s, s' with mkPar new _ text _ buf _ consec, mkPar new' _ text' _ buf' _ consec' =>
      doc3_eq new new' /\ text = text' /\ buf = buf' /\ consec = consec' end.
  Lemma sim_par_step {E} RE s s' c : same_par s s' -> sim RE b same_par (@par_step E p s c) (par_step q s' c).
  Proof.
    destruct s as [new line text tline buf bline consec], s' as [new' line' text' tline' buf' bline' consec']. intros (H1 & <- & <- & <-).
    assert (T : doc3_eq (if negb (is_empty text) then new ++ [mkChunk3 tline (Text3 text)] else new) (if negb (is_empty text) then new' ++ [mkChunk3 tline' (Text3 text)] else new')).
    { destruct (negb _); [|exact H1]. now apply doc3_snoc. }
    unfold par_step. destruct (_ && _).
    { eapply sim_bind; [apply sim_inc, Hb|]. intros x x' <-. eapply sim_bind; [apply sim_add, Hb|]. intros y y' _. apply sim_ok. repeat split. exact T. }
    destruct (c =? c_newline).
    { eapply sim_bind; [apply sim_inc, Hb|]. intros x x' <-. eapply sim_bind; [apply sim_add, Hb|]. intros y y' _. apply sim_ok. repeat split. exact H1. }
    destruct (_ && _); [apply sim_ok; repeat split; exact H1|]. destruct (is_whitespace c); [apply sim_ok; repeat split; exact H1|].
    destruct (consec =? 0)%Z; [apply sim_ok; repeat split; exact H1|]. destruct (consec =? 1)%Z; [apply sim_ok; repeat split; exact H1|].
    apply sim_ok. repeat split. now apply doc3_snoc.
  Qed.
  Lemma same_par_finish s s' : same_par s s' -> doc3_eq (par_finish s) (par_finish s').
  Proof.
    destruct s as [new line text tline buf bline consec], s' as [new' line' text' tline' buf' bline' consec']. intros (H1 & <- & <- & <-). unfold par_finish.
    destruct (negb (is_empty buf)).
    - destruct (_ >? _)%Z; [now apply doc3_snoc|]. destruct (negb _); [now apply doc3_snoc|exact H1].
    - destruct (negb (is_empty text)); [|exact H1]. destruct (negb _); [now apply doc3_snoc|exact H1].
  Qed.
  Lemma sim_par {E} RE cs cs' : doc3_eq cs cs' -> sim RE b doc3_eq (@paragraph_from_chunks E p cs) (paragraph_from_chunks q cs').
  Proof.
    intros H. unfold paragraph_from_chunks. eapply (sim_foldM _ _ doc3_eq); [apply (map_eq_Forall2 unnumbered_chunk3), H| |reflexivity].
    intros s s' [l v] [l' v'] Hs Hv. cbv beta in Hv. cbn [unnumbered_chunk3] in Hv. injection Hv as Hv. unfold par_chunk.
    destruct v as [t|t|m|c|sc|e], v' as [t'|t'|m'|c'|sc'|e']; cbn [unnumbered_variant3] in Hv; try discriminate; try (apply sim_ok, doc3_snoc; [exact Hs|exact Hv]).
    all: injection Hv as <-. all: try (apply sim_ok, doc3_snoc; [exact Hs|reflexivity]).
    eapply sim_bind; [|intros x x' Hx; apply sim_ok, same_par_finish, Hx].
    eapply (sim_foldM _ _ same_par _ _ _ t t); [clear; induction t; constructor; [reflexivity|assumption]| |repeat split; exact Hs].
    intros x x' c c' Hx <-. now apply sim_par_step.
  Qed.
  Lemma sim_add_eq {E} RE x y : sim RE b eq (@add32 E p x y) (add32 q x y).
  Proof.
    unfold add32. destruct (_ <? _); [right; reflexivity|]. unfold overflow32. destruct Hb as [->|[-> ->]]; [|right; reflexivity].
    destruct p; [left; auto|]. destruct q; [left; auto|right; reflexivity].
  Qed.
  Lemma sim_sub_eq {E} RE x y : sim RE b eq (@sub32 E p x y) (sub32 q x y).
  Proof.
    unfold sub32. destruct (_ <=? _); [right; reflexivity|]. unfold overflow32. destruct Hb as [->|[-> ->]]; [|right; reflexivity].
    destruct p; [left; auto|]. destruct q; [left; auto|right; reflexivity].
  Qed.

  (** ** Maths *)
  Context (r r' : list chunk2 -> outcome error (list chunk3)).
  Hypothesis Hr : forall cs cs', doc2_eq cs cs' -> sim sameE b doc3_eq (r cs) (r' cs').
  Lemma sim_scope3 sc sc' : unnumbered_scope2 sc = unnumbered_scope2 sc' -> sim sameE b (fun a c => unnumbered_scope3 a = unnumbered_scope3 c) (scope3_try_from p r sc) (scope3_try_from q r' sc').
  Proof.
    destruct sc as [cs v], sc' as [cs' v']. intros H. injection H as H <-. unfold scope3_try_from. eapply sim_bind; [apply Hr, H|]. intros x x' Hx.
    eapply sim_bind; [apply sim_par, Hx|]. intros y y' Hy. apply sim_ok. cbn [unnumbered_scope3]. f_equal. exact Hy.
  Qed.
  Lemma sim_args3 args args' : uargs2 args = uargs2 args' -> sim sameE b (fun a c => uargs3 a = uargs3 c) (args3_try_from p r args) (args3_try_from q r' args').
  Proof.
    intros H. apply map_eq_Forall2 in H. unfold args3_try_from. eapply sim_weaken; [|eapply (sim_mapM _ _ (fun a c => match a, c with (pre, sc), (pre', sc') => (pre, unnumbered_scope3 sc) = (pre', unnumbered_scope3 sc') end)); [exact H|]].
    - intros a a' Ha. apply map_eq_Forall2. eapply Forall2_weaken; [|exact Ha]. intros [] []; auto.
    - intros [pre sc] [pre' sc'] _ Ha. assert (pre' = pre /\ unnumbered_scope2 sc = unnumbered_scope2 sc') as [-> Hs] by (split; congruence).
      eapply sim_bind; [exact (sim_scope3 _ _ Hs)|]. intros x x' Hx. apply sim_ok. now rewrite Hx.
  Qed.
  Lemma sim_command3 c c' : unnumbered_command2 c = unnumbered_command2 c' -> sim sameE b (fun a c => unnumbered_command3 a = unnumbered_command3 c) (command3_try_from p r c) (command3_try_from q r' c').
  Proof.
    destruct c as [lab args], c' as [lab' args']. intros H. injection H as <- H. unfold command3_try_from. eapply sim_bind; [apply sim_args3, H|]. intros x x' Hx. apply sim_ok.
    cbn [unnumbered_command3]. f_equal. exact Hx.
  Qed.
  Lemma sim_env3 e e' : unnumbered_env2 e = unnumbered_env2 e' -> sim sameE b (fun a c => unnumbered_env3 a = unnumbered_env3 c) (env3_try_from p r e) (env3_try_from q r' e').
  Proof.
    destruct e as [lab args content pb pe], e' as [lab' args' content' pb' pe']. intros H. injection H as <- Ha Hc <- <-. unfold env3_try_from. eapply sim_bind; [apply sim_args3, Ha|]. intros x x' Hx.
    eapply sim_bind; [apply Hr, Hc|]. intros y y' Hy. eapply sim_bind; [apply sim_par, Hy|]. intros z z' Hz. apply sim_ok. cbn [unnumbered_env3]. f_equal; [exact Hx|exact Hz].
  Qed.
  Definition same_m (s s' : mstate) : Prop :=
    doc3_eq (ms_out s) (ms_out s') /\ ms_mode s = ms_mode s' /\ ms_depth s = ms_depth s' /\ doc2_eq (ms_buffer s) (ms_buffer s').
  Definition same_mt (m m' : mtext) : Prop := same_m (mt_st m) (mt_st m') /\ mt_text m = mt_text m'.
  Lemma same_push_str m m' : same_mt m m' -> same_mt (mt_push_str m) (mt_push_str m').
  Proof.
    intros [(H1 & H2 & H3 & H4) H5]. unfold mt_push_str. rewrite <- H5. destruct (negb _); [|split; [repeat split; assumption|exact H5]].
    split; [|reflexivity]. cbn [mt_st m_push_out]. unfold m_push_out, same_m. cbn [ms_out ms_mode ms_depth ms_buffer]. split; [|repeat split; assumption]. now apply doc3_snoc.
  Qed.
  Lemma sim_close m m' t : same_mt m m' -> sim sameE b same_mt (mt_close p r m t) (mt_close q r' m' t).
  Proof.
    intros [(H1 & H2 & H3 & H4) H5]. unfold mt_close. rewrite <- H5.
    assert (HB : doc2_eq (if negb (is_empty (mt_text m)) then ms_buffer (mt_st m) ++ [mkChunk2 (mt_line m) (Text2 (mt_text m))] else ms_buffer (mt_st m))
      (if negb (is_empty (mt_text m)) then ms_buffer (mt_st m') ++ [mkChunk2 (mt_line m') (Text2 (mt_text m))] else ms_buffer (mt_st m'))) by (destruct (negb _); [now apply doc2_snoc|exact H4]).
    cbv zeta. eapply sim_bind.
    - eapply sim_mapM; [apply (map_eq_Forall2 unnumbered_chunk2), HB|]. intros [l v] [l' v'] _ Hv. cbv beta in Hv. eapply sim_bind; [apply sim_sub, Hb|]. intros x x' _.
      eapply sim_bind; [apply sim_sub, Hb|]. intros y y' _. apply (sim_ok _ _ (fun a c => unnumbered_chunk2 a = unnumbered_chunk2 c)). exact Hv.
    - intros x x' Hx. eapply sim_bind; [apply Hr; apply (map_eq_Forall2 unnumbered_chunk2), Hx|]. intros y y' Hy. apply sim_ok. split; [|reflexivity].
      cbn [mt_st]. unfold same_m. cbn [ms_out ms_mode ms_depth ms_buffer]. split; [|repeat split; assumption]. apply doc3_snoc; [exact H1|]. cbn [unnumbered_variant3 unnumbered_maths3]. do 2 f_equal. exact Hy.
  Qed.
  Lemma same_mode m m' md : same_mt m m' -> same_mt (mt_set_mode m md) (mt_set_mode m' md).
  Proof. intros [(H1 & H2 & H3 & H4) H5]. repeat split; assumption. Qed.
  Lemma doc2_empty a a' : doc2_eq a a' -> is_empty a = is_empty a'.
  Proof. unfold doc2_eq. destruct a, a'; try discriminate; reflexivity. Qed.
  Lemma sim_mt_step m m' c : same_mt m m' -> sim sameE b same_mt (mt_step p r m c) (mt_step q r' m' c).
  Proof.
    intros H. unfold mt_step. eapply (sim_bind _ _ same_mt).
    { destruct (c =? c_newline); [|apply sim_ok, H]. eapply sim_bind; [apply sim_add, Hb|]. intros x x' _. apply sim_ok. exact H. }
    clear m m' H. intros m m' H. pose proof H as [(H1 & H2 & H3 & H4) H5]. destruct (c =? c_dollar).
    - rewrite <- H2. destruct (ms_mode (mt_st m)) as [[]|[]| |].
      + apply sim_ok, H.
      + rewrite <- H5, <- (doc2_empty _ _ H4). destruct (_ && _); [apply sim_ok, same_mode, H|apply sim_close, H].
      + apply sim_ok, H.
      + apply sim_ok, same_mode, H.
      + apply sim_close, H.
      + apply sim_ok. pose proof (same_mode _ _ (SingleDollar Dollars) (same_push_str _ _ H)) as [K1 K2]. split; [exact K1|exact K2].
    - apply sim_ok. split; [exact (proj1 H)|]. cbn [mt_text]. now rewrite H5.
  Qed.
  Lemma sim_m_text s s' l l' t : same_m s s' -> sim sameE b same_m (m_text p r s l t) (m_text q r' s' l' t).
  Proof.
    intros H. unfold m_text. eapply sim_bind; [|intros x x' Hx; apply sim_ok, (proj1 (same_push_str _ _ Hx))].
    eapply (sim_foldM _ _ same_mt _ _ _ t t); [clear; induction t; constructor; [reflexivity|assumption]| |split; [exact H|reflexivity]].
    intros x x' c c' Hx <-. now apply sim_mt_step.
  Qed.
  Lemma same_out s s' l l' v v' : same_m s s' -> unnumbered_variant3 v = unnumbered_variant3 v' -> same_m (m_push_out s (mkChunk3 l v)) (m_push_out s' (mkChunk3 l' v')).
  Proof. intros (H1 & H2 & H3 & H4) H. unfold m_push_out, same_m. cbn [ms_out ms_mode ms_depth ms_buffer]. split; [now apply doc3_snoc|repeat split; assumption]. Qed.
  Lemma same_buf s s' l l' v v' : same_m s s' -> unnumbered_variant2 v = unnumbered_variant2 v' -> same_m (m_push_buffer s (mkChunk2 l v)) (m_push_buffer s' (mkChunk2 l' v')).
  Proof. intros (H1 & H2 & H3 & H4) H. unfold m_push_buffer, same_m. cbn [ms_out ms_mode ms_depth ms_buffer]. split; [exact H1|]. repeat split; try assumption. now apply doc2_snoc. Qed.
  Lemma sim_close_br s s' t : same_m s s' -> sim sameE b same_m (m_close_brackets r s t) (m_close_brackets r' s' t).
  Proof.
    intros (H1 & H2 & H3 & H4). unfold m_close_brackets. eapply sim_bind; [apply Hr, H4|]. intros x x' Hx. apply sim_ok. unfold same_m. cbn [ms_out ms_mode ms_depth ms_buffer].
    split; [|repeat split]. apply doc3_snoc; [exact H1|]. cbn [unnumbered_variant3 unnumbered_maths3]. do 2 f_equal. exact Hx.
  Qed.
  Lemma sim_m_step s s' c c' : same_m s s' -> unnumbered_chunk2 c = unnumbered_chunk2 c' -> sim sameE b same_m (m_step p r s c) (m_step q r' s' c').
  Proof.
    intros S H. destruct c as [l v], c' as [l' v']. assert (Hv : unnumbered_variant2 v = unnumbered_variant2 v') by (cbn [unnumbered_chunk2] in H; congruence). clear H.
    pose proof S as (S1 & S2 & S3 & S4). unfold m_step. rewrite <- S2, <- S3. cbv zeta.
    assert (SD : forall d, same_m (m_set_depth s d) (m_set_depth s' d)) by (intros d; unfold m_set_depth, same_m; cbn [ms_out ms_mode ms_depth ms_buffer]; repeat split; assumption).
    destruct v as [t|cm|sc|e], v' as [t'|cm'|sc'|e']; try (cbn [unnumbered_variant2] in Hv; discriminate).
    - assert (t' = t) as -> by (cbn [unnumbered_variant2] in Hv; congruence). destruct (negb _); [now apply sim_m_text|]. apply sim_ok, same_buf; auto.
    - assert (Hc : unnumbered_command2 cm = unnumbered_command2 cm') by (cbn [unnumbered_variant2] in Hv; congruence).
      assert (Hl : label2 cm' = label2 cm) by (destruct cm, cm'; cbn [unnumbered_command2 label2] in *; congruence). rewrite Hl.
      destruct (_ && _); [apply sim_err; reflexivity|].
      destruct (_ && _); [apply sim_ok; repeat split; assumption|].
      destruct (_ && _); [apply sim_ok; repeat split; assumption|].
      destruct (_ && _); [eapply sim_bind; [apply sim_add_eq|]; intros x x' <-; apply sim_ok, SD|].
      destruct (_ && _); [eapply sim_bind; [apply sim_add_eq|]; intros x x' <-; apply sim_ok, SD|].
      destruct (_ && _); [apply sim_close_br, S|].
      destruct (_ && _); [apply sim_close_br, S|].
      destruct (_ && _); [eapply sim_bind; [apply sim_sub_eq|]; intros x x' <-; apply sim_ok, SD|].
      destruct (_ && _); [eapply sim_bind; [apply sim_sub_eq|]; intros x x' <-; apply sim_ok, SD|].
      destruct (is_none _); [|apply sim_ok, same_buf; auto].
      eapply sim_bind; [apply sim_command3, Hc|]. intros x x' Hx. apply sim_ok, same_out; [exact S|]. cbn [unnumbered_variant3]. f_equal. exact Hx.
    - destruct (is_none _); [|apply sim_ok, same_buf; auto]. assert (Hs : unnumbered_scope2 sc = unnumbered_scope2 sc') by (cbn [unnumbered_variant2] in Hv; congruence).
      eapply sim_bind; [apply sim_scope3, Hs|]. intros x x' Hx. apply sim_ok, same_out; [exact S|]. cbn [unnumbered_variant3]. f_equal. exact Hx.
    - destruct (is_none _); [|apply sim_ok, same_buf; auto]. assert (Hs : unnumbered_env2 e = unnumbered_env2 e') by (cbn [unnumbered_variant2] in Hv; congruence).
      eapply sim_bind; [apply sim_env3, Hs|]. intros x x' Hx. apply sim_ok, same_out; [exact S|]. cbn [unnumbered_variant3]. f_equal. exact Hx.
  Qed.
  Lemma sim_m_finish s s' : same_m s s' -> sim sameE b doc3_eq (m_finish p s) (m_finish q s').
  Proof. intros (S1 & S2 & S3 & S4). unfold m_finish. rewrite <- S2. destruct (negb _); [apply sim_err; reflexivity|now apply sim_par]. Qed.
End Stage3.
Lemma sim_maths_fuel p q b : b = true \/ (p = Release /\ q = Release) -> forall n d d', doc2_eq d d' -> sim sameE b doc3_eq (maths_fuel n p d) (maths_fuel n q d').
Proof.
  intros Hb n. induction n as [|n IH]; intros d d' H; [right; exact I|]. cbn [maths_fuel]. eapply sim_bind.
  - eapply (sim_foldM _ _ same_m); [apply (map_eq_Forall2 unnumbered_chunk2), H| |repeat split]. intros s s' c c' Hs Hc. apply sim_m_step; assumption.
  - intros x x' Hx. now apply sim_m_finish.
Qed.
Lemma sim_maths p q b d d' : b = true \/ (p = Release /\ q = Release) -> doc2_eq d d' -> sim sameE b doc3_eq (maths_from_chunks p d) (maths_from_chunks q d').
Proof. intros Hb H. unfold maths_from_chunks. rewrite <- (usize2 d), H, (usize2 d'). now apply sim_maths_fuel. Qed.

(** ** Documents *)
Section Doc.
  Context (p q : profile) (b : bool) (Hb : b = true \/ (p = Release /\ q = Release)).
  Definition same_doc (d d' : document3) : Prop := unnumbered_document3 d = unnumbered_document3 d'.
  Definition same_d (s s' : dstate) : Prop :=
    same_doc (ds_construct s) (ds_construct s') /\ doc2_eq (ds_pre s) (ds_pre s') /\ doc2_eq (ds_trail s) (ds_trail s') /\ ds_trailing s = ds_trailing s'.
  Lemma same_doc_iff d d' : same_doc d d' <-> d_class d = d_class d' /\ d_options d = d_options d' /\ doc3_eq (d_preamable d) (d_preamable d') /\ doc3_eq (d_body d) (d_body d') /\
    uargs3 (d_body_args d) = uargs3 (d_body_args d') /\ d_begin_prec d = d_begin_prec d' /\ d_end_prec d = d_end_prec d' /\ doc3_eq (d_trailing d) (d_trailing d').
  Proof.
    unfold same_doc, unnumbered_document3. fold (uargs3 (d_body_args d)) (uargs3 (d_body_args d')). unfold doc3_eq. split.
    - intros H. injection H as -> -> -> -> -> -> -> ->. repeat split.
    - intros (-> & -> & -> & -> & -> & -> & -> & ->). reflexivity.
  Qed.
  Lemma same_pre s s' l l' v v' : same_d s s' -> unnumbered_variant2 v = unnumbered_variant2 v' -> same_d (d_push_pre s (mkChunk2 l v)) (d_push_pre s' (mkChunk2 l' v')).
  Proof. intros (H1 & H2 & H3 & H4) H. unfold d_push_pre, same_d. cbn [ds_construct ds_pre ds_trail ds_trailing]. split; [exact H1|]. split; [now apply doc2_snoc|]. split; assumption. Qed.
  Lemma same_other s s' l l' v v' : same_d s s' -> unnumbered_variant2 v = unnumbered_variant2 v' -> same_d (d_push_other s (mkChunk2 l v)) (d_push_other s' (mkChunk2 l' v')).
  Proof.
    intros S H. pose proof S as (H1 & H2 & H3 & H4). unfold d_push_other. rewrite <- H4. destruct (negb _); [now apply same_pre|]. unfold same_d. cbn [ds_construct ds_pre ds_trail ds_trailing].
    split; [exact H1|]. split; [exact H2|]. split; [now apply doc2_snoc|reflexivity].
  Qed.
  Lemma sim_d_step s s' c c' : same_d s s' -> unnumbered_chunk2 c = unnumbered_chunk2 c' -> sim sameE b same_d (d_step p s c) (d_step q s' c').
  Proof.
    intros S H. destruct c as [l v], c' as [l' v']. assert (Hv : unnumbered_variant2 v = unnumbered_variant2 v') by (cbn [unnumbered_chunk2] in H; congruence). clear H.
    pose proof S as (S1 & S2 & S3 & S4). pose proof (proj1 (same_doc_iff _ _) S1) as (D1 & D2 & D3 & D4 & D5 & D6 & D7 & D8).
    unfold d_step. destruct v as [t|cm|sc|e], v' as [t'|cm'|sc'|e']; try (cbn [unnumbered_variant2] in Hv; discriminate); try (apply sim_ok, same_other; assumption).
    - assert (Hc : unnumbered_command2 cm = unnumbered_command2 cm') by (cbn [unnumbered_variant2] in Hv; congruence).
      assert (Hl : label2 cm' = label2 cm) by (destruct cm, cm'; cbn [unnumbered_command2 label2] in *; congruence). rewrite Hl, <- S4.
      destruct (_ && _); [|apply sim_ok, same_other; assumption]. cbv zeta. rewrite <- D1, <- D2. destruct (d_class _) as [cl|] eqn:Ecl; [apply sim_err; reflexivity|].
      eapply (sim_bind _ _ eq).
      + assert (Ha : uargs2 (arguments2 cm) = uargs2 (arguments2 cm')) by (destruct cm, cm'; injection Hc as _ Hc; exact Hc).
        apply map_eq_Forall2 in Ha. eapply (sim_foldM _ _ eq); [exact Ha| |reflexivity].
        intros x x' [pre [cs w]] [pre' [cs' w']] <- K. cbv beta in K. injection K as <- K <-. unfold class_arg_step. destruct x as [cls opts].
        assert (Hshow : show2 cs = show2 cs') by (rewrite <- (ushow2 cs), <- (ushow2 cs'); unfold unnumbered2; now rewrite K). rewrite Hshow.
        destruct w; try (right; reflexivity). destruct cls; right; reflexivity.
      + intros x x' <-. apply sim_ok, same_pre; [|exact Hv]. unfold same_d. cbn [ds_construct ds_pre ds_trail ds_trailing]. split; [|repeat split; assumption].
        apply same_doc_iff. cbn [d_class d_options d_preamable d_body d_body_args d_begin_prec d_end_prec d_trailing]. repeat split; assumption.
    - assert (Hs : unnumbered_env2 e = unnumbered_env2 e') by (cbn [unnumbered_variant2] in Hv; congruence).
      assert (Hl : env_label2 e' = env_label2 e) by (destruct e, e'; cbn [unnumbered_env2 env_label2] in *; congruence). rewrite Hl.
      destruct (str_eqb _ _); [|apply sim_ok, same_other; assumption].
      eapply sim_bind; [eapply (sim_env3 p q b Hb (maths_from_chunks p) (maths_from_chunks q)); [intros; now apply sim_maths|exact Hs]|].
      intros [lab args content pb pe] [lab' args' content' pb' pe'] K. cbv beta in K. injection K as _ Ka Kc <- <-. apply sim_ok. unfold same_d. cbn [ds_construct ds_pre ds_trail ds_trailing]. split; [|repeat split; assumption].
      apply same_doc_iff. cbn [d_class d_options d_preamable d_body d_body_args d_begin_prec d_end_prec d_trailing]. repeat split; assumption.
  Qed.
  Lemma sim_try_from3 d d' : doc2_eq d d' -> sim sameE b same_doc (try_from3 p d) (try_from3 q d').
  Proof.
    intros H. unfold try_from3. eapply sim_bind.
    - eapply (sim_foldM _ _ same_d); [apply (map_eq_Forall2 unnumbered_chunk2), H| |repeat split]. intros; now apply sim_d_step.
    - intros s s' (S1 & S2 & S3 & S4). pose proof (proj1 (same_doc_iff _ _) S1) as (D1 & D2 & D3 & D4 & D5 & D6 & D7 & D8). cbv zeta.
      eapply sim_bind; [apply sim_maths; [exact Hb|exact S2]|]. intros x x' Hx. eapply sim_bind; [apply sim_par; [exact Hb|exact Hx]|]. intros y y' Hy.
      eapply sim_bind; [apply sim_maths; [exact Hb|exact S3]|]. intros z z' Hz. eapply sim_bind; [apply sim_par; [exact Hb|exact Hz]|]. intros w w' Hw.
      apply sim_ok, same_doc_iff. cbn [d_class d_options d_preamable d_body d_body_args d_begin_prec d_end_prec d_trailing]. repeat split; assumption.
  Qed.
End Doc.
