(** * MathsFwd: on tidy lists maths recognition keeps the text *)
From Verif Require Import Base Ast1 Parse1 Ast2 Ast3 SpecDoc1 SpecDoc2 SpecDoc3 SpecPar3 SpecMaths3
  Tok Refine1 Ind Lines Facts1 Valid1 Valid2 Valid3 Eqb Conv2 Par3 Maths3 Order.
Open Scope N_scope.



(** [a] is [b] exactly when [P], and otherwise [a] is strictly smaller *)
Definition exact_on (a b : str) (P : Prop) : Prop := (a = b /\ P) \/ (strictly_below a b /\ ~ P).
Lemma exact_below a b P : exact_on a b P -> below a b.
Proof. intros [[-> _]|[H _]]; [apply below_refl|now apply strict_below]. Qed.
Lemma exact_app a b P c d Q : exact_on a b P -> exact_on c d Q -> exact_on (a ++ c) (b ++ d) (P /\ Q).
Proof.
  intros [[-> HP]|[H HP]] [[-> HQ]|[K HQ]].
  - left. auto.
  - right. split; [apply strict_app_r; [apply below_refl|exact K]|tauto].
  - right. split; [apply strict_app_l; [exact H|apply below_refl]|tauto].
  - right. split; [apply strict_app_l; [exact H|now apply strict_below]|tauto].
Qed.
Lemma exact_refl a (P : Prop) : P -> exact_on a a P.
Proof. intros H. now left. Qed.
Lemma exact_mono a b P Q : (P <-> Q) -> exact_on a b P -> exact_on a b Q.
Proof. intros H [[-> HP]|[K HP]]; [left|right]; tauto. Qed.
Lemma exact_pre x a b P : exact_on a b P -> exact_on (x ++ a) (x ++ b) P.
Proof. intros H. eapply exact_mono; [|apply exact_app; [apply (exact_refl x True I)|exact H]]. tauto. Qed.
Lemma exact_post x a b P : exact_on a b P -> exact_on (a ++ x) (b ++ x) P.
Proof. intros H. eapply exact_mono; [|apply exact_app; [exact H|apply (exact_refl x True I)]]. tauto. Qed.
Lemma exact_iff a b P : exact_on a b P -> (a = b <-> P).
Proof. intros [[-> HP]|[K HP]]; [tauto|]. apply strict_irrefl in K. tauto. Qed.

Definition small (s : str) : Prop := nl s < 2147483648.
Lemma small_app a b : small (a ++ b) -> small a /\ small b.
Proof. unfold small. rewrite nl_app. lia. Qed.
Lemma small_below a b : below a b -> small b -> small a.
Proof. unfold small. intros [_ H]. lia. Qed.

Section Conv.
  Context (p : profile) (rec : list chunk2 -> outcome error (list chunk3)).
  Definition good_rec : Prop := forall cs out, small (show2 cs) -> rec cs = Ok out ->
    exact_on (show_chunks3 out) (show2 cs) (tidy (atoms cs)).
  Context (GR : good_rec).
  Lemma rec_par cs out out' : small (show2 cs) -> rec cs = Ok out -> paragraph_from_chunks (E:=error) p out = Ok out' ->
    exact_on (show_chunks3 out') (show2 cs) (tidy (atoms cs)).
  Proof.
    intros B H K. pose proof (GR cs out B H) as X. apply paragraph_show_any in K.
    - now rewrite K.
    - apply exact_below in X. apply (small_below _ _ X B).
  Qed.
  Lemma scope_exact s s3 : small (show_scope2 s) -> scope3_try_from p rec s = Ok s3 ->
    exact_on (show_scope3 s3) (show_scope2 s) (tidy (atoms (match s with mkScope2 cs _ => cs end))).
  Proof.
    destruct s as [cs v]. unfold scope3_try_from. intros B. destruct (rec cs) as [o|e| |] eqn:Er; cbn [bind]; try discriminate.
    destruct (paragraph_from_chunks p o) as [o'|e| |] eqn:Ep; cbn [bind]; try discriminate. intros E. injection E as <-.
    change (show_scope2 (mkScope2 cs v)) with ([open2 v] ++ show2 cs ++ [close2 v]) in *.
    change (show_scope3 (mkScope3 o' (sv3_of_sv2 v))) with ([open3 (sv3_of_sv2 v)] ++ show_chunks3 o' ++ [close3 (sv3_of_sv2 v)]).
    replace (open3 (sv3_of_sv2 v)) with (open2 v) by now destruct v. replace (close3 (sv3_of_sv2 v)) with (close2 v) by now destruct v.
    apply exact_pre, exact_post. apply small_app in B as [_ B]. apply small_app in B as [B _]. eapply rec_par; eassumption.
  Qed.
  Lemma args_exact args : forall args3, small (show_args2 args) -> args3_try_from p rec args = Ok args3 ->
    exact_on (show_args3 args3) (show_args2 args) (forall pre cs v, In (pre, mkScope2 cs v) args -> tidy (atoms cs)).
  Proof.
    unfold args3_try_from. induction args as [|[pre s] args IH]; intros args3 B H; cbn [mapM] in H.
    - injection H as <-. apply exact_refl. intros ? ? ? [].
    - destruct (scope3_try_from p rec s) as [s3|e| |] eqn:Es; cbn [bind] in H; try discriminate.
      destruct (mapM _ args) as [a3|e| |] eqn:Ea; cbn [bind] in H; try discriminate. injection H as <-.
      change (show_args2 ((pre, s) :: args)) with ((pre ++ show_scope2 s) ++ show_args2 args) in *.
      change (show_args3 ((pre, s3) :: a3)) with ((pre ++ show_scope3 s3) ++ show_args3 a3).
      apply small_app in B as [B1 B2]. apply small_app in B1 as [_ B1].
      eapply exact_mono; [|apply exact_app; [apply exact_pre; eapply scope_exact; eassumption|apply IH; [exact B2|reflexivity]]].
      destruct s as [cs v]. split.
      + intros [H1 H2] pre' cs' v' [K|K]; [injection K as <- <- <-; exact H1|eauto].
      + intros H. split; [eapply H; now left|]. intros. eapply H. right. eassumption.
  Qed.
  Lemma conv_exact v v3 : small (show_variant2 v) -> conv_variant p rec v = Ok v3 ->
    exact_on (show_variant3 v3) (show_variant2 v) (forall cs, inside v cs -> tidy (atoms cs)).
  Proof.
    intros B. destruct v as [s|[lab args]|s|[lab args content pb pe]]; cbn [conv_variant].
    - intros E. injection E as <-. apply exact_refl. intros cs H. inversion H.
    - unfold command3_try_from. destruct (args3_try_from p rec args) as [a3|e| |] eqn:Ea; cbn [bind]; try discriminate. intros E. injection E as <-.
      change (show_variant2 (Command2 (mkCommand2 lab args))) with ((c_bslash :: lab) ++ show_args2 args) in *.
      change (show_variant3 (Command3 (mkCommand3 lab a3))) with ((c_bslash :: lab) ++ show_args3 a3).
      apply exact_pre. apply small_app in B as [_ B]. eapply exact_mono; [|eapply args_exact; eassumption].
      split; intros H; [intros cs Hc; inversion Hc; subst; eauto|]. intros pre cs v Hi. apply H. econstructor; eassumption.
    - destruct (scope3_try_from p rec s) as [s3|e| |] eqn:Es; cbn [bind]; try discriminate. intros E. injection E as <-.
      change (show_variant2 (Scope2 s)) with (show_scope2 s) in *.
      change (show_variant3 (Scope3 s3)) with (show_scope3 s3). eapply exact_mono; [|eapply scope_exact; eassumption].
      destruct s as [cs v]. split; intros H; [intros cs' Hc; inversion Hc; subst; exact H|apply H; constructor].
    - unfold env3_try_from. destruct (args3_try_from p rec args) as [a3|e| |] eqn:Ea; cbn [bind]; try discriminate.
      destruct (rec content) as [o|e| |] eqn:Er; cbn [bind]; try discriminate.
      destruct (paragraph_from_chunks p o) as [o'|e| |] eqn:Ep; cbn [bind]; try discriminate. intros E. injection E as <-.
      replace (show_variant2 (Environment2 (mkEnv2 lab args content pb pe))) with
        (((c_bslash :: s_begin) ++ pb ++ [c_lcurly] ++ lab ++ [c_rcurly]) ++ show_args2 args ++ show2 content ++ ((c_bslash :: s_end) ++ pe ++ [c_lcurly] ++ lab ++ [c_rcurly])) in * by (rewrite <- !app_assoc; reflexivity).
      replace (show_variant3 (Environment3 (mkEnv3 lab a3 o' pb pe))) with
        (((c_bslash :: s_begin) ++ pb ++ [c_lcurly] ++ lab ++ [c_rcurly]) ++ show_args3 a3 ++ show_chunks3 o' ++ ((c_bslash :: s_end) ++ pe ++ [c_lcurly] ++ lab ++ [c_rcurly])) by (rewrite <- !app_assoc; reflexivity).
      apply exact_pre. apply small_app in B as [_ B]. apply small_app in B as [B1 B2]. apply small_app in B2 as [B2 _].
      eapply exact_mono; [|apply exact_app; [eapply args_exact; eassumption|apply exact_post; eapply rec_par; eassumption]].
      split.
      + intros [H1 H2] cs Hc. inversion Hc; subst; eauto.
      + intros H. split; [|apply H; constructor]. intros pre cs v Hi. apply H. econstructor; eassumption.
  Qed.

  (** ** The machine on a tidy list *)
  (** texts are bracketed by their edges *)
  Fixpoint wf_run (b : bool) (M : list matom) : option bool :=
    match M with
    | [] => Some b
    | a :: M' => match a, b with
                 | MB _, false => wf_run true M'
                 | MC _, true => wf_run true M'
                 | ME _, true => wf_run false M'
                 | MO _ v, false => match v with Text2 _ => None | _ => wf_run false M' end
                 | _, _ => None
                 end
    end.
  Lemma wf_run_app M1 : forall b M2, wf_run b (M1 ++ M2) = match wf_run b M1 with Some b' => wf_run b' M2 | None => None end.
  Proof.
    induction M1 as [|[l|c|l|l v] M1 IH]; intros b M2; cbn [app wf_run]; [reflexivity| | | |]; destruct b; try reflexivity; try apply IH.
    destruct v; try reflexivity; apply IH.
  Qed.
  Lemma wf_matoms cs : wf_run false (matoms cs) = Some false.
  Proof.
    unfold matoms. induction cs as [|[l v] cs IH]; [reflexivity|]. cbn [map concat]. rewrite wf_run_app.
    replace (wf_run false (matoms_chunk (mkChunk2 l v))) with (Some false); [exact IH|].
    destruct v; try reflexivity. cbn [matoms_chunk wf_run]. rewrite wf_run_app.
    replace (wf_run true (map MC s)) with (Some true); [reflexivity|]. induction s; [reflexivity|assumption].
  Qed.

  Definition V (m : mtext) : str := show_chunks3 (ms_out (mt_st m)) ++ mt_text m.
  Definition idle (b : bool) (m : mtext) : Prop :=
    ms_mode (mt_st m) = MNone /\ ms_buffer (mt_st m) = [] /\ (b = false -> mt_text m = []).
  Lemma kind_plain v : plain v <-> kind v = None.
  Proof.
    unfold plain, has_label, kind. split.
    - intros H. destruct v as [s|[lab args]|s|e]; try reflexivity.
      destruct (str_eqb lab [c_lround]) eqn:E1; [apply str_eqb_iff in E1; subst; exfalso; destruct (H Inline) as [N1 N2]; solve [apply N1; eexists; reflexivity|apply N2; eexists; reflexivity]|].
      destruct (str_eqb lab [c_lsquare]) eqn:E2; [apply str_eqb_iff in E2; subst; exfalso; destruct (H Outline) as [N1 N2]; solve [apply N1; eexists; reflexivity|apply N2; eexists; reflexivity]|].
      destruct (str_eqb lab [c_rround]) eqn:E3; [apply str_eqb_iff in E3; subst; exfalso; destruct (H Inline) as [N1 N2]; solve [apply N1; eexists; reflexivity|apply N2; eexists; reflexivity]|].
      destruct (str_eqb lab [c_rsquare]) eqn:E4; [apply str_eqb_iff in E4; subst; exfalso; destruct (H Outline) as [N1 N2]; solve [apply N1; eexists; reflexivity|apply N2; eexists; reflexivity]|]. reflexivity.
    - intros H t. split; intros [args ->]; destruct t; discriminate H.
  Qed.
  Lemma push_str_V m : V (mt_push_str m) = V m.
  Proof.
    unfold V, mt_push_str. destruct (mt_text m) as [|c t] eqn:Et; cbn [is_empty negb]; [now rewrite Et|].
    cbn [mt_st mt_text m_push_out ms_out]. rewrite show_chunks3_app, show_chunks3_one, app_nil_r. reflexivity.
  Qed.
  Lemma push_str_buffer m : ms_buffer (mt_st (mt_push_str m)) = ms_buffer (mt_st m).
  Proof. unfold mt_push_str. now destruct (mt_text m). Qed.
  Lemma atoms_variants a b : map variant_of2 a = map variant_of2 b -> atoms a = atoms b.
  Proof.
    revert b. induction a as [|[l v] a IH]; intros [|[l' v'] b] H; try discriminate H; [reflexivity|]. cbn [map variant_of2] in H. injection H as -> H.
    rewrite !atoms_cons, (IH b H). destruct v'; reflexivity.
  Qed.
  Lemma show2_variants a b : map variant_of2 a = map variant_of2 b -> show2 a = show2 b.
  Proof. intros H. rewrite <- !show_atoms_atoms. f_equal. now apply atoms_variants. Qed.

  (** bracket mode collects the body *)
  Lemma body_step t body : (forall l v, In (mkChunk2 l v) body -> ~ has_label [opener t] v /\ ~ has_label [closer t] v) ->
    forall M m m', map erase M = atoms body -> wf_run false M = Some false -> ms_mode (mt_st m) = br t -> mt_text m = [] ->
    foldM (astep p rec) m M = Ok m' ->
    exists body', map variant_of2 body' = map variant_of2 body /\ mt_text m' = [] /\
      mt_st m' = mkM (ms_out (mt_st m)) (br t) (ms_depth (mt_st m)) (ms_buffer (mt_st m) ++ body') (ms_bline (mt_st m)).
  Proof.
    induction body as [|[l v] body IH]; intros Hn M m m' HM Hw Hm Ht HF.
    - destruct M; [|discriminate HM]. injection HF as <-. exists []. rewrite app_nil_r, <- Hm. destruct m as [[] ? ? ?]. auto.
    - rewrite atoms_cons in HM. apply map_eq_app in HM as (M1 & M2 & -> & H1 & H2).
      rewrite foldM_app in HF. destruct (foldM (astep p rec) m M1) as [m1|e| |] eqn:F1; cbn [bind] in HF; try discriminate.
      assert (Hbr : is_br (br t) = true) by (destruct t; reflexivity).
      assert (S : exists l', mt_text m1 = [] /\ wf_run false M1 = Some false /\
        mt_st m1 = mkM (ms_out (mt_st m)) (br t) (ms_depth (mt_st m)) (ms_buffer (mt_st m) ++ [mkChunk2 l' v]) (ms_bline (mt_st m))).
      { assert (O : not_text v -> atoms_chunk (mkChunk2 l v) = [Other v] -> exists l', mt_text m1 = [] /\ wf_run false M1 = Some false /\
          mt_st m1 = mkM (ms_out (mt_st m)) (br t) (ms_depth (mt_st m)) (ms_buffer (mt_st m) ++ [mkChunk2 l' v]) (ms_bline (mt_st m))).
        { intros Hnt Ea. rewrite Ea in H1. destruct M1 as [|[?|?|?|l' v'] [|? ?]]; try discriminate H1. injection H1 as ->.
          cbn [foldM astep] in F1. rewrite m_step_other in F1 by exact Hnt. unfold m_other in F1. rewrite Hm in F1.
          assert (Hk : forall o, kind v <> Some (o, t)).
          { intros o Hk. destruct (Hn l v (or_introl eq_refl)) as [N1 N2]. unfold kind in Hk. destruct v as [s|[lab args]|s|e]; try discriminate Hk.
            destruct (str_eqb lab [c_lround]) eqn:E1; [apply str_eqb_iff in E1; subst; injection Hk as <- <-; apply N1; eexists; reflexivity|].
            destruct (str_eqb lab [c_lsquare]) eqn:E2; [apply str_eqb_iff in E2; subst; injection Hk as <- <-; apply N1; eexists; reflexivity|].
            destruct (str_eqb lab [c_rround]) eqn:E3; [apply str_eqb_iff in E3; subst; injection Hk as <- <-; apply N2; eexists; reflexivity|].
            destruct (str_eqb lab [c_rsquare]) eqn:E4; [apply str_eqb_iff in E4; subst; injection Hk as <- <-; apply N2; eexists; reflexivity|]. discriminate Hk. }
          exists l'.
          assert (mt_st m1 = m_push_buffer (mt_st m) (mkChunk2 l' v) /\ mt_text m1 = []) as [-> ->].
          { destruct (kind v) as [[o t']|]; destruct t; cbn [br] in F1;
              try (destruct t'; cbn [teqb] in F1; try (exfalso; eapply Hk; reflexivity)); cbn [bind] in F1; injection F1 as <-; unfold set_st; cbn [mt_st mt_text]; auto. }
          unfold m_push_buffer. rewrite Hm. split; [reflexivity|]. split; [|reflexivity]. cbn [wf_run]. destruct v; try reflexivity. destruct Hnt. }
        destruct v as [s|c|s|e]; try (apply O; [exact I|reflexivity]). clear O.
        cbn [atoms_chunk] in H1. destruct M1 as [|[l1|?|?|?] M1]; try discriminate H1. cbn [map erase] in H1. injection H1 as H1.
        apply map_eq_app in H1 as (Mc & Me & -> & Hc & He). destruct Me as [|[?|?|l2|?] [|? ?]]; try discriminate He.
        assert (Mc = map MC s) as ->.
        { clear - Hc. revert s Hc. induction Mc as [|a Mc IH]; intros [|c s] H; try discriminate H; [reflexivity|]. cbn [map] in H.
          injection H as H1 H2. cbn [map]. f_equal; [destruct a; cbn in H1; congruence|now apply IH]. }
        cbn [foldM] in F1. unfold astep at 1 in F1. rewrite Hm, Hbr in F1. cbn [bind] in F1. rewrite foldM_app, astep_chars_br in F1 by (cbn [mt_st]; rewrite Hm; exact Hbr).
        cbn [bind foldM mt_st mt_text mt_cursor mt_line] in F1. unfold astep in F1. cbn [mt_st mt_text mt_cursor mt_line] in F1. rewrite Hm, Hbr, Ht in F1. cbn [bind app] in F1.
        injection F1 as <-. exists l2. cbn [mt_text mt_st]. unfold m_push_buffer. rewrite ?Hm. split; [reflexivity|]. split; [|reflexivity].
        cbn [wf_run]. rewrite wf_run_app. replace (wf_run true (map MC s)) with (Some true); [reflexivity|]. clear. induction s; [reflexivity|assumption]. }
      destruct S as (l' & T1 & W1 & S1).
      rewrite wf_run_app, W1 in Hw. destruct (IH (fun l0 v0 Hi => Hn l0 v0 (or_intror Hi)) M2 m1 m' H2 Hw) as (body' & B1 & B2 & B3); auto.
      { rewrite S1. reflexivity. }
      exists (mkChunk2 l' v :: body'). cbn [map variant_of2]. rewrite B1. split; [reflexivity|]. split; [exact B2|].
      rewrite B3, S1. cbn [ms_out ms_depth ms_buffer ms_bline]. now rewrite <- app_assoc.
  Qed.
  (** dollar modes *)
  Definition dollar_mode (d : maths_mode) : Prop := is_br d = false /\ d <> MNone.
  Lemma dm_body B : forallb (fun a => is_edge a || is_other a) B = true -> forall M b b' m m' d,
    map erase M = B -> wf_run b M = Some b' -> dollar_mode d -> ms_mode (mt_st m) = d -> mt_text m = [] ->
    foldM (astep p rec) m M = Ok m' ->
    exists bs, atoms bs = others B /\ mt_text m' = [] /\
      mt_st m' = mkM (ms_out (mt_st m)) d (ms_depth (mt_st m)) (ms_buffer (mt_st m) ++ bs) (ms_bline (mt_st m)).
  Proof.
    intros HB M. revert B HB. induction M as [|a M IH]; intros B HB b b' m m' d HM Hw [Hd1 Hd2] Hm Ht HF; cbn [map] in HM; subst B.
    - cbn [foldM] in HF. injection HF as <-. exists []. rewrite app_nil_r. subst d. destruct m as [[] ? ? ?]. auto.
    - cbn [forallb] in HB. apply andb_true_iff in HB as [Ha HB]. cbn [foldM] in HF.
      destruct (astep p rec m a) as [m1|e| |] eqn:F1; cbn [bind] in HF; try discriminate.
      assert (W : exists b1, wf_run b1 M = Some b').
      { destruct a as [?|?|?|? []], b; cbn [wf_run] in Hw; try discriminate Hw; eauto. }
      destruct W as [b1 Hw1].
      assert (E : is_edge (erase a) = true -> mt_st m1 = mt_st m /\ mt_text m1 = []).
      { intros He. destruct a as [l|c|l|l v]; try discriminate He; unfold astep in F1; rewrite Hm, Hd1, push_str_empty in F1 by exact Ht; injection F1 as <-; cbn [mt_st mt_text]; auto. }
      destruct (is_edge (erase a)) eqn:He.
      + destruct (E eq_refl) as [S1 T1]. destruct (IH _ HB b1 b' m1 m' d eq_refl Hw1) as (bs & B1 & B2 & B3); auto; [split; auto|now rewrite S1|].
        exists bs. rewrite B3, S1. split; [|auto]. unfold others. cbn [filter]. replace (is_other (erase a)) with false; [exact B1|]. now destruct a.
      + destruct a as [l|c|l|l v]; try discriminate Ha; try discriminate He. clear E.
        assert (Hnt : not_text v) by (destruct b; cbn [wf_run] in Hw; [discriminate Hw|]; destruct v; [discriminate Hw|exact I..]).
        cbn [astep] in F1. rewrite m_step_other in F1 by exact Hnt. unfold m_other in F1. rewrite Hm in F1.
        assert (mt_st m1 = m_push_buffer (mt_st m) (mkChunk2 l v) /\ mt_text m1 = []) as [S1 T1].
        { destruct d as [[]|[]| |]; try discriminate Hd1; try (now destruct Hd2); cbn [bind] in F1; injection F1 as <-; unfold set_st; cbn [mt_st mt_text]; auto. }
        destruct (IH _ HB b1 b' m1 m' d eq_refl Hw1) as (bs & B1 & B2 & B3); auto; [split; auto|now rewrite S1|].
        exists (mkChunk2 l v :: bs). rewrite B3, S1. unfold m_push_buffer. cbn [ms_out ms_depth ms_buffer ms_bline]. rewrite <- app_assoc.
        split; [|auto]. rewrite atoms_cons, B1. unfold others. cbn [filter erase is_other]. destruct v; try reflexivity. destruct Hnt.
  Qed.
  Lemma edges_body e : forallb is_edge e = true -> forallb (fun a => is_edge a || is_other a) e = true /\ others e = [] /\ show_atoms e = [].
  Proof.
    induction e as [|a e IH]; intros H; [auto|]. cbn [forallb] in *. apply andb_true_iff in H as [Ha H]. destruct (IH H) as (I1 & I2 & I3).
    rewrite Ha, I1. split; [reflexivity|]. unfold others, show_atoms in *. cbn [filter map concat]. rewrite I3. destruct a; try discriminate Ha; cbn [is_other show_atom]; auto.
  Qed.
  Lemma show_others B : forallb (fun a => is_edge a || is_other a) B = true -> show_atoms (others B) = show_atoms B.
  Proof.
    induction B as [|a B IH]; intros H; [reflexivity|]. cbn [forallb] in H. apply andb_true_iff in H as [Ha H]. unfold others, show_atoms in *. cbn [filter map concat].
    destruct a; try discriminate Ha; cbn [is_other show_atom app map concat]; try (apply IH, H). f_equal. now apply IH.
  Qed.
  Lemma chars_step pr : ~ In c_dollar pr -> forall M m m', map erase M = map Ch pr -> is_br (ms_mode (mt_st m)) = false ->
    foldM (astep p rec) m M = Ok m' -> mt_st m' = mt_st m /\ mt_text m' = mt_text m ++ pr.
  Proof.
    induction pr as [|c pr IH]; intros Hd [|a M] m m' HM Hb HF; try discriminate HM; cbn [foldM] in HF.
    - injection HF as <-. now rewrite app_nil_r.
    - cbn [map] in HM. injection HM as Ha HM. destruct a; try discriminate Ha. cbn [erase] in Ha. injection Ha as ->.
      unfold astep at 1 in HF. rewrite Hb, mt_step_char in HF by (intros ->; apply Hd; now left).
      destruct (if c =? c_newline then add32 p (mt_cursor m) 1 else Ok (mt_cursor m)) as [x|e| |]; cbn [bind] in HF; try discriminate.
      eapply IH in HF; [|intros H; apply Hd; now right|exact HM|exact Hb]. destruct HF as [-> ->]. cbn [mt_st mt_text]. split; [reflexivity|]. now rewrite <- app_assoc.
  Qed.
  Lemma show_text_atoms pr : show_atoms (text_atoms pr) = pr.
  Proof.
    destruct pr as [|c pr]; [reflexivity|]. unfold text_atoms. change (show_atoms (TextBegin :: ?x)) with (show_atoms x).
    change (show_atoms (TextBegin :: map Ch (c :: pr) ++ [TextEnd])) with (show_atoms (map Ch (c :: pr) ++ [TextEnd])).
    rewrite show_atoms_app, show_atoms_chars. cbn [show_atoms map concat show_atom app]. now rewrite app_nil_r.
  Qed.
  Lemma show_atoms_cons a A : show_atoms (a :: A) = show_atom a ++ show_atoms A. Proof. reflexivity. Qed.
  (** closing a dollar block of the right form *)
  Lemma close_step t m m' bs O pr : mt_close p rec m t = Ok m' -> ms_buffer (mt_st m) = bs -> atoms bs = O -> mt_text m = pr ->
    tidy (O ++ text_atoms pr) -> small (show_atoms O ++ pr) ->
    ms_mode (mt_st m') = MNone /\ ms_buffer (mt_st m') = [] /\ mt_text m' = [] /\
    V m' = show_chunks3 (ms_out (mt_st m)) ++ fst (maths_delims Dollars t) ++ show_atoms O ++ pr ++ snd (maths_delims Dollars t).
  Proof.
    intros Hc Hb Ho Ht Hy Hs. apply mt_close_ok in Hc as (sh & co & Ev & Er & ->). rewrite Hb, Ht in Ev.
    assert (Ea : atoms sh = O ++ text_atoms pr).
    { rewrite (atoms_variants _ _ Ev), atoms_app, Ho. f_equal. destruct pr; [reflexivity|]. cbn [is_empty]. rewrite atoms_cons. cbn [atoms_chunk]. now rewrite app_nil_r. }
    assert (Es : show2 sh = show_atoms O ++ pr) by (rewrite <- show_atoms_atoms, Ea, show_atoms_app, show_text_atoms; reflexivity).
    assert (Hs' : small (show2 sh)) by now rewrite Es. apply GR in Er; [|exact Hs'].
    assert (show_chunks3 co = show2 sh) as Eco by (apply (exact_iff _ _ _ Er); now rewrite Ea).
    cbn [mt_st ms_mode ms_buffer mt_text]. repeat split. unfold V. cbn [mt_st ms_out mt_text]. rewrite show_chunks3_app, show_chunks3_one, app_nil_r.
    change (show_chunk3 _) with (fst (maths_delims Dollars t) ++ show_chunks3 co ++ snd (maths_delims Dollars t)). rewrite Eco, Es, <- !app_assoc. reflexivity.
  Qed.
  Lemma wf_cons b a M r : wf_run b (a :: M) = Some r -> exists b1, wf_run b1 M = Some r /\
    match a with MB _ => b = false /\ b1 = true | MC _ => b = true /\ b1 = true | ME _ => b = true /\ b1 = false | MO _ v => b = false /\ b1 = false /\ not_text v end.
  Proof. destruct a as [l|c|l|l v], b; cbn [wf_run]; try discriminate; eauto. destruct v; try discriminate; intros H; exists false; cbn; auto. Qed.
  Lemma wf_app b M1 M2 r : wf_run b (M1 ++ M2) = Some r -> exists b1, wf_run b M1 = Some b1 /\ wf_run b1 M2 = Some r.
  Proof. rewrite wf_run_app. destruct (wf_run b M1); [eauto|discriminate]. Qed.
  Lemma erase_char M c A : map erase M = Ch c :: A -> exists M', M = MC c :: M' /\ map erase M' = A.
  Proof. destruct M as [|[] M]; try discriminate. cbn. intros H. injection H as -> <-. eauto. Qed.
  Lemma erase_other M v A : map erase M = Other v :: A -> exists l M', M = MO l v :: M' /\ map erase M' = A.
  Proof. destruct M as [|[] M]; try discriminate. cbn. intros H. injection H as -> <-. eauto. Qed.

  Lemma fwd A : tidy A -> forall M b b' m m', map erase M = A -> wf_run b M = Some b' -> idle b m -> small (show_atoms A) ->
    foldM (astep p rec) m M = Ok m' -> idle b' m' /\ V m' = V m ++ show_atoms A.
  Proof.
    induction 1 as [|c A Hc HA IH|a A Ha HA IH|v A Hp Hi _ HA IH|t body A Hn Hb _ HA IH|B pr A HB Hpr Hne Hy _ HA IH|e B pr e' A He HB Hpr He' Hx Hy _ HA IH];
      intros M b b' m m' HM Hw Hid Hs HF.
    - destruct M; [|discriminate HM]. cbn [wf_run foldM] in *. injection Hw as <-. injection HF as <-. cbn. now rewrite app_nil_r.
    - apply erase_char in HM as (M' & -> & HM). apply wf_cons in Hw as (b1 & Hw & -> & ->). cbn [foldM] in HF.
      destruct Hid as (I1 & I2 & I3). unfold astep at 1 in HF. rewrite I1 in HF. cbn [is_br is_single_br is_double_br orb] in HF. rewrite mt_step_char in HF by exact Hc.
      destruct (if c =? c_newline then add32 p (mt_cursor m) 1 else Ok (mt_cursor m)) as [x|e| |]; cbn [bind] in HF; try discriminate.
      rewrite show_atoms_cons in Hs. apply small_app in Hs as [_ Hs].
      eapply IH in HF; [|exact HM|exact Hw|repeat split; auto; discriminate|exact Hs]. destruct HF as [J1 J2]. split; [exact J1|].
      rewrite J2. unfold V. cbn [mt_st mt_text]. rewrite show_atoms_cons. cbn [show_atom]. now rewrite <- !app_assoc.
    - destruct M as [|a0 M']; [discriminate HM|]. cbn [map] in HM. injection HM as Ea HM. apply wf_cons in Hw as (b1 & Hw & Hbb). cbn [foldM] in HF.
      destruct (astep p rec m a0) as [m1|e| |] eqn:F1; cbn [bind] in HF; try discriminate. destruct Hid as (I1 & I2 & I3).
      assert (X : idle b1 m1 /\ V m1 = V m).
      { destruct a0 as [l|c|l|l v]; subst a; try discriminate Ha; unfold astep in F1; rewrite I1 in F1; cbn [is_br is_single_br is_double_br orb] in F1; injection F1 as <-; destruct Hbb as [-> ->].
        - split.
          + repeat split; cbn [mt_st]; [now rewrite push_str_mode|now rewrite push_str_buffer|discriminate].
          + rewrite <- (push_str_V m). reflexivity.
        - split; [|apply push_str_V]. repeat split; [now rewrite push_str_mode|now rewrite push_str_buffer|intros _; apply push_str_text]. }
      destruct X as [X1 X2]. rewrite show_atoms_cons in *. apply small_app in Hs as [_ Hs]. destruct (IH M' b1 b' m1 m' HM Hw X1 Hs HF) as [J1 J2]. split; [exact J1|].
      rewrite J2, X2. f_equal. destruct a; try discriminate Ha; reflexivity.
    - apply erase_other in HM as (l & M' & -> & HM). apply wf_cons in Hw as (b1 & Hw & -> & -> & Hnt). cbn [foldM] in HF.
      destruct Hid as (I1 & I2 & I3). cbn [astep] in HF. rewrite m_step_other in HF by exact Hnt. unfold m_other in HF. rewrite I1 in HF. apply kind_plain in Hp. rewrite Hp in HF.
      destruct (conv_variant p rec v) as [v3|e| |] eqn:Ev; cbn [bind] in HF; try discriminate.
      rewrite show_atoms_cons in *. apply small_app in Hs as [Hs1 Hs]. cbn [show_atom] in Hs1.
      pose proof (conv_exact v v3 Hs1 Ev) as Xc. apply exact_iff in Xc. destruct Xc as [_ Xc]. specialize (Xc Hi).
      eapply IH in HF; [|exact HM|exact Hw|unfold set_st, m_push_out; repeat split; cbn; auto|exact Hs]. destruct HF as [J1 J2].
      split; [exact J1|]. rewrite J2. unfold V, set_st, m_push_out. cbn [mt_st mt_text ms_out]. rewrite (I3 eq_refl), show_chunks3_app, show_chunks3_one, !app_nil_r, <- app_assoc.
      cbn [show_chunk3 show_atom]. now rewrite Xc.
    - apply erase_other in HM as (l & M1 & -> & HM). apply wf_cons in Hw as (b1 & Hw & -> & -> & _).
      apply map_eq_app in HM as (Mb & Mr & -> & Hb1 & Hr). apply wf_app in Hw as (b2 & Hw1 & Hw2).
      apply erase_other in Hr as (l' & M' & -> & HM). apply wf_cons in Hw2 as (b3 & Hw2 & -> & -> & _).
      destruct Hid as (I1 & I2 & I3). cbn [foldM] in HF. cbn [astep] in HF. rewrite m_step_other in HF by exact I. unfold m_other in HF. rewrite I1 in HF.
      replace (kind (Command2 (mkCommand2 [opener t] []))) with (Some (true, t)) in HF by now destruct t. cbn [bind] in HF. rewrite foldM_app in HF.
      match type of HF with (let* _ := foldM _ ?mm _ in _) = _ => destruct (foldM (astep p rec) mm Mb) as [m2|er| |] eqn:F2 end; cbn [bind] in HF; try discriminate.
      apply (body_step t body Hn Mb _ m2 Hb1 Hw1) in F2; [|reflexivity|unfold set_st; cbn [mt_text]; auto].
      destruct F2 as (body' & B1 & B2 & B3). unfold set_st in B3. cbn [mt_st ms_out ms_depth ms_buffer ms_bline] in B3. rewrite I2 in B3. cbn [app] in B3.
      cbn [foldM] in HF. cbn [astep] in HF. rewrite m_step_other in HF by exact I. unfold m_other in HF. rewrite B3 in HF. cbn [ms_mode] in HF.
      replace (kind (Command2 (mkCommand2 [closer t] []))) with (Some (false, t)) in HF by now destruct t.
      assert (HF' : (let* m3 := (let* st := m_close_brackets rec (mkM (ms_out (mt_st m)) (br t) 1 body' l) t in Ok (set_st m2 st)) in foldM (astep p rec) m3 M') = Ok m').
      { destruct t; exact HF. }
      clear HF. unfold m_close_brackets in HF'. cbn [ms_buffer ms_out ms_bline] in HF'. destruct (rec body') as [co|er| |] eqn:Er; cbn [bind] in HF'; try discriminate.
      rewrite show_atoms_cons, show_atoms_app, show_atoms_cons, show_atoms_atoms in *. apply small_app in Hs as [_ Hs]. apply small_app in Hs as [Hs1 Hs]. apply small_app in Hs as [_ Hs].
      apply GR in Er; [|now rewrite (show2_variants _ _ B1)]. apply exact_iff in Er as [_ Er]. rewrite (atoms_variants _ _ B1) in Er. specialize (Er Hb). rewrite (show2_variants _ _ B1) in Er.
      eapply IH in HF'; [|exact HM|exact Hw2|unfold set_st; repeat split; cbn; auto|exact Hs]. destruct HF' as [J1 J2].
      split; [exact J1|]. rewrite J2. unfold V, set_st. cbn [mt_st mt_text ms_out]. rewrite B2, (I3 eq_refl), show_chunks3_app, show_chunks3_one, !app_nil_r, <- app_assoc. f_equal.
      change (show_chunk3 _) with (fst (maths_delims Brackets t) ++ show_chunks3 co ++ snd (maths_delims Brackets t)). rewrite Er, <- !app_assoc. destruct t; reflexivity.
    - apply erase_char in HM as (M1 & -> & HM). apply wf_cons in Hw as (b1 & Hw & -> & ->).
      apply map_eq_app in HM as (MB' & Mr & -> & H1 & HM). apply wf_app in Hw as (b2 & Hw1 & Hw).
      apply map_eq_app in HM as (Mp & Mr' & -> & H2 & HM). apply wf_app in Hw as (b3 & Hw2 & Hw).
      apply erase_char in HM as (M' & -> & HM). apply wf_cons in Hw as (b4 & Hw & -> & ->).
      destruct Hid as (I1 & I2 & I3). cbn [foldM] in HF. unfold astep at 1 in HF. rewrite I1 in HF. cbn [is_br is_single_br is_double_br orb] in HF. rewrite mt_step_dollar, I1 in HF. cbn [bind] in HF.
      rewrite foldM_app in HF. set (m1 := mkMT _ _ _ _) in HF.
      assert (M1s : mt_st m1 = mkM (ms_out (mt_st (mt_push_str m))) (SingleDollar Dollars) (ms_depth (mt_st (mt_push_str m))) [] (ms_bline (mt_st (mt_push_str m))) /\ mt_text m1 = []).
      { unfold m1, mt_set_mode. cbn [mt_st mt_text]. now rewrite push_str_buffer, I2, push_str_text. }
      assert (Vm : V m = show_chunks3 (ms_out (mt_st m1))).
      { rewrite <- push_str_V. unfold V. rewrite push_str_text, app_nil_r. unfold m1, mt_set_mode. reflexivity. }
      clearbody m1. destruct M1s as [S1 T1].
      destruct (foldM (astep p rec) m1 MB') as [m2|er| |] eqn:F2; cbn [bind] in HF; try discriminate.
      apply (dm_body B HB MB' _ _ m1 m2 (SingleDollar Dollars) H1 Hw1) in F2; [|split; [reflexivity|discriminate]|now rewrite S1|exact T1]. destruct F2 as (bs & B1 & B2 & B3).
      rewrite foldM_app in HF. destruct (foldM (astep p rec) m2 Mp) as [m3|er| |] eqn:F3; cbn [bind] in HF; try discriminate.
      apply (chars_step pr Hpr Mp m2 m3 H2) in F3; [|now rewrite B3]. destruct F3 as [S3 T3]. rewrite B2 in T3. cbn [app] in T3.
      cbn [foldM] in HF. unfold astep at 1 in HF. rewrite S3, B3 in HF. cbn [ms_mode is_br is_single_br is_double_br orb] in HF. rewrite mt_step_dollar, S3, B3 in HF. cbn [ms_mode] in HF.
      replace (is_empty (mt_text m3) && is_empty _) with false in HF.
      2:{ symmetry. rewrite T3. cbn [ms_buffer]. rewrite S1. cbn [ms_buffer app]. destruct Hne as [Hne|Hne]; [|destruct pr; [now elim Hne|reflexivity]].
          rewrite andb_comm. destruct bs; [now elim Hne|reflexivity]. }
      destruct (mt_close p rec m3 Inline) as [m4|er| |] eqn:F4; cbn [bind] in HF; try discriminate.
      rewrite show_atoms_cons, !show_atoms_app, show_atoms_cons, show_atoms_chars in *. apply small_app in Hs as [_ Hs]. rewrite app_assoc in Hs. apply small_app in Hs as [Hs1 Hs]. apply small_app in Hs as [_ Hs].
      rewrite <- (show_others B HB) in *.
      apply (close_step Inline m3 m4 bs (others B) pr) in F4; auto; [|rewrite S3, B3, S1; reflexivity].
      destruct F4 as (C1 & C2 & C3 & C4).
      eapply IH in HF; [|exact HM|exact Hw|repeat split; auto|exact Hs]. destruct HF as [J1 J2]. split; [exact J1|]. rewrite J2, C4, S3, B3. cbn [ms_out]. rewrite Vm, <- !app_assoc. reflexivity.
    - apply erase_char in HM as (M1 & -> & HM). apply wf_cons in Hw as (b1 & Hw & -> & ->).
      apply map_eq_app in HM as (Me & Mr0 & -> & H0 & HM). apply wf_app in Hw as (b0 & Hw0 & Hw).
      apply erase_char in HM as (M2 & -> & HM). apply wf_cons in Hw as (b1' & Hw & -> & ->).
      apply map_eq_app in HM as (MB' & Mr & -> & H1 & HM). apply wf_app in Hw as (b2 & Hw1 & Hw).
      apply map_eq_app in HM as (Mp & Mr' & -> & H2 & HM). apply wf_app in Hw as (b3 & Hw2 & Hw).
      apply erase_char in HM as (M3 & -> & HM). apply wf_cons in Hw as (b4 & Hw & -> & ->).
      apply map_eq_app in HM as (Me' & Mr'' & -> & H3 & HM). apply wf_app in Hw as (b5 & Hw3 & Hw).
      apply erase_char in HM as (M' & -> & HM). apply wf_cons in Hw as (b6 & Hw & -> & ->).
      destruct (edges_body e He) as (He1 & He2 & He3). destruct (edges_body e' He') as (He1' & He2' & He3').
      destruct Hid as (I1 & I2 & I3). cbn [foldM] in HF. unfold astep at 1 in HF. rewrite I1 in HF. cbn [is_br is_single_br is_double_br orb] in HF. rewrite mt_step_dollar, I1 in HF. cbn [bind] in HF.
      rewrite foldM_app in HF. set (m1 := mkMT _ _ _ _) in HF.
      assert (M1s : mt_st m1 = mkM (ms_out (mt_st (mt_push_str m))) (SingleDollar Dollars) (ms_depth (mt_st (mt_push_str m))) [] (ms_bline (mt_st (mt_push_str m))) /\ mt_text m1 = []).
      { unfold m1, mt_set_mode. cbn [mt_st mt_text]. now rewrite push_str_buffer, I2, push_str_text. }
      assert (Vm : V m = show_chunks3 (ms_out (mt_st m1))).
      { rewrite <- push_str_V. unfold V. rewrite push_str_text, app_nil_r. unfold m1, mt_set_mode. reflexivity. }
      clearbody m1. destruct M1s as [S1 T1].
      destruct (foldM (astep p rec) m1 Me) as [m1'|er| |] eqn:F1; cbn [bind] in HF; try discriminate.
      apply (dm_body e He1 Me _ _ m1 m1' (SingleDollar Dollars) H0 Hw0) in F1; [|split; [reflexivity|discriminate]|now rewrite S1|exact T1]. destruct F1 as (bs0 & B1' & T1' & S1').
      assert (bs0 = []) as ->. { rewrite He2 in B1'. destruct bs0 as [|[? []] ?]; [reflexivity|discriminate B1'..]. }
      rewrite S1 in S1'. cbn [ms_buffer app ms_out ms_depth ms_bline] in S1'.
      cbn [foldM] in HF. unfold astep at 1 in HF. rewrite S1' in HF. cbn [ms_mode is_br is_single_br is_double_br orb] in HF. rewrite mt_step_dollar, S1', T1' in HF. cbn [ms_mode ms_buffer is_empty andb bind] in HF.
      set (m1'' := mt_set_mode m1' _) in HF.
      assert (S1'' : mt_st m1'' = mkM (ms_out (mt_st (mt_push_str m))) (DoubleDollar Dollars) (ms_depth (mt_st (mt_push_str m))) [] (ms_bline (mt_st (mt_push_str m))) /\ mt_text m1'' = []).
      { unfold m1'', mt_set_mode. cbn [mt_st mt_text]. rewrite S1', T1'. auto. }
      clearbody m1''. destruct S1'' as [S1'' T1''].
      rewrite foldM_app in HF. destruct (foldM (astep p rec) m1'' MB') as [m2|er| |] eqn:F2; cbn [bind] in HF; try discriminate.
      apply (dm_body B HB MB' _ _ m1'' m2 (DoubleDollar Dollars) H1 Hw1) in F2; [|split; [reflexivity|discriminate]|now rewrite S1''|exact T1'']. destruct F2 as (bs & B1 & B2 & B3).
      rewrite foldM_app in HF. destruct (foldM (astep p rec) m2 Mp) as [m3|er| |] eqn:F3; cbn [bind] in HF; try discriminate.
      apply (chars_step pr Hpr Mp m2 m3 H2) in F3; [|now rewrite B3]. destruct F3 as [S3 T3]. rewrite B2 in T3. cbn [app] in T3.
      cbn [foldM] in HF. unfold astep at 1 in HF. rewrite S3, B3 in HF. cbn [ms_mode is_br is_single_br is_double_br orb] in HF. rewrite mt_step_dollar, S3, B3 in HF. cbn [ms_mode bind] in HF.
      set (m3' := mt_set_mode m3 _) in HF.
      assert (S3' : mt_st m3' = mkM (ms_out (mt_st m1)) DoubleClosing (ms_depth (mt_st m1)) bs (ms_bline (mt_st m1)) /\ mt_text m3' = pr).
      { unfold m3', mt_set_mode. cbn [mt_st mt_text]. rewrite S3, T3, B3, S1'', S1. auto. }
      clearbody m3'. destruct S3' as [S3' T3'].
      rewrite foldM_app in HF. destruct (foldM (astep p rec) m3' Me') as [m3''|er| |] eqn:F3; cbn [bind] in HF; try discriminate.
      assert (X3 : mt_st m3'' = mt_st m3' /\ mt_text m3'' = pr).
      { destruct Hx as [-> | ->]; [destruct Me'; [|discriminate H3]; cbn [foldM] in F3; injection F3 as <-; auto|].
        apply (dm_body e' He1' Me' _ _ m3' m3'' DoubleClosing H3 Hw3) in F3; [|split; [reflexivity|discriminate]|now rewrite S3'|exact T3'].
        destruct F3 as (bs0 & B1'' & T1''' & S1'''). assert (bs0 = []) as ->. { rewrite He2' in B1''. destruct bs0 as [|[? []] ?]; [reflexivity|discriminate B1''..]. }
        rewrite S1''', S3'. cbn [ms_buffer ms_out ms_depth ms_bline]. rewrite app_nil_r. auto. }
      destruct X3 as [S4 T4].
      cbn [foldM] in HF. unfold astep at 1 in HF. rewrite S4, S3' in HF. cbn [ms_mode is_br is_single_br is_double_br orb] in HF. rewrite mt_step_dollar, S4, S3' in HF. cbn [ms_mode] in HF.
      destruct (mt_close p rec m3'' Outline) as [m4|er| |] eqn:F4; cbn [bind] in HF; try discriminate.
      rewrite show_atoms_cons, show_atoms_app, show_atoms_cons, !show_atoms_app, show_atoms_cons, show_atoms_app, show_atoms_cons, show_atoms_chars, He3, He3' in *. cbn [show_atom app] in *.
      rewrite <- (show_others B HB) in *.
      assert (Hs' : small (show_atoms (others B) ++ pr) /\ small (show_atoms A)).
      { change (small ([c_dollar; c_dollar] ++ show_atoms (others B) ++ pr ++ [c_dollar; c_dollar] ++ show_atoms A)) in Hs. apply small_app in Hs as [_ Hs]. rewrite app_assoc in Hs. apply small_app in Hs as [Hs1 Hs]. apply small_app in Hs as [_ Hs]. auto. }
      destruct Hs' as [Hs1 Hs2].
      apply (close_step Outline m3'' m4 bs (others B) pr) in F4; auto; [|rewrite S4, S3'; reflexivity].
      destruct F4 as (C1 & C2 & C3 & C4).
      eapply IH in HF; [|exact HM|exact Hw|repeat split; auto|exact Hs2]. destruct HF as [J1 J2]. split; [exact J1|]. rewrite J2, C4, S4, S3'. cbn [ms_out]. rewrite Vm, <- !app_assoc. reflexivity.
  Qed.
End Conv.
