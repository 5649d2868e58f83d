(** * Read3: the conversion to stage 3 is the declared one *)
From Verif Require Import Base Ast1 Parse1 Ast2 Ast3 SpecDoc1 SpecDoc2 SpecDoc3 SpecMaths3 SpecPar3 SpecReads SpecClass3 SpecRead3 Tok Ind Lines Eqb Refine1 Facts1 Valid1 Par3 Maths3 MathsRun Mono MathsRec Dollars Facts2 Valid2 Env2 Reads Class3 Options3 Doc3.
From Coq Require Import Lia.

Lemma parts_exist d : exists pr envs trail, parts d pr envs trail.
Proof.
  assert (D : forall post, exists envs trail, divided post envs trail).
  { induction post as [|c post (envs & trail & IH)]; [exists [], []; constructor|]. destruct (docb c) eqn:E.
    - apply docb_iff in E as (l & args & content & pb & pe & ->). eexists _, _. constructor. exact IH.
    - eexists _, _. apply dv_other; [|exact IH]. intros K. apply docb_iff in K. congruence. }
  destruct (preamble_exists d) as (pr & HF & [->|(c & post & Hc & ->)]).
  - exists pr, [], [], []. rewrite app_nil_r. repeat split; [exact HF|discriminate|constructor].
  - destruct (D (c :: post)) as (envs & trail & K). exists pr, envs, trail, (c :: post). repeat split; [exact HF| |exact K]. intros c' r E. now injection E as <- <-.
Qed.
Lemma divided_in post envs trail : divided post envs trail ->
  (forall c, In c trail -> In c post) /\ (ncmd trail <= ncmd post)%nat /\ (forall e, In e envs -> exists l, In (mkChunk2 l (Environment2 e)) post).
Proof.
  induction 1 as [|l args content pb pe cs envs rest H (I1 & I2 & I3)|c cs envs rest Hc H (I1 & I2 & I3)].
  - repeat split; auto. intros e [].
  - rewrite ncmd_cons. cbn [is_command]. split; [intros c Hc; right; auto|]. split; [lia|].
    intros e [<-|He]; [exists l; left; reflexivity|]. destruct (I3 e He) as [l' K]. exists l'. right; exact K.
  - rewrite !ncmd_cons. split; [intros c' [<-|Hc']; [left; reflexivity|right; auto]|]. split; [lia|].
    intros e He. destruct (I3 e He) as [l' K]. exists l'. right; exact K.
Qed.
Lemma range_part1 a b : in_range (a ++ b) -> in_range a.
Proof. intros H. apply (range_sub a (a ++ b)); [intros c Hc; apply in_or_app; left; exact Hc|rewrite ncmd_app; lia|exact H]. Qed.
Lemma parts_range d pr envs trail : parts d pr envs trail -> in_range d ->
  in_range pr /\ in_range trail /\ (forall e, In e envs -> forall inner, inside (Environment2 e) inner -> in_range inner).
Proof.
  intros (post & -> & HF & Hp & HD) R. apply divided_in in HD as (I1 & I2 & I3). split; [now apply range_part1 in R|].
  pose proof (range_app _ _ R) as RP. split; [now apply (range_sub trail post)|].
  intros e He inner Hi. destruct (I3 e He) as [l K]. inversion RP as [cs0 H1 H2 H3]; subst. exact (H3 l _ inner K Hi).
Qed.

(** state after the environments *)
Definition set_body (c : document3) (body : option variant3) : document3 :=
  match body with
  | Some (Environment3 (mkEnv3 _ args content pb pe)) => mkDoc3 (d_class c) (d_options c) (d_preamable c) content args pb pe (d_trailing c)
  | _ => c
  end.
Lemma bodies_fold post envs trail : divided post envs trail -> (forall e, In e envs -> forall inner, inside (Environment2 e) inner -> in_range inner) ->
  forall rb, reads_bodies envs rb -> forall c pre tr,
  foldM (d_step Debug) (mkD c pre tr true) post = (let* body := to_outcome rb in Ok (mkD (set_body c body) pre (tr ++ trail) true)) /\
  (forall v, rb = Good (Some v) -> exists e, v = Environment3 e).
Proof.
  induction 1 as [|l args content pb pe cs envs rest H IH|x cs envs rest Hc H IH]; intros R rb HB c pre tr.
  - inversion HB; subst. split; [cbn [foldM to_outcome bind set_body]; now rewrite app_nil_r|discriminate].
  - inversion HB as [|e envs' re r Hre Hr]; subst. cbn [foldM]. unfold d_step at 1. cbn [env_label2]. change (str_eqb (S! "document") s_document) with true. cbn iota.
    destruct (proj1 (proj2 reads_run) _ _ Hre (R _ (or_introl eq_refl))) as (_ & E & _). cbn [conv_variant] in E.
    destruct (env3_try_from Debug (maths_from_chunks Debug) (mkEnv2 (S! "document") args content pb pe)) as [[lab' args' content' pb' pe']|err| |] eqn:EE; cbn [bind] in E.
    + destruct re as [v|e|]; try discriminate. cbn [to_outcome] in E. injection E as <-. cbn [bind ds_construct ds_pre ds_trail].
      destruct (IH (fun e He => R e (or_intror He)) r Hr (mkDoc3 (d_class c) (d_options c) (d_preamable c) content' args' pb' pe' (d_trailing c)) pre tr) as [F V].
      rewrite F. destruct r as [[v|]|e|]; cbn [andthen on to_outcome bind].
      * destruct (V v eq_refl) as [[? ? ? ? ?] ->]. split; [reflexivity|]. intros v' K. injection K as <-. eauto.
      * split; [reflexivity|]. intros v' K. injection K as <-. eauto.
      * split; [reflexivity|discriminate].
      * split; [reflexivity|discriminate].
    + destruct re as [v|e|]; try discriminate. cbn [to_outcome] in E. injection E as <-. cbn [bind andthen to_outcome]. split; [reflexivity|discriminate].
    + destruct re as [v|e|]; try discriminate. cbn [bind andthen to_outcome]. split; [reflexivity|discriminate].
    + destruct re; discriminate.
  - cbn [foldM]. assert (d_step Debug (mkD c pre tr true) x = Ok (mkD c pre (tr ++ [x]) true)) as ->.
    { pose proof (fold_post_plain Debug [x] ltac:(constructor; [exact Hc|constructor]) c pre tr) as K. cbn [foldM] in K. destruct (d_step Debug _ x); cbn [bind] in K; exact K. }
    cbn [bind]. destruct (IH R rb HB c pre (tr ++ [x])) as [F V]. rewrite F. split; [|exact V]. destruct rb as [b|e|]; cbn [to_outcome bind]; try reflexivity. now rewrite <- app_assoc.
Qed.
Lemma bodies_total envs : (forall e, In e envs -> forall inner, inside (Environment2 e) inner -> in_range inner) -> exists rb, reads_bodies envs rb.
Proof.
  induction envs as [|e envs IH]; intros R; [eexists; constructor|]. destruct IH as [r Hr]; [intros e' He; apply R; right; exact He|].
  assert (V : exists rv, reads_variant (Environment2 e) rv).
  { destruct e as [lab args content pb pe].
    assert (A : forall args, (forall pre cs v, In (pre, mkScope2 cs v) args -> in_range cs) -> exists ra, reads_args args ra).
    { clear. induction args as [|[pre [cs v]] args IH]; intros H; [eexists; constructor|].
      destruct (maths_reads_exists cs) as [rc Hc]; [eapply H; left; reflexivity|]. destruct IH as [ra Ha]; [intros; eapply H; right; eassumption|]. eexists. econstructor; eassumption. }
    destruct (A args) as [ra Ha]; [intros pre cs v Hi; eapply R; [left; reflexivity|]; eapply in_env_arg; exact Hi|].
    destruct (maths_reads_exists content) as [rc Hc]; [eapply R; [left; reflexivity|]; apply in_env|]. eexists. econstructor; eassumption. }
  destruct V as [rv Hv]. eexists. econstructor; eassumption.
Qed.
Lemma options_read cmds pss opts : Forall2 pieces (all_options cmds) pss -> Forall2 read_option (concat pss) opts ->
  opts = flat_map (fun t => map parse_option (split_on c_comma t)) (all_options cmds).
Proof.
  intros H1 H2. assert (concat pss = flat_map (split_on c_comma) (all_options cmds)) as E.
  { clear H2. induction H1 as [|t ps ts pss Hp H IH]; [reflexivity|]. cbn [concat flat_map]. f_equal; [|exact IH]. apply (pieces_unique t); [exact Hp|apply split_on_pieces]. }
  rewrite E in H2. assert (opts = map parse_option (flat_map (split_on c_comma) (all_options cmds))) as ->.
  { clear E H1. induction H2 as [|o e os es Ho H IH]; [reflexivity|]. cbn [map]. f_equal; [now apply read_unique|exact IH]. }
  clear. induction (all_options cmds) as [|t ts IH]; [reflexivity|]. cbn [flat_map]. now rewrite map_app, IH.
Qed.
Lemma options_exist cmds : exists pss opts, Forall2 pieces (all_options cmds) pss /\ Forall2 read_option (concat pss) opts.
Proof.
  exists (map (split_on c_comma) (all_options cmds)), (map parse_option (concat (map (split_on c_comma) (all_options cmds)))). split.
  - induction (all_options cmds); constructor; [apply split_on_pieces|assumption].
  - generalize (concat (map (split_on c_comma) (all_options cmds))). intros l. induction l; constructor; [apply option_read|assumption].
Qed.
Lemma try_parts d pr post : d = pr ++ post -> Forall (fun c => ~ is_document c) pr ->
  try_from3 Debug d = match declared_class (class_commands pr) with
  | inl e => Err e
  | inr cls => let* st := foldM (d_step Debug) (mkD (base (cls, flat_map (fun t => map parse_option (split_on c_comma t)) (all_options (class_commands pr)))) pr [] false) post in sections Debug st
  end.
Proof.
  intros -> HF. rewrite try_from3_sections, dinit_base, foldM_app', (fold_pre Debug pr HF). cbn [app].
  pose proof (cstep_fold (class_commands pr) []) as HC. destruct (declared_class (class_commands pr)); rewrite HC; reflexivity.
Qed.
Lemma step_env_any p c pre tr b l e : str_eqb (env_label2 e) s_document = true ->
  d_step p (mkD c pre tr b) (mkChunk2 l (Environment2 e)) = d_step p (mkD c pre tr true) (mkChunk2 l (Environment2 e)).
Proof. intros E. unfold d_step. rewrite E. reflexivity. Qed.
Lemma sections_read c pre trail rp rt : in_range pre -> in_range trail -> reads 0 pre rp -> reads 0 trail rt ->
  sections Debug (mkD c pre trail true) = to_outcome (andthen (fun a b => mkDoc3 (d_class c) (d_options c) a (d_body c) (d_body_args c) (d_begin_prec c) (d_end_prec c) b) rp rt).
Proof.
  intros R1 R2 H1 H2. apply (proj1 reads_run) in H1. apply (proj1 reads_run) in H2. destruct (P1_maths _ _ H1 R1) as [_ E1]. destruct (P1_maths _ _ H2 R2) as [_ E2].
  unfold sections. cbn [ds_construct ds_pre ds_trail]. rewrite <- bind_bind, E1. destruct rp as [a|e|]; cbn [to_outcome bind andthen on]; try reflexivity.
  rewrite <- bind_bind, E2. destruct rt as [b|e|]; reflexivity.
Qed.
Lemma sections_flag p c pre trail b : sections p (mkD c pre trail b) = sections p (mkD c pre trail true). Proof. reflexivity. Qed.

Theorem document_forward d r : in_range d -> reads_document d r -> try_from3 Debug d = to_outcome r.
Proof.
  intros R H. destruct H as [pr envs trail e HP Hc|pr envs trail cls pss opts rb rp rt HP Hc Ho1 Ho2 HB Hp Ht].
  - destruct HP as (post & -> & HF & _ & _). rewrite (try_parts _ pr post eq_refl HF), Hc. reflexivity.
  - destruct (parts_range _ _ _ _ HP R) as (R1 & R2 & R3). destruct HP as (post & E & HF & Hpost & HD).
    rewrite (try_parts _ pr post E HF), Hc. rewrite <- (options_read _ _ _ Ho1 Ho2).
    destruct (bodies_fold _ _ _ HD R3 rb HB (base (cls, opts)) pr []) as [F V]. cbn [app] in F.
    assert (F' : (let* st := foldM (d_step Debug) (mkD (base (cls, opts)) pr [] false) post in sections Debug st) =
      let* body := to_outcome rb in sections Debug (mkD (set_body (base (cls, opts)) body) pr trail true)).
    { destruct post as [|c post].
      - inversion HD; subst. inversion HB; subst. reflexivity.
      - destruct (Hpost c post eq_refl) as (l & args & content & pb & pe & ->). cbn [foldM] in F |- *. rewrite step_env_any by reflexivity. rewrite F.
        destruct (to_outcome rb); reflexivity. }
    rewrite F'. destruct rb as [body|e|]; cbn [to_outcome bind andthen]; try reflexivity. rewrite (sections_read _ _ _ rp rt R1 R2 Hp Ht).
    destruct rp as [a|e|]; cbn [andthen on to_outcome]; try reflexivity. destruct rt as [b|e|]; cbn [andthen on to_outcome]; try reflexivity. f_equal.
    destruct body as [v|]; [|reflexivity]. destruct (V v eq_refl) as [[? ? ? ? ?] ->]. reflexivity.
Qed.
Theorem document_total d : in_range d -> exists r, reads_document d r.
Proof.
  intros R. destruct (parts_exist d) as (pr & envs & trail & HP). destruct (parts_range _ _ _ _ HP R) as (R1 & R2 & R3).
  destruct (declared_class (class_commands pr)) as [e|cls] eqn:E; [eexists; eapply rc_class; eassumption|].
  destruct (options_exist (class_commands pr)) as (pss & opts & O1 & O2). destruct (bodies_total envs R3) as [rb HB].
  destruct (maths_reads_exists pr R1) as [rp Hp]. destruct (maths_reads_exists trail R2) as [rt Ht]. eexists. eapply rc_parts; eassumption.
Qed.
Theorem document_iff d r : in_range d -> (try_from3 Debug d = to_outcome r <-> reads_document d r).
Proof.
  intros R. split; [|now apply document_forward]. intros E. destruct (document_total d R) as [x Hx]. assert (x = r) as <-; [|exact Hx].
  pose proof (document_forward d x R Hx) as F. rewrite F in E. destruct x, r; cbn in E; congruence.
Qed.
Theorem document_unique d a b : in_range d -> reads_document d a -> reads_document d b -> a = b.
Proof.
  intros R Ha Hb. apply document_forward in Ha; [|exact R]. apply document_forward in Hb; [|exact R]. rewrite Ha in Hb. destruct a, b; cbn in Hb; congruence.
Qed.
Theorem document_release d r : in_range d -> reads_document d r -> r <> Overflow -> try_from3 Release d = to_outcome r.
Proof.
  intros R H Hr. apply document_forward in H; [|exact R]. destruct (try_from3_leq true Debug Release dr d) as [K|K]; [|now rewrite <- K].
  exfalso. rewrite K in H. destruct r; cbn in H; congruence.
Qed.

(** ** Sources *)
Theorem source_iff s r : source_fits s -> count_newlines s < 2147483648 ->
  (from_str3 Debug s = to_outcome r <-> (exists e, from_str2 Debug s = Err e /\ r = Bad e) \/ exists d, from_str2 Debug s = Ok d /\ reads_document d r).
Proof.
  intros B Bn. unfold from_str3. destruct (from_str2 Debug s) as [d|e| |] eqn:E; cbn [bind].
  - rewrite (document_iff d r (parsed_in_range _ _ _ B Bn E)). split; [intros H; right; exists d; auto|]. intros [(e & K & _)|(d' & K & H)]; [discriminate|]. injection K as <-. exact H.
  - split.
    + intros H. left. exists e. split; [reflexivity|]. destruct r; cbn in H; congruence.
    + intros [(e' & K & ->)|(d' & K & H)]; [|discriminate]. injection K as <-. reflexivity.
  - exfalso. destruct (from_str2_total Debug s B) as [[? K]|[? K]]; congruence.
  - exfalso. destruct (from_str2_total Debug s B) as [[? K]|[? K]]; congruence.
Qed.
Theorem source_release s r : source_fits s -> count_newlines s < 2147483648 -> r <> Overflow -> from_str3 Debug s = to_outcome r -> from_str3 Release s = to_outcome r.
Proof.
  intros B Bn Hr H. destruct (from_str3_leq true Debug Release dr s) as [K|K]; [|congruence]. exfalso. rewrite K in H. destruct r; cbn in H; congruence.
Qed.
