(** * Seen2: from stage 2 up to stage 3 and down again: documents *)
From Verif Require Import Base Ast1 Parse1 Ast2 Ast3 SpecDoc1 SpecDoc2 SpecUnnum SpecDoc3 SpecMaths3 SpecPar3 SpecReads SpecClass3 SpecRead3 SpecWrap SpecBack3 SpecSeen Ind Lines Eqb Tok Facts1 Facts2 Refine1 Valid2 Valid3 Env2 Par3 Maths3 MathsRec MathsFwd MathsBwd Reads Read3 ReadsW Keep3 KeepW Doc3 Back3 Flat Unnum Unnum1 Unnum3 Unnum4 Again3 Again3b Again3d Again3e Seen.
From Coq Require Import Lia.

Lemma wbodies_last envs rb : wreads_bodies envs rb -> forall o, rb = Good o ->
  match o with None => envs = [] | Some b => forall e0, wreads_variant (Environment2 (last envs e0)) (Good b) end.
Proof.
  induction 1 as [|e envs re r He HB IH]; intros o E; [injection E as <-; reflexivity|]. apply andthen_good in E as (v & l & -> & -> & ->).
  specialize (IH l eq_refl). destruct l as [x|].
  - intros e0. destruct envs as [|e1 envs]; [inversion HB|]. exact (IH e0).
  - subst envs. intros e0. exact He.
Qed.
Lemma small_nl s : count_newlines s < 2147483648 -> MathsFwd.small s. Proof. exact (fun H => H). Qed.
(** the reading of one part *)
Definition part (a : list chunk2) (o : list chunk3) : Prop := maths_from_chunks Release a = Ok o /\ wreads 0 a (Good o) /\ count_newlines (show2 a) < 2147483648.
Lemma part_exact a o : part a o -> exact_on (show_chunks3 o) (show2 a) (tidy (atoms a)).
Proof. intros (M & _ & S). apply (maths_fuel_good (Datatypes.S (size2 a)) Release); [exact S|exact M]. Qed.
Lemma part_seen a o : part a o -> tidy (atoms a) -> seen (flats o) = seen a.
Proof. intros (_ & W & _). exact (proj1 tidy_restored _ _ _ W o eq_refl). Qed.
Lemma parts_exact a1 a2 a3 o1 o2 o3 : part a1 o1 -> part a2 o2 -> part a3 o3 -> count_newlines (show2 (a1 ++ a2 ++ a3)) < 2147483648 ->
  (show2 (flats (o1 ++ o2 ++ o3)) = show2 (a1 ++ a2 ++ a3) <-> tidy (atoms (a1 ++ a2 ++ a3))) /\
  (seen (flats (o1 ++ o2 ++ o3)) = seen (a1 ++ a2 ++ a3) <-> tidy (atoms (a1 ++ a2 ++ a3))).
Proof.
  intros P1 P2 P3 Sm. rewrite flats_show.
  assert (X : show_chunks3 (o1 ++ o2 ++ o3) = show2 (a1 ++ a2 ++ a3) <-> tidy (atoms (a1 ++ a2 ++ a3))).
  { apply (maths_exact Release); [exact Sm|]. apply maths_app_ok; [apply P1|]. apply maths_app_ok; [apply P2|apply P3]. }
  split; [exact X|]. split.
  - intros H. apply X. rewrite <- flats_show. now apply seen_show.
  - intros T. apply X in T. pose proof (exact_app _ _ _ _ _ _ (part_exact _ _ P1) (exact_app _ _ _ _ _ _ (part_exact _ _ P2) (part_exact _ _ P3))) as K.
    rewrite <- !show_chunks3_app, <- !Doc3.show2_app in K. apply exact_iff in K. destruct (proj1 K T) as (T1 & T2 & T3).
    rewrite !flats_app, !seen_app, (part_seen _ _ P1 T1), (part_seen _ _ P2 T2), (part_seen _ _ P3 T3). reflexivity.
Qed.
Lemma env_fits e : (forall inner, inside (Environment2 e) inner -> fits inner) -> fits [mkChunk2 1 (Environment2 e)].
Proof.
  intros H. split; constructor.
  - reflexivity.
  - intros l s [E|[]]. discriminate.
  - intros l v inner [E|[]] Hi. injection E as <- <-. exact (proj1 (H _ Hi)).
  - intros l v [E|[]]. injection E as <- _. reflexivity.
  - intros l v inner [E|[]] Hi. injection E as <- <-. exact (proj2 (H _ Hi)).
Qed.
Lemma nl_inside post envs trail : divided post envs trail -> nl2 trail + nl2 [mkChunk2 1 (Environment2 (last envs (mkEnv2 (S! "document") [] [] [] [])))] <= nl2 post.
Proof.
  induction 1 as [|l args content pb pe cs envs rest HD IH|c cs envs rest _ _ IH].
  - vm_compute. discriminate.
  - rewrite (nl2_cons (mkChunk2 l (Environment2 (mkEnv2 (S! "document") args content pb pe)))). destruct envs as [|e envs].
    + cbn [last] in *. rewrite (nl2_cons (mkChunk2 1 (Environment2 (mkEnv2 (S! "document") args content pb pe)))). change (show_chunk2 (mkChunk2 1 (Environment2 (mkEnv2 (S! "document") args content pb pe)))) with (show_chunk2 (mkChunk2 l (Environment2 (mkEnv2 (S! "document") args content pb pe)))).
      change (nl2 []) with 0. assert (nl2 rest <= nl2 cs) by lia. lia.
    + change (last (mkEnv2 (S! "document") args content pb pe :: e :: envs) (mkEnv2 (S! "document") [] [] [] [])) with (last (e :: envs) (mkEnv2 (S! "document") [] [] [] [])). lia.
  - rewrite !(nl2_cons c). lia.
Qed.
Lemma divided_unique post a b : divided post a b -> forall a' b', divided post a' b' -> a' = a /\ b' = b.
Proof.
  induction 1 as [|l args content pb pe cs envs rest _ IH|c cs envs rest Hc _ IH]; intros a' b' K; inversion K; subst.
  - now split.
  - match goal with H : divided cs _ _ |- _ => destruct (IH _ _ H) as [-> ->]; now split end.
  - match goal with H : ~ is_document _ |- _ => elim H; now repeat eexists end.
  - elim Hc. now repeat eexists.
  - match goal with H : divided cs _ _ |- _ => destruct (IH _ _ H) as [-> ->]; now split end.
Qed.
Lemma parts_unique d pr envs trail pr' envs' trail' : parts d pr envs trail -> parts d pr' envs' trail' -> pr' = pr /\ envs' = envs /\ trail' = trail.
Proof.
  intros (post & E & N & Hd & D) (post' & E' & N' & Hd' & D'). rewrite E in E'. clear E d.
  assert (pr' = pr /\ post' = post) as [-> ->].
  { revert pr' E' N'. induction pr as [|c pr IH]; intros [|c' pr'] E' N'; cbn [app] in E'.
    - now split.
    - exfalso. inversion N' as [|? ? H1 _]; subst. apply H1. eapply Hd. reflexivity.
    - exfalso. inversion N as [|? ? H1 _]; subst. apply H1. eapply Hd'. reflexivity.
    - injection E' as <- E'. inversion N; inversion N'; subst. destruct (IH ltac:(assumption) pr' E' ltac:(assumption)) as [-> ->]. now split. }
  destruct (divided_unique _ _ _ D _ _ D') as [-> ->]. now repeat split.
Qed.
Lemma last_in (envs : list environment2) e0 : envs <> [] -> In (last envs e0) envs.
Proof. induction envs as [|e [|e' envs] IH]; [congruence|left; reflexivity|]. intros _. right. apply IH. discriminate. Qed.
Lemma divided_names post envs trail : divided post envs trail -> forall e, In e envs -> env_label2 e = S! "document".
Proof. induction 1; intros e He; [destruct He| |auto]. destruct He as [<-|He]; auto. Qed.

Theorem restored d pr envs trail d3 d' : fits d -> count_newlines (show2 d) < 2147483648 -> parts d pr envs trail ->
  try_from3 Release d = Ok d3 -> from3_to2 Release d3 = @Ok error _ d' ->
  (show2 d' = show2 (put_together pr envs trail) <-> tidy (atoms (put_together pr envs trail))) /\
  (seen d' = seen (put_together pr envs trail) <-> tidy (atoms (put_together pr envs trail))).
Proof.
  intros F Sm HP HT HF. change (Ok d3) with (to_outcome (Good d3)) in HT. apply (wdocument_iff d _ F) in HT.
  remember (Good d3) as R eqn:ER. destruct HT as [pr' envs' trail' e HP' Hc|pr' envs' trail' cls pss opts rb rp rt HP' Hc _ _ HB Hp Ht]; [discriminate|].
  assert (pr' = pr /\ envs' = envs /\ trail' = trail) as (-> & -> & ->) by (eapply parts_unique; eassumption).
  apply andthen_good in ER as (body & f & -> & E1 & ->). apply andthen_good in E1 as (pre & tr & -> & -> & ->).
  destruct (parts_fits _ _ _ _ HP F) as (F1 & F2 & F3). destruct HP as (post & -> & HN & _ & HD). pose proof (nl_inside _ _ _ HD) as NL.
  unfold put_together. set (dflt := mkEnv2 (S! "document") [] [] [] []) in *. set (en := last envs dflt) in *.
  rewrite Doc3.show2_app, count_newlines_app in Sm. fold (nl2 pr) in Sm. fold (nl2 post) in Sm.
  assert (BV : exists args content pb pe, wreads_variant (Environment2 en) (Good (Environment3 (mkEnv3 (S! "document") args content pb pe))) /\
     document_of cls opts body pre tr = mkDoc3 cls opts pre content args pb pe tr).
  { pose proof (wbodies_last _ _ HB body eq_refl) as K. destruct body as [b|].
    - specialize (K dflt). fold en in K. destruct (wread_env _ _ K) as (lab & args & content & pb & pe & args3 & out & Ee & _ & _ & ->).
      assert (lab = S! "document") as ->.
      { assert (Hl : env_label2 en = S! "document"); [|now rewrite Ee in Hl]. destruct envs as [|e0 envs]; [reflexivity|]. apply (divided_names _ _ _ HD). apply last_in. discriminate. }
      exists args3, out, pb, pe. split; [exact K|reflexivity].
    - subst envs. exists [], [], [], []. split; [|reflexivity]. exact (wv_environment (S! "document") [] [] [] [] (Good []) (Good []) wa_nil (wd_nil 0)). }
  destruct BV as (args3 & out & pb & pe & V & E). rewrite E in HF. clear E HB body.
  assert (FE : fits [mkChunk2 1 (Environment2 en)]).
  { apply env_fits. intros inner Hi. destruct envs as [|e0 envs]; [|eapply F3; [|exact Hi]; apply last_in; discriminate].
    inversion Hi; subst; [match goal with K : In _ [] |- _ => destruct K end|]. split; constructor; cbn; try reflexivity; intros; contradiction. }
  assert (P2 : part [mkChunk2 1 (Environment2 en)] [mkChunk3 1 (Environment3 (mkEnv3 (S! "document") args3 out pb pe))]).
  { assert (W : wreads 0 [mkChunk2 1 (Environment2 en)] (Good [mkChunk3 1 (Environment3 (mkEnv3 (S! "document") args3 out pb pe))])).
    { refine (wd_plain 0 1 _ [] _ (Good []) _ V (wd_nil 0)). intros t. split; intros (a & K); discriminate. }
    split; [exact (proj2 (wmaths_reads _ _ FE) W)|]. split; [exact W|]. fold (nl2 [mkChunk2 1 (Environment2 en)]). lia. }
  assert (P1 : part pr pre) by (split; [exact (proj2 (wmaths_reads _ _ F1) Hp)|]; split; [exact Hp|fold (nl2 pr); lia]).
  assert (P3 : part trail tr) by (split; [exact (proj2 (wmaths_reads _ _ F2) Ht)|]; split; [exact Ht|fold (nl2 trail); lia]).
  assert (S3 : count_newlines (show2 (pr ++ [mkChunk2 1 (Environment2 en)] ++ trail)) < 2147483648).
  { rewrite !Doc3.show2_app, !count_newlines_app. fold (nl2 pr) (nl2 trail) (nl2 [mkChunk2 1 (Environment2 en)]). lia. }
  destruct (parts_exact _ _ _ _ _ _ P1 P2 P3 S3) as [K1 K2]. cbn [app] in K1, K2.
  assert (SD : seen d' = seen (flats (pre ++ mkChunk3 1 (Environment3 (mkEnv3 (S! "document") args3 out pb pe)) :: tr))).
  { apply dn_document in HF. rewrite (seen_doc _ _ HF), seen_pushes, flats_app. cbn [d_preamable d_trailing].
    change (flats (mkChunk3 1 (Environment3 (mkEnv3 (S! "document") args3 out pb pe)) :: tr)) with ([flat_env (mkDoc3 cls opts pre out args3 pb pe tr)] ++ flats tr). rewrite !seen_app, <- app_assoc. reflexivity. }
  rewrite SD. split; [|exact K2]. rewrite (seen_show _ _ SD). exact K1.
Qed.

(** ** One document environment *)
Definition undoc (c : chunk2) : Prop := ~ is_document c.
Lemma divided_post post : Forall undoc post -> divided post [] post.
Proof. induction 1; constructor; assumption. Qed.
Lemma one_parts pre l args content pb pe post : Forall undoc pre -> Forall undoc post ->
  parts (pre ++ mkChunk2 l (Environment2 (mkEnv2 (S! "document") args content pb pe)) :: post) pre [mkEnv2 (S! "document") args content pb pe] post.
Proof.
  intros H1 H2. eexists. split; [reflexivity|]. split; [exact H1|]. split; [|constructor; now apply divided_post].
  intros c r E. injection E as <- _. now repeat eexists.
Qed.
Lemma one_same pre l e post : atoms (put_together pre [e] post) = atoms (pre ++ mkChunk2 l (Environment2 e) :: post) /\
  seen (put_together pre [e] post) = seen (pre ++ mkChunk2 l (Environment2 e) :: post) /\ show2 (put_together pre [e] post) = show2 (pre ++ mkChunk2 l (Environment2 e) :: post).
Proof.
  assert (S : seen (put_together pre [e] post) = seen (pre ++ mkChunk2 l (Environment2 e) :: post)) by (unfold put_together; rewrite !seen_app, !seen_cons; reflexivity).
  split; [unfold put_together; rewrite !atoms_app, !atoms_cons; reflexivity|]. split; [exact S|now apply seen_show].
Qed.

(** ** No maths *)
Lemma bracket_label t : SpecSeen.bracket [opener t] = true /\ SpecSeen.bracket [closer t] = true. Proof. now destruct t. Qed.
Lemma mathless_tidy cs : forallb mathless cs = true -> tidy (atoms cs).
Proof.
  assert (L : forall cs, Forall (fun c => mathless c = true -> forall A, tidy A -> tidy (atoms_chunk c ++ A)) cs -> forallb mathless cs = true -> tidy (atoms cs)).
  { clear. intros cs H M. rewrite <- (app_nil_r (atoms cs)). assert (T : tidy []) by constructor. revert M. induction H as [|c cs Hc _ IH]; intros M; [exact T|]. cbn [forallb] in M. apply andb_prop in M as [M1 M2].
    destruct c as [l v]. rewrite atoms_cons, <- app_assoc. apply Hc; auto. }
  assert (K : forall c, mathless c = true -> forall A, tidy A -> tidy (atoms_chunk c ++ A)).
  { assert (AA : forall args : list (str * scope2), Forall (fun a : str * scope2 => Forall (fun c => mathless c = true -> forall A, tidy A -> tidy (atoms_chunk c ++ A)) (chunks2 (snd a))) args ->
      forallb (fun a : str * scope2 => match a with (_, mkScope2 cs _) => forallb mathless cs end) args = true -> forall pre cs v, In (pre, mkScope2 cs v) args -> tidy (atoms cs)).
    { intros args H M pre cs0 v Hi. rewrite Forall_forall in H. specialize (H _ Hi). rewrite forallb_forall in M. specialize (M _ Hi). exact (L _ H M). }
    intros c. induction c as [l s|l lab args IH|l cs0 v IH|l lab args cs0 pb pe IHa IH] using chunk2_ind'; intros M A T; cbn [atoms_chunk app].
    - apply td_edge; [reflexivity|]. rewrite <- app_assoc. cbn [app]. assert (T' : tidy (TextEnd :: A)) by (now apply td_edge). revert M T'. generalize (TextEnd :: A). clear. cbn [mathless]. intros A M T.
      induction s as [|c s IH]; [exact T|]. cbn [existsb negb] in M. destruct (N.eqb_spec c_dollar c) as [E|E]; [discriminate|]. cbn [map app]. apply td_char; [congruence|]. now apply IH.
    - cbn [mathless] in M. apply andb_prop in M as [M1 M2]. apply td_other; [|intros cs0 Hi; inversion Hi; subst; eapply (AA args IH M2); eassumption|exact T].
      intros t. destruct (bracket_label t) as [B1 B2]. split; intros (a & E); injection E as -> _; [rewrite B1 in M1|rewrite B2 in M1]; discriminate.
    - apply td_other; [intros t; split; intros (a & E); discriminate| |exact T]. intros i Hi. inversion Hi; subst. exact (L _ IH M).
    - cbn [mathless] in M. apply andb_prop in M as [M1 M2]. apply td_other; [intros t; split; intros (a & E); discriminate| |exact T]. intros i Hi. inversion Hi; subst; [eapply (AA args IHa M1); eassumption|exact (L _ IH M2)]. }
  apply L. apply Forall_forall. intros c _. apply K.
Qed.

(** ** One to one *)
Lemma un_down x y a b : unnumbered_document3 x = unnumbered_document3 y -> @from3_to2 error Release x = Ok a -> @from3_to2 error Release y = Ok b -> seen a = seen b.
Proof.
  intros U Ha Hb. apply dn_document in Ha. apply dn_document in Hb. rewrite (seen_doc _ _ Ha), (seen_doc _ _ Hb), !seen_pushes, !seen_app.
  unfold unnumbered_document3 in U. injection U as _ _ E3 E4 E5 E6 E7 E8. rewrite (un_flats _ _ E3), (un_flats _ _ E8). do 2 f_equal. unfold flat_env. rewrite (un_flats _ _ E4), E6, E7. 
  assert (FA : flat_args (d_body_args x) = flat_args (d_body_args y)); [|now rewrite FA].
  assert (K : forall args, flat_args (unn_args args) = flat_args args) by (intros args; apply un_flat_args, Forall_forall; intros c _; apply Forall_forall; intros z _; apply un_flat).
  rewrite <- (K (d_body_args x)), <- (K (d_body_args y)). f_equal. exact E5.
Qed.
Lemma parsed_newlines p s d : source_fits s -> from_str2 p s = Ok d -> count_newlines (show2 d) = count_newlines s.
Proof. intros B H. destruct (from_str2_split p s d B H) as (d1 & H1 & _ & H2 & _). apply try_from2_show in H2. apply (from_str1_newlines p s d1 B) in H1. now rewrite H2. Qed.
