(** * Env2: matching of environments, line numbers of environments, places of errors *)
From Verif Require Import Base Ast1 Parse1 Ast2 Ast3 Spec1 SpecDoc1 SpecDoc2 SpecDoc3 Tok Pure1 Refine1 Gram1 Ind Lines Facts1
  Valid1 Valid2 Spec2 Eqb Conv2 Fail2 Facts2 Good2.
Open Scope N_scope.

(** ** From flat matching to nesting *)
Inductive wopen : list (list chunk1) -> list chunk1 -> Prop :=
| wo_nil b : well_nested b -> wopen [] b
| wo_cons st b0 l pb lab args b1 : wopen st b0 -> well_nested_args args -> well_nested b1 ->
    wopen (lab :: st) (b0 ++ begin_cmd l pb lab args :: b1).
Lemma wopen_app st b : wopen st b -> forall x, well_nested x -> wopen st (b ++ x).
Proof.
  destruct 1; intros x Hx.
  - constructor. now apply well_nested_app.
  - rewrite <- app_assoc. cbn [app]. constructor; auto. now apply well_nested_app.
Qed.
Lemma inside_app a b : inside_ok (a ++ b) -> inside_ok a /\ inside_ok b.
Proof. intros [H1 H2]. split; split; intros; [eapply H1|eapply H2|eapply H1|eapply H2]; try eassumption; apply in_or_app; eauto. Qed.
Lemma inside_args l lab args : inside_ok [mkChunk1 l (Command1 (mkCommand1 lab args))] -> well_nested_args args.
Proof.
  intros [_ H]. assert (K : forall pre cs v, In (pre, mkScope1 cs v) args -> well_nested cs) by (intros; eapply H; [left; reflexivity|eassumption]).
  clear H. induction args as [|[pre [cs v]] args IH]; constructor.
  - eapply K. left. reflexivity.
  - apply IH. intros. eapply K. right. eassumption.
Qed.
Lemma opens_wopen st b : opens st b -> inside_ok b -> wopen st b.
Proof.
  induction 1 as [|st b c Ho IH Hp|st b l pb lab args Ho IH|st b l pe lab Ho IH]; intros Hi.
  - constructor. constructor.
  - apply inside_app in Hi as [Hi Hc]. apply wopen_app; [auto|]. destruct c as [l [s|[lab args]|[cs v]]].
    + repeat constructor.
    + destruct Hp. constructor; auto; [|constructor]. eapply inside_args. exact Hc.
    + constructor; [|constructor]. destruct Hc as [Hc _]. eapply Hc. left. reflexivity.
  - apply inside_app in Hi as [Hi Hc]. constructor; auto; [|constructor].
    unfold begin_cmd in Hc. apply inside_args in Hc. now inversion Hc.
  - apply inside_app in Hi as [Hi Hc]. specialize (IH Hi). inversion IH; subst. rewrite <- app_assoc. cbn [app].
    apply wopen_app; auto. apply wn_env; auto. constructor.
Qed.
Lemma opens_well_nested b : opens [] b -> inside_ok b -> well_nested b.
Proof. intros H Hi. apply opens_wopen in H; auto. now inversion H. Qed.

(** ** Uniqueness of the matching [\end] *)
Lemma begin_not_plain l pb lab args : ~ plain (begin_cmd l pb lab args).
Proof. intros [H _]. now apply H. Qed.
Lemma end_not_plain l pe lab : ~ plain (end_cmd l pe lab).
Proof. intros [_ H]. now apply H. Qed.
Lemma begin_not_end l pb lab args l' pe lab' : begin_cmd l pb lab args <> end_cmd l' pe lab'.
Proof. unfold begin_cmd, end_cmd. intros H. injection H as _ H _. discriminate H. Qed.

Lemma opens_snoc st b c : opens st (b ++ [c]) ->
  (plain c /\ opens st b) \/ (exists l pb lab args st', c = begin_cmd l pb lab args /\ st = lab :: st' /\ opens st' b) \/
  (exists l pe lab, c = end_cmd l pe lab /\ opens (lab :: st) b).
Proof.
  intros H. inversion H as [E1 E2|st0 b0 c0 Ho Hp E1 E2|st0 b0 l pb lab args Ho E1 E2|st0 b0 l pe lab Ho E1 E2]; subst.
  - now destruct b.
  - apply app_inj_tail in E2 as [-> ->]. auto.
  - apply app_inj_tail in E2 as [-> <-]. right. left. eauto 9.
  - apply app_inj_tail in E2 as [-> <-]. right. right. eauto 9.
Qed.
Lemma begin_inj l pb lab args l' pb' lab' args' : begin_cmd l pb lab args = begin_cmd l' pb' lab' args' ->
  l = l' /\ pb = pb' /\ lab = lab' /\ args = args'.
Proof. unfold begin_cmd. intros H. injection H. auto. Qed.
Lemma end_inj l pe lab l' pe' lab' : end_cmd l pe lab = end_cmd l' pe' lab' -> l = l' /\ pe = pe' /\ lab = lab'.
Proof. unfold end_cmd. intros H. injection H. auto. Qed.
Lemma opens_det b : forall st st', opens st b -> opens st' b -> st = st'.
Proof.
  induction b as [|c b IH] using rev_ind; intros st st' H H'.
  - assert (K : forall x, opens x [] -> x = []). { intros x Hx. inversion Hx; auto; now destruct b. }
    rewrite (K _ H), (K _ H'). reflexivity.
  - apply opens_snoc in H as [[P H]|[(l & pb & lab & args & s1 & -> & -> & H)|(l & pe & lab & -> & H)]];
    apply opens_snoc in H' as [[P' H']|[(l' & pb' & lab' & args' & s1' & E & -> & H')|(l' & pe' & lab' & E & H')]]; try subst c.
    + auto.
    + now apply begin_not_plain in P.
    + now apply end_not_plain in P.
    + now apply begin_not_plain in P'.
    + apply begin_inj in E as (_ & _ & -> & _). f_equal. auto.
    + now apply begin_not_end in E.
    + now apply end_not_plain in P'.
    + symmetry in E. now apply begin_not_end in E.
    + apply end_inj in E as (_ & _ & ->). specialize (IH _ _ H H'). now injection IH.
Qed.
Lemma opens_prefix b : forall st a, opens st (a ++ b) -> exists st', opens st' a.
Proof.
  induction b as [|c b IH] using rev_ind; intros st a H.
  - rewrite app_nil_r in H. eauto.
  - rewrite app_assoc in H. apply opens_snoc in H as [[P H]|[(l & pb & lab & args & s1 & -> & -> & H)|(l & pe & lab & -> & H)]]; eauto.
Qed.
Lemma no_early_end b l pe lab y : opens [] b -> ~ opens [] (b ++ end_cmd l pe lab :: y).
Proof.
  intros H H'. change (end_cmd l pe lab :: y) with ([end_cmd l pe lab] ++ y) in H'. rewrite app_assoc in H'.
  apply opens_prefix in H' as [st' H'].
  apply opens_snoc in H' as [[P _]|[(l0 & pb & lab0 & args & s1 & E & _)|(l0 & pe0 & lab0 & _ & H')]].
  - now apply end_not_plain in P.
  - symmetry in E. now apply begin_not_end in E.
  - pose proof (opens_det _ _ _ H H'). discriminate.
Qed.
Lemma matching_unique b l pe lab x : forall b' l' pe' lab' x', opens [] b -> opens [] b' ->
  b ++ end_cmd l pe lab :: x = b' ++ end_cmd l' pe' lab' :: x' -> b = b' /\ end_cmd l pe lab = end_cmd l' pe' lab' /\ x = x'.
Proof.
  intros b' l' pe' lab' x' H H' E.
  assert (S : forall (a c : list chunk1) m n y z, a ++ m :: y = c ++ n :: z ->
     (a = c /\ m = n /\ y = z) \/ (exists w, c = a ++ m :: w) \/ (exists w, a = c ++ n :: w)).
  { induction a as [|q a IH]; intros c m n y z F; destruct c as [|r c]; cbn [app] in F.
    - injection F. auto.
    - injection F as -> F. right. left. exists c. reflexivity.
    - injection F as -> F. right. right. exists a. reflexivity.
    - injection F as -> F. destruct (IH _ _ _ _ _ F) as [(-> & -> & ->)|[[w ->]|[w ->]]]; eauto. right. left. exists w. reflexivity. right. right. exists w. reflexivity. }
  destruct (S _ _ _ _ _ _ E) as [(-> & E1 & ->)|[[w ->]|[w ->]]]; auto.
  - now apply (no_early_end b l pe lab w) in H.
  - now apply (no_early_end b' l' pe' lab' w) in H'.
Qed.

(** ** Line numbers of environments *)
Lemma converts_show :
  (forall d d2, converts d d2 -> show2 d2 = show1 d) /\
  (forall args args', converts_args args args' -> show_args2 args' = args_text args).
Proof.
  apply converts_both_ind; intros; rewrite ?show2_cons, ?show1_cons; auto.
  - cbn [show_chunk1 show_chunk2 show_variant1 show_variant2]. now f_equal.
  - cbn [show_chunk1 show_chunk2 show_variant1 show_variant2 show_scope1 show_scope2].
    fold (show2 cs') (show1 cs). now rewrite H, H0, open2_of, close2_of.
  - cbn [show_chunk1 show_chunk2 show_variant1 show_variant2 show_command1 show_command2].
    fold (show_args2 args') (args_text args). now rewrite H, H0.
  - rewrite show1_app, show1_cons, show_begin, show_end, H1.
    cbn [show_chunk2 show_variant2 show_env2]. fold (show_args2 args') (show2 content). rewrite H, H0, show_rebase.
    change s_begin with (S! "begin"). change s_end with (S! "end"). repeat (rewrite <- ?app_assoc; cbn [app]). reflexivity.
  - unfold show_args2, args_text. cbn [map concat show_scope1 show_scope2]. fold (show2 cs') (show1 cs) (show_args2 args') (args_text args).
    now rewrite H, H0, open2_of, close2_of.
Qed.
Definition nls2 (d : list chunk2) : N := count_newlines (show2 d).
Lemma nls2_cons c d : nls2 (c :: d) = count_newlines (show_chunk2 c) + nls2 d.
Proof. unfold nls2. now rewrite show2_cons, count_newlines_app. Qed.

(** in a list of chunks whose first line is [L]: environments carry the line on which the
    arguments of their [\begin] end; other chunks start on their line (up to their own
    newlines) *)
Definition placed2 (L : N) (c : chunk2) : Prop :=
  match c with
  | mkChunk2 l (Environment2 (mkEnv2 lab args _ pb _)) => l = L + count_newlines (pb ++ lab ++ show_args2 args)
  | mkChunk2 l (Scope2 _) => l = L
  | c => L <= line_no2 c <= L + count_newlines (show_chunk2 c)
  end.
Lemma converts_placed d d2 : converts d d2 -> forall L, good L d ->
  forall pre c post, d2 = pre ++ c :: post -> placed2 (L + nls2 pre) c.
Proof.
  assert (K : forall L c2 d2', placed2 L c2 -> (forall pre c post, d2' = pre ++ c :: post -> placed2 (L + count_newlines (show_chunk2 c2) + nls2 pre) c) ->
    forall pre c post, c2 :: d2' = pre ++ c :: post -> placed2 (L + nls2 pre) c).
  { intros L c2 d2' H0 H pre c post E. destruct pre as [|x pre]; cbn [app] in E; injection E as -> E.
    - change (nls2 []) with 0. rewrite N.add_0_r. subst. exact H0.
    - rewrite nls2_cons. rewrite N.add_assoc. now apply (H pre c post). }
  induction 1 as [|l s d d' _ IH|l cs v cs' d d' Hcs IHc _ IH|l lab args args' d d' H1 H2 Ha _ IH|l pb lab args args' body content l' pe d d' start Est Ha Hb IHb _ IH];
    intros L G.
  - intros [|? ?] c0 post E; discriminate E.
  - inversion G; subst. apply K; [cbn; assumption|]. cbn [show_chunk2 show_variant2]. now apply IH.
  - inversion G; subst. apply K; [reflexivity|].
    replace (count_newlines (show_chunk2 (mkChunk2 l (Scope2 (mkScope2 cs' (sv2_of_sv1 v)))))) with (nls cs); [now apply IH|].
    cbn [show_chunk2 show_variant2 show_scope2]. fold (show2 cs'). rewrite (proj1 converts_show _ _ Hcs), open2_of, close2_of.
    symmetry. exact (nls_scope l cs v).
  - inversion G; subst.
    assert (E : count_newlines (show_chunk2 (mkChunk2 l (Command2 (mkCommand2 lab args')))) = nlch (mkChunk1 l (Command1 (mkCommand1 lab args)))).
    { unfold nlch. cbn [show_chunk2 show_variant2 show_command2 show_chunk1 show_variant1 show_command1].
      fold (show_args2 args') (args_text args). now rewrite (proj2 converts_show _ _ Ha). }
    apply K; [cbn [placed2 line_no2]; rewrite E; assumption|]. rewrite E. now apply IH.
  - fold (begin_end_line l pb lab args) in Est. pose proof (good_env L [] l pb lab args body _ G) as (El & _ & Ga & Gb & Gr & Eb).
    change (nls []) with 0 in El, Eb. rewrite N.add_0_r in El, Eb.
    apply (good_mid _ []) in Gr as (_ & _ & _ & Gr). change (nls []) with 0 in Gr. rewrite N.add_0_r in Gr.
    apply K.
    + cbn [placed2]. rewrite (proj2 converts_show _ _ Ha), Est, El. unfold begin_end_line. rewrite show_scope_eq. cbn [open1 close1].
      repeat (rewrite ?count_newlines_app, ?count_newlines_cons). rewrite count_newlines_nil.
      change (c_lcurly =? c_newline) with false. change (c_rcurly =? c_newline) with false. cbv iota. lia.
    + intros pre c post E. subst d'. specialize (IH _ Gr pre c post eq_refl).
      replace (L + count_newlines (show_chunk2 (mkChunk2 start (Environment2 (mkEnv2 (show1 lab) args' content pb pe))))) with
        (begin_end_line l pb lab args + nls body + nlch (end_cmd l' pe lab)); [exact IH|].
      rewrite Eb. unfold nlch, nls. rewrite show_begin, show_end. cbn [show_chunk2 show_variant2 show_env2].
      fold (show_args2 args') (show2 content). rewrite (proj2 converts_show _ _ Ha), (proj1 converts_show _ _ Hb), show_rebase.
      change s_begin with (S! "begin"). change s_end with (S! "end"). rewrite !count_newlines_app. lia.
Qed.

Lemma converts_args_in args args' : converts_args args args' -> good_args args ->
  forall pre inner v, In (pre, mkScope2 inner v) args' -> exists d, converts d inner /\ good 1 d.
Proof.
  induction 1; intros G pr inner w Hi; [contradiction|]. inversion G; subst. destruct Hi as [E|Hi]; [injection E as <- <- <-|]; eauto.
Qed.
Lemma good_args_of_begin L l pb lab args d : good L (begin_cmd l pb lab args :: d) -> good_args args.
Proof. intros G. inversion G; subst. match goal with H : good_args _ |- _ => now inversion H end. Qed.
Lemma converts_in d d2 : converts d d2 -> forall L, good L d ->
  (forall l inner v, In (mkChunk2 l (Scope2 (mkScope2 inner v))) d2 -> exists d', converts d' inner /\ good 1 d') /\
  (forall l lab args pre inner v, In (mkChunk2 l (Command2 (mkCommand2 lab args))) d2 -> In (pre, mkScope2 inner v) args -> exists d', converts d' inner /\ good 1 d') /\
  (forall l lab args content pb pe pre inner v, In (mkChunk2 l (Environment2 (mkEnv2 lab args content pb pe))) d2 -> In (pre, mkScope2 inner v) args -> exists d', converts d' inner /\ good 1 d') /\
  (forall l lab args content pb pe, In (mkChunk2 l (Environment2 (mkEnv2 lab args content pb pe))) d2 -> exists d', converts d' content /\ good 1 d').
Proof.
  induction 1 as [|l s d d' _ IH|l cs v cs' d d' Hcs IHc _ IH|l lab args args' d d' H1 H2 Ha _ IH|l pb lab args args' body content l' pe d d' start Est Ha Hb IHb _ IH];
    intros L G.
  - repeat split; intros; contradiction.
  - inversion G; subst. destruct (IH _ ltac:(eassumption)) as (A & B & C & D).
    repeat split; intros; repeat match goal with H : In _ (_ :: _) |- _ => destruct H as [H|H]; [discriminate H|] end; eauto.
  - inversion G; subst. destruct (IH _ ltac:(eassumption)) as (A & B & C & D).
    repeat split; intros; repeat match goal with H : In (mkChunk2 _ _) (_ :: _) |- _ => destruct H as [H|H]; [try discriminate H|] end; eauto.
    injection H as <- <- <-. eauto.
  - inversion G; subst. destruct (IH _ ltac:(eassumption)) as (A & B & C & D).
    repeat split; intros; repeat match goal with H : In (mkChunk2 _ _) (_ :: _) |- _ => destruct H as [H|H]; [try discriminate H|] end; eauto.
    injection H as <- <- <-. eapply converts_args_in; eauto.
  - fold (begin_end_line l pb lab args) in Est. pose proof (good_args_of_begin _ _ _ _ _ _ G) as Gar.
    pose proof (good_env L [] l pb lab args body _ G) as (El & _ & Ga & Gb & Gr & Eb).
    apply (good_mid _ []) in Gr as (_ & _ & _ & Gr). change (nls []) with 0 in Gr. rewrite N.add_0_r in Gr.
    destruct (IH _ Gr) as (A & B & C & D).
    repeat split; intros; repeat match goal with H : In (mkChunk2 _ _) (_ :: _) |- _ => destruct H as [H|H]; [try discriminate H|] end; eauto.
    + injection H as <- <- <- <- <- <-. eapply converts_args_in; eauto.
    + injection H as <- <- <- <- <- <-. exists (map (rebase start) body). split; [assumption|]. subst start. now apply rebase_good0.
Qed.
Lemma converts_within d d2 : converts d d2 -> good 1 d -> forall cs, within2 d2 cs -> exists d', converts d' cs /\ good 1 d'.
Proof.
  intros H G cs Hw. induction Hw as [|cs l inner v Hw [d' [IH G']] Hi|cs l lab args pre inner v Hw [d' [IH G']] Hi Hi2|cs l lab args content pb pe pre inner v Hw [d' [IH G']] Hi Hi2|cs l lab args content pb pe Hw [d' [IH G']] Hi].
  - eauto.
  - destruct (converts_in d' cs IH 1 G') as (A & _). eapply A; eauto.
  - destruct (converts_in d' cs IH 1 G') as (_ & A & _). eapply A; eauto.
  - destruct (converts_in d' cs IH 1 G') as (_ & _ & A & _). eapply A; eauto.
  - destruct (converts_in d' cs IH 1 G') as (_ & _ & _ & A). eapply A; eauto.
Qed.

Lemma from_str2_split p s d2 : source_fits s -> from_str2 p s = Ok d2 ->
  exists d, from_str1 p s = Ok d /\ parsed d /\ try_from2 p d = Ok d2 /\ converts d d2.
Proof.
  intros B H. unfold from_str2 in H. destruct (from_str1 p s) as [d| | |] eqn:E; cbn [bind] in H; try discriminate.
  exists d. assert (P : parsed d) by (exists p, s; auto). repeat split; auto. now apply (try_from2_converts p d d2 P).
Qed.
Theorem from_str2_placed p s d2 : source_fits s -> from_str2 p s = Ok d2 ->
  forall cs, within2 d2 cs -> forall pre c post, cs = pre ++ c :: post -> placed2 (1 + count_newlines (show2 pre)) c.
Proof.
  intros B H cs Hw pre c post E. destruct (from_str2_split p s d2 B H) as (d & _ & P & _ & C). apply parsed_good in P as [G _].
  destruct (converts_within _ _ C G cs Hw) as (d' & C' & G'). exact (converts_placed _ _ C' 1 G' _ _ _ E).
Qed.

(** ** Places of errors *)
Lemma rejects_not_nested d e L : rejects d e -> 1 <= L -> good L d -> L + len1 d < two32 -> ~ well_nested d.
Proof.
  intros H HL G B W. apply (proj1 (rejects_fails Release) _ _) with (L := L) in H; auto. apply try_from2_err_iff in H.
  apply try_from2_release_iff in W as [d2 W]. congruence.
Qed.
Lemma rejects_args_not_nested args e : rejects_args args e -> good_args args -> len_args args < two32 -> ~ well_nested_args args.
Proof.
  induction 1 as [pre cs v args e H|pre cs v cs' args e Hc H IH]; intros G B W; inversion G; subst; inversion W; subst; rewrite len_args_cons in B.
  - eapply (rejects_not_nested cs e 1); eauto; lia.
  - apply IH; auto. lia.
Qed.
Lemma inside_in_args d l lab args : inside_ok d -> In (mkChunk1 l (Command1 (mkCommand1 lab args))) d -> well_nested_args args.
Proof.
  intros [_ H] Hi. apply (inside_args l lab). split.
  - intros l0 cs v [E|[]]. discriminate E.
  - intros l0 lab0 args0 pre cs v [E|[]] Ha. injection E as <- <- <-. eapply H; eauto.
Qed.

Theorem flat_errors p d e : parsed d -> inside_ok d -> try_from2 p d = Err e ->
  exists pre c post, d = pre ++ c :: post /\ ~ plain c /\
    (err_line e = 1 + count_newlines (show1 pre) /\
       (err_type e = NoEnvironmentLabel \/ err_type e = TooManyArgsEnd \/ exists lab, err_type e = UnexpectedEnd lab)
     \/ exists lab, err_type e = UnclosedEnvironment lab /\ err_line e = 1 + count_newlines (show1 (pre ++ [c]))).
Proof.
  intros P I H. apply (try_from2_rejects p d e P) in H. apply parsed_good in P as [G B].
  assert (BH : forall open c e0, bad_here open c e0 -> ~ plain c /\ (forall L, good L [c] -> err_line e0 = L) /\
     (err_type e0 = NoEnvironmentLabel \/ err_type e0 = TooManyArgsEnd \/ exists lab, err_type e0 = UnexpectedEnd lab)).
  { intros open c e0 Hb. split; [|split].
    - destruct Hb as [l lab args [->| ->] _|l pe lab args _|l pe lab args _ _]; cbn [plain]; intros [X Y]; congruence.
    - intros L GL. rewrite (bad_here_line _ _ _ Hb). destruct Hb as [l lab args F _|l pe lab args _|l pe lab args _ _]; inversion GL; subst; auto.
    - destruct Hb; cbn [err_type]; eauto. }
  inversion H as [pre pre' c post e0 Hc Hb|pre pre' l cs v post e0 Hc Hr|pre pre' l lab args post e0 Hc H1 H2 Hr|pre pre' l pb lab args b c post e0 inner Hc Ho Hb
     |pre pre' l pb lab args b inner Hc Ho|pre pre' l pb lab args b l' pe post e0 Hc Ho Hr|pre pre' l pb lab args args' b l' pe post e0 Hc Ho Ha Hr]; subst.
  - destruct (BH _ _ _ Hb) as (B1 & B2 & B3). apply good_mid in G as (_ & _ & Gc & _).
    exists pre, c, post. split; [reflexivity|]. split; [exact B1|]. left. split; [exact (B2 _ Gc)|exact B3].
  - exfalso. destruct I as [I _]. rewrite len1_app, len1_cons, len_scope in B.
    apply good_mid in G as (_ & _ & Gc & _). inversion Gc; subst. apply (rejects_not_nested cs e0 1) in Hr; auto; [|lia|lia]. apply Hr.
    eapply I. apply in_elt.
  - exfalso. rewrite len1_app, len1_cons, len_cmd in B. apply good_mid in G as (_ & _ & Gc & _). inversion Gc; subst.
    apply rejects_args_not_nested in Hr; auto; [|lia]. apply Hr. eapply inside_in_args; [exact I|apply in_elt].
  - destruct (BH _ _ _ Hb) as (B1 & B2 & B3).
    change (pre ++ begin_cmd l pb lab args :: b ++ c :: post) with (pre ++ (begin_cmd l pb lab args :: b) ++ c :: post) in *. rewrite app_assoc in *.
    apply good_mid in G as (_ & _ & Gc & _).
    exists (pre ++ begin_cmd l pb lab args :: b), c, post. split; [reflexivity|]. split; [exact B1|]. left. split; [exact (B2 _ Gc)|exact B3].
  - exists pre, (begin_cmd l pb lab args), b. split; [reflexivity|]. split; [apply begin_not_plain|]. right. exists (show1 lab). split; [reflexivity|].
    cbn [err_line]. rewrite <- (app_nil_r b) in G. apply good_env in G as (_ & _ & _ & _ & _ & ->). rewrite show1_app, show1_one, count_newlines_app. unfold nls, nlch. lia.
  - exfalso. rewrite len1_app, len1_cons in B. pose proof (len_begin_args l pb lab args). apply good_env in G as (_ & _ & Ga & _).
    apply rejects_args_not_nested in Hr; auto; [|lia]. apply Hr.
    assert (W : well_nested_args ((pb, mkScope1 lab Curly1) :: args)) by (eapply inside_in_args; [exact I|apply in_elt]). now inversion W.
  - exfalso. rewrite len1_app, len1_cons, len1_app in B. apply good_env in G as (_ & _ & _ & Gb & _).
    apply (rejects_not_nested _ e0 1) in Hr; [|lia|now apply rebase_good0|rewrite len_rebase; lia]. apply Hr.
    eapply (proj1 well_nested_same); [|apply rebase_same]. apply opens_well_nested; auto.
    apply inside_app in I as [_ I]. change (begin_cmd l pb lab args :: b ++ end_cmd l' pe lab :: post) with ([begin_cmd l pb lab args] ++ b ++ end_cmd l' pe lab :: post) in I.
    apply inside_app in I as [_ I]. now apply inside_app in I as [I _].
Qed.

(** every error of the conversion is one of four kinds *)
Lemma fails_kinds p :
  (forall d e, fails p d e -> err_type e = NoEnvironmentLabel \/ err_type e = TooManyArgsEnd \/
     (exists lab, err_type e = UnexpectedEnd lab) \/ (exists lab, err_type e = UnclosedEnvironment lab)) /\
  (forall args e, fails_args p args e -> err_type e = NoEnvironmentLabel \/ err_type e = TooManyArgsEnd \/
     (exists lab, err_type e = UnexpectedEnd lab) \/ (exists lab, err_type e = UnclosedEnvironment lab)).
Proof.
  apply fails_both_ind; intros; cbn [err_type]; eauto.
  all: match goal with H : bad_here _ _ _ |- _ => destruct H end; cbn [err_type]; eauto.
Qed.

(** ** Statements about sources *)
Theorem from_str2_total p s : source_fits s -> (exists d, from_str2 p s = Ok d) \/ (exists e, from_str2 p s = Err e).
Proof.
  intros B. unfold from_str2. destruct (from_str1_toks p s B) as [E _].
  assert (K : (exists d, from_str1 p s = Ok d) \/ (exists e, from_str1 p s = Err e)).
  { rewrite E. destruct (parse_toks (tokens s)); cbn [inj]; eauto. }
  destruct K as [[d Ed]|[e Ee]].
  - rewrite Ed. cbn [bind]. apply try_from2_parsed. exists p, s. auto.
  - rewrite Ee. cbn [bind]. eauto.
Qed.
Theorem from_str2_profiles s : source_fits s -> from_str2 Debug s = from_str2 Release s.
Proof.
  intros B. unfold from_str2. pose proof (from_str1_toks Debug s B) as [E _]. pose proof (from_str1_toks Release s B) as [E' _].
  rewrite E, E'. rewrite <- E. destruct (from_str1 Debug s) as [d| | |] eqn:F; cbn [bind]; auto.
  apply try_from2_profiles. exists Debug, s. auto.
Qed.
Theorem from_str2_lines {E} p s d2 : source_fits s -> from_str2 p s = Ok d2 -> @lines2 E p d2 = Ok (1 + count_newlines s).
Proof.
  intros B H. destruct (from_str2_split p s d2 B H) as (d & H1 & _ & H2 & _).
  apply try_from2_show in H2. apply (from_str1_newlines p s d B) in H1. 
  assert (Hs : count_newlines (show2 d2) = count_newlines s) by (rewrite H2; exact H1).
  rewrite <- Hs. apply lines2_correct. rewrite Hs. pose proof (count_newlines_le s). unfold source_fits in B. lia.
Qed.
Theorem try_from2_parsed_iff p d : parsed d -> ((exists d2, try_from2 p d = Ok d2) <-> well_nested d).
Proof.
  intros P. rewrite <- try_from2_release_iff. destruct p; [|reflexivity]. now rewrite (try_from2_profiles d P).
Qed.
Theorem env_line2 p s d2 : source_fits s -> from_str2 p s = Ok d2 ->
  forall cs, within2 d2 cs -> forall pre l lab args body pb pe post,
  cs = pre ++ mkChunk2 l (Environment2 (mkEnv2 lab args body pb pe)) :: post ->
  l = 1 + count_newlines (show2 pre) + count_newlines (pb ++ lab ++ show_args2 args).
Proof. intros B H cs Hw pre l lab args body pb pe post E. exact (from_str2_placed p s d2 B H cs Hw pre _ post E). Qed.
Theorem other_line2 p s d2 : source_fits s -> from_str2 p s = Ok d2 ->
  forall cs, within2 d2 cs -> forall pre c post, cs = pre ++ c :: post ->
  1 + count_newlines (show2 pre) <= line_no2 c <= 1 + count_newlines (show2 (pre ++ [c])).
Proof.
  intros B H cs Hw pre c post E. pose proof (from_str2_placed p s d2 B H cs Hw pre _ post E) as P.
  rewrite show2_app, show2_one, count_newlines_app.
  destruct c as [l [t|cm|sc|[lab args body pb pe]]]; cbn [placed2 line_no2] in *; try lia.
  cbn [show_chunk2 show_variant2 show_env2]. fold (show_args2 args) (show2 body). rewrite P. repeat rewrite count_newlines_app. lia.
Qed.
