(** * Facts1: consequences of the stage-1 grammar *)
From Verif Require Import Base Ast1 Parse1 Spec1 SpecDoc1 Tok Pure1 Refine1 Gram1 Ind Lines.

(** ** Every nested chunk list is itself parsed, from line 1 *)

Lemma wf_drop_own v ts : Forall wf_token ts -> Forall wf_token (drop_own v ts).
Proof.
  intros H. apply Forall_forall. intros t Ht. apply filter_In in Ht.
  rewrite Forall_forall in H. now apply H.
Qed.

Definition has_parse (cs : list chunk1) : Prop := exists ts, Forall wf_token ts /\ parses 1 ts cs.

(** contents of the chunks of a list *)
Definition kids_ok (c : chunk1) : Prop :=
  match variant_of1 c with
  | Text1 _ => True
  | Scope1 (mkScope1 inner _) => has_parse inner
  | Command1 (mkCommand1 _ args) => Forall (fun a => has_parse (chunks1 (snd a))) args
  end.

Lemma wf_plain_ws ws : forallb (fun t => is_whitespace (tchar t)) ws = true ->
  Forall wf_token (map Plain (chars ws)).
Proof.
  induction ws as [|t ws IH]; cbn [forallb map chars]; intros H; constructor.
  - apply andb_true_iff in H as [H _]. split; intros E; rewrite E in H; discriminate.
  - apply IH. now apply andb_true_iff in H as [_ H].
Qed.

Lemma parses_kids :
  (forall L ts d, parses L ts d -> Forall wf_token ts -> Forall kids_ok d) /\
  (forall ts args, parses_args ts args -> Forall wf_token ts ->
     Forall (fun a => has_parse (chunks1 (snd a))) args).
Proof.
  apply parses_parses_args_ind.
  - constructor.
  - intros L run rest cs Hne Hrun Hrest _ IH W. apply Forall_app in W as [W1 W2].
    constructor; [exact I|auto].
  - intros L v body rest inner cs Hb Hp IHi _ IH W. inversion W as [|? ? W0 W1]; subst.
    apply Forall_app in W1 as [W1 W2]. inversion W2; subst.
    constructor; [|auto]. exists body; auto.
  - intros L c rest cs Ha _ IH W. inversion W; subst. constructor; [constructor|auto].
  - intros L a lab argtoks args ws rest cs Ha Hl _ IHa Hws Hf Hne _ IH W.
    inversion W as [|? ? W0 W1]; subst.
    apply Forall_app in W1 as [W1 W2]. apply Forall_app in W2 as [W2 W3]. apply Forall_app in W3 as [W3 W4].
    constructor; [exact (IHa W2)|]. apply IH. apply Forall_app; split; [now apply wf_plain_ws|auto].
  - intros L a lab argtoks args ws Ha Hl _ IHa Hws Hne W.
    inversion W as [|? ? W0 W1]; subst.
    apply Forall_app in W1 as [W1 W2]. apply Forall_app in W2 as [W2 W3].
    constructor; [exact (IHa W2)|]. constructor; [exact I|constructor].
  - constructor.
  - intros pre o v body inner rest args Hpre Ho Hb Hp IHi _ IH W.
    apply Forall_app in W as [W1 W2]. inversion W2 as [|? ? W3 W4]; subst.
    apply Forall_app in W4 as [W4 W5]. inversion W5; subst.
    constructor; [|auto]. exists (drop_own v body). split; [now apply wf_drop_own|auto].
Qed.

Lemma within_parse d cs : has_parse d -> within1 d cs -> has_parse cs.
Proof.
  intros Hd Hw. induction Hw as [|cs l inner v Hw IH Hin|cs l lab args pre inner v Hw IH Hin Ha].
  - assumption.
  - destruct IH as [ts [W Hp]]. pose proof (proj1 parses_kids _ _ _ Hp W) as K.
    rewrite Forall_forall in K. exact (K _ Hin).
  - destruct IH as [ts [W Hp]]. pose proof (proj1 parses_kids _ _ _ Hp W) as K.
    rewrite Forall_forall in K. specialize (K _ Hin). cbn in K.
    rewrite Forall_forall in K. exact (K _ Ha).
Qed.

Lemma from_str1_has_parse p s d : N.of_nat (length s) + 1 < two32 ->
  from_str1 p s = Ok d -> has_parse d /\ parses 1 (tokens s) d.
Proof.
  intros B H. apply (from_str1_iff p s d B) in H. split; [|assumption].
  exists (tokens s). split; [apply tokens_wf|assumption].
Qed.

(** ** C02, C03: what Display loses *)

Lemma degrades_refl a : degrades a a.
Proof. induction a; [constructor|now apply dg_keep]. Qed.
Lemma degrades_app a b c d : degrades a b -> degrades c d -> degrades (a ++ c) (b ++ d).
Proof.
  intros H K. induction H; cbn; [assumption|apply dg_keep|apply dg_drop|apply dg_open|apply dg_close]; auto.
Qed.
Lemma degrades_trans a b c : degrades a b -> degrades b c -> degrades a c.
Proof.
  intros H. revert c. induction H as [|x a b H IH|x a b H IH|x a b Hx H IH|x a b Hx H IH]; intros c0 K.
  - assumption.
  - inversion K as [|? ? ? K1|? ? ? K1|? ? ? Hc K1|? ? ? Hc K1]; subst.
    + apply dg_keep; auto. + apply dg_drop; auto. + apply dg_open; auto. + apply dg_close; auto.
  - apply dg_drop; auto.
  - inversion K as [|? ? ? K1|? ? ? K1|? ? ? Hc K1|? ? ? Hc K1]; subst.
    + apply dg_open; auto.
    + apply dg_drop; auto.
    + apply dg_open; auto.
    + discriminate.
  - inversion K as [|? ? ? K1|? ? ? K1|? ? ? Hc K1|? ? ? Hc K1]; subst.
    + apply dg_close; auto.
    + apply dg_drop; auto.
    + discriminate.
    + apply dg_close; auto.
Qed.

Lemma close_is_closing v : is_closing (close1 v) = true.
Proof. now destruct v. Qed.

Lemma degrades_ws ts : degrades (untoks ts) (chars ts).
Proof.
  induction ts as [|[c|c] ts IH]; [constructor| |]; rewrite untoks_cons; cbn.
  - now constructor.
  - apply dg_drop. now constructor.
Qed.

Lemma degrades_drop_own v ts : degrades (untoks ts) (untoks (drop_own v ts)).
Proof.
  induction ts as [|t ts IH]; [constructor|].
  unfold drop_own. cbn [filter]. destruct (is_open_tok v t) eqn:Eo; cbn [orb negb].
  - apply is_open_tok_eq in Eo as ->. rewrite untoks_cons. cbn. apply dg_drop; auto.
  - destruct (is_close_tok v t) eqn:Ec; cbn [negb].
    + apply is_close_tok_eq in Ec as ->. rewrite untoks_cons. cbn. apply dg_drop; auto.
    + rewrite !untoks_cons. apply degrades_app; auto using degrades_refl.
Qed.

Lemma untoks_text run : forallb is_text_tok run = true -> untoks run = chars run.
Proof.
  induction run as [|[c|c] run IH]; cbn [forallb is_text_tok andb]; intros H; try discriminate; [reflexivity|].
  apply andb_true_iff in H as [_ H]. rewrite untoks_cons. cbn. now rewrite IH.
Qed.

Lemma show1_cons c cs : show1 (c :: cs) = show_chunk1 c ++ show1 cs.
Proof. reflexivity. Qed.

Lemma show_scope_eq cs v : show_scope1 (mkScope1 cs v) = open1 v :: show1 cs ++ [close1 v].
Proof. reflexivity. Qed.
Lemma show_args_cons pre sc args : show_args1 ((pre, sc) :: args) = (pre ++ show_scope1 sc) ++ show_args1 args.
Proof. reflexivity. Qed.

Lemma parses_degrades :
  (forall L ts d, parses L ts d -> degrades (untoks ts) (show1 d)) /\
  (forall ts args, parses_args ts args -> degrades (untoks ts) (show_args1 args)).
Proof.
  apply parses_parses_args_ind.
  - constructor.
  - intros L run rest cs Hne Hrun Hrest _ IH. rewrite untoks_app, show1_cons. cbn [show_chunk1 show_variant1].
    rewrite (untoks_text _ Hrun). apply degrades_app; auto using degrades_refl.
  - intros L v body rest inner cs Hb Hp IHi _ IH.
    rewrite untoks_cons, untoks_app, untoks_cons, show1_cons. cbn [show_chunk1 show_variant1].
    rewrite show_scope_eq. cbn [untok]. cbn [app open1]. apply dg_open; [apply open_is_opening|].
    rewrite <- !app_assoc. apply degrades_app; auto. cbn [app close1].
    apply dg_close; [apply close_is_closing|]. assumption.
  - intros L c rest cs Ha _ IH. rewrite untoks_cons, show1_cons.
    cbn. repeat apply dg_keep. exact IH.
  - intros L a lab argtoks args ws rest cs Ha Hl _ IHa Hws Hf Hne _ IH.
    rewrite untoks_cons, !untoks_app, untoks_map_plain, show1_cons. cbn [show_chunk1 show_variant1 show_command1 untok app].
    apply dg_keep, dg_keep. fold (show_args1 args). rewrite <- app_assoc.
    apply degrades_app; [apply degrades_refl|]. apply degrades_app; [assumption|].
    eapply degrades_trans; [|exact IH]. rewrite untoks_app, untoks_map_plain.
    apply degrades_app; [apply degrades_ws|apply degrades_refl].
  - intros L a lab argtoks args ws Ha Hl _ IHa Hws Hne.
    rewrite untoks_cons, !untoks_app, untoks_map_plain, show1_cons. cbn [show_chunk1 show_variant1 show_command1 untok app].
    apply dg_keep, dg_keep. fold (show_args1 args). rewrite <- app_assoc.
    apply degrades_app; [apply degrades_refl|]. apply degrades_app; [assumption|].
    unfold show1. cbn. rewrite app_nil_r. apply degrades_ws.
  - constructor.
  - intros pre o v body inner rest args Hpre Ho Hb Hp IHi _ IH.
    rewrite show_args_cons, show_scope_eq.
    rewrite untoks_app, untoks_cons, untoks_app, untoks_cons.
    rewrite <- app_assoc. apply degrades_app; [apply degrades_ws|]. cbn [untok app].
    rewrite <- !app_assoc. cbn [app].
    assert (D : degrades (untoks body ++ close1 v :: untoks rest) (show1 inner ++ close1 v :: show_args1 args)).
    { apply degrades_app; [|now apply dg_keep].
      eapply degrades_trans; [apply (degrades_drop_own v)|exact IHi]. }
    destruct o as [c|c]; cbn [tchar] in Ho; subst c; cbn [untok app].
    + now apply dg_keep.
    + apply dg_drop. now apply dg_keep.
Qed.

Lemma lex_degrades s : forall e m : bool,
  degrades ((if e then [c_bslash] else []) ++ s) (untoks (lex e m s)).
Proof.
  induction s as [|c s IH]; intros e m.
  - destruct e; repeat constructor.
  - cbn [lex]. destruct (c =? c_newline).
    { rewrite untoks_cons. specialize (IH false false). cbn [app] in IH.
      destruct e; cbn [app untok]; repeat apply dg_keep; assumption. }
    destruct e; cbn [negb]; rewrite ?andb_false_r, ?andb_true_r.
    + destruct m.
      * specialize (IH true true). cbn [app] in *. inversion IH; subst; cbn.
        -- now apply dg_keep, dg_drop.
        -- now apply dg_drop, dg_drop.
        -- discriminate.
        -- discriminate.
      * rewrite untoks_cons. cbn. repeat apply dg_keep. apply (IH false false).
    + destruct (c =? c_percent). { cbn. apply dg_drop, (IH false true). }
      destruct (N.eqb_spec c c_bslash) as [->|]. { exact (IH true m). }
      destruct m; [cbn; apply dg_drop, (IH false true)|].
      rewrite untoks_cons. cbn. apply dg_keep, (IH false false).
Qed.

Lemma from_str1_degrades p s d : N.of_nat (length s) + 1 < two32 ->
  from_str1 p s = Ok d -> degrades s (show1 d).
Proof.
  intros B H. apply (from_str1_iff p s d B) in H.
  eapply degrades_trans; [exact (lex_degrades s false false)|].
  exact (proj1 parses_degrades _ _ _ H).
Qed.

Lemma degrades_length a b : degrades a b -> (length b <= length a)%nat.
Proof. induction 1; cbn; lia. Qed.

Definition rs_brackets : str := [c_lround; c_lsquare; c_rround; c_rsquare].

Lemma count_char_cons x c s : count_char x (c :: s) = ((if (c =? x)%N then 1 else 0) + count_char x s)%nat.
Proof. unfold count_char. cbn [filter]. now destruct (c =? x). Qed.

Lemma curly_not_rs x : In x rs_brackets -> (c_lcurly =? x) = false /\ (c_rcurly =? x) = false.
Proof. intros [<-|[<-|[<-|[<-|[]]]]]; now split. Qed.

Lemma degrades_count a b : degrades a b -> forall x, In x rs_brackets -> (count_char x b <= count_char x a)%nat.
Proof.
  intros D x Hx. apply curly_not_rs in Hx as [E1 E2].
  induction D as [|c a b D IH|c a b D IH|c a b Hc D IH|c a b Hc D IH]; rewrite ?count_char_cons, ?E1, ?E2; lia.
Qed.

Lemma degrades_exact a b : degrades a b -> length b = length a ->
  (forall x, In x rs_brackets -> count_char x b = count_char x a) -> b = a.
Proof.
  intros D.
  induction D as [|c a b D IH|c a b D IH|c a b Hc D IH|c a b Hc D IH]; intros HL HC.
  - reflexivity.
  - cbn in HL. f_equal. apply IH; [lia|]. intros x Hx. specialize (HC x Hx).
    rewrite !count_char_cons in HC. lia.
  - apply degrades_length in D. cbn in HL. lia.
  - cbn in HL. pose proof (degrades_count _ _ D) as M. unfold is_opening in Hc.
    destruct (N.eqb_spec c c_lcurly) as [->|].
    { f_equal. apply IH; [lia|]. intros x Hx. specialize (HC x Hx). rewrite !count_char_cons in HC. lia. }
    exfalso. destruct (N.eqb_spec c c_lsquare) as [->|].
    { specialize (HC c_lsquare ltac:(cbn; auto)). specialize (M c_lsquare ltac:(cbn; auto)).
      rewrite !count_char_cons, N.eqb_refl in HC.
      match type of HC with context [if ?b then _ else _] => change b with false in HC end; cbv iota in HC; lia. }
    destruct (N.eqb_spec c c_lround) as [->|]; [|discriminate].
    specialize (HC c_lround ltac:(cbn; auto)). specialize (M c_lround ltac:(cbn; auto)).
    rewrite !count_char_cons, N.eqb_refl in HC.
      match type of HC with context [if ?b then _ else _] => change b with false in HC end; cbv iota in HC; lia.
  - cbn in HL. pose proof (degrades_count _ _ D) as M. unfold is_closing in Hc.
    destruct (N.eqb_spec c c_rcurly) as [->|].
    { f_equal. apply IH; [lia|]. intros x Hx. specialize (HC x Hx). rewrite !count_char_cons in HC. lia. }
    exfalso. destruct (N.eqb_spec c c_rsquare) as [->|].
    { specialize (HC c_rsquare ltac:(cbn; auto)). specialize (M c_rsquare ltac:(cbn; auto)).
      rewrite !count_char_cons, N.eqb_refl in HC.
      match type of HC with context [if ?b then _ else _] => change b with false in HC end; cbv iota in HC; lia. }
    destruct (N.eqb_spec c c_rround) as [->|]; [|discriminate].
    specialize (HC c_rround ltac:(cbn; auto)). specialize (M c_rround ltac:(cbn; auto)).
    rewrite !count_char_cons, N.eqb_refl in HC.
      match type of HC with context [if ?b then _ else _] => change b with false in HC end; cbv iota in HC; lia.
Qed.

(** ** C03: content conservation *)

Lemma content_app a b : content (a ++ b) = content a ++ content b.
Proof. unfold content. apply filter_app. Qed.
Lemma content_cons c s : content (c :: s) = content [c] ++ content s.
Proof. exact (content_app [c] s). Qed.
Lemma content_bracket c : is_bracket c = true -> content [c] = [].
Proof. intros H. unfold content. cbn [filter]. now rewrite H. Qed.

Lemma content_untoks ts : content (untoks ts) = content (chars ts).
Proof.
  induction ts as [|t ts IH]; [reflexivity|].
  rewrite untoks_cons, content_app, IH. change (chars (t :: ts)) with (tchar t :: chars ts).
  rewrite (content_cons (tchar t)). f_equal. destruct t; reflexivity.
Qed.

Lemma content_lex s : forall e m, content (untoks (lex e m s)) = content (strip_from e m s).
Proof.
  induction s as [|c s IH]; intros e m; [reflexivity|]. cbn [lex strip_from].
  destruct (c =? c_newline).
  { rewrite untoks_cons, content_app, IH. rewrite (content_cons c). f_equal. now destruct e. }
  destruct m.
  - destruct e; cbn [negb]; rewrite ?andb_false_r, ?andb_true_r; [apply IH|].
    destruct (c =? c_percent); [apply IH|]. destruct (c =? c_bslash); [|apply IH].
    rewrite IH. clear. revert s. fix F 1. intros [|c s]; [reflexivity|]. cbn [strip_from].
    destruct (c =? c_newline); [reflexivity|apply F].
  - destruct e; cbn [negb]; rewrite ?andb_false_r, ?andb_true_r.
    + rewrite untoks_cons, content_app, IH. rewrite (content_cons c). reflexivity.
    + destruct (c =? c_percent); [apply IH|]. destruct (N.eqb_spec c c_bslash) as [->|].
      { rewrite IH. reflexivity. }
      rewrite untoks_cons, content_app, IH. rewrite (content_cons c). reflexivity.
Qed.

Lemma content_drop_own v ts : content (chars (drop_own v ts)) = content (chars ts).
Proof.
  induction ts as [|t ts IH]; [reflexivity|].
  change (chars (t :: ts)) with (tchar t :: chars ts). rewrite (content_cons (tchar t)).
  unfold drop_own in *. cbn [filter]. destruct (is_open_tok v t) eqn:Eo; cbn [orb negb].
  - apply is_open_tok_eq in Eo as ->. rewrite IH. now destruct v.
  - destruct (is_close_tok v t) eqn:Ec; cbn [negb].
    + apply is_close_tok_eq in Ec as ->. rewrite IH. now destruct v.
    + change (chars (t :: ?x)) with (tchar t :: chars x). now rewrite (content_cons (tchar t)), IH.
Qed.

Lemma content_open v : content [open1 v] = [].
Proof. now destruct v. Qed.
Lemma content_close v : content [close1 v] = [].
Proof. now destruct v. Qed.

Lemma chars_cons t ts : chars (t :: ts) = tchar t :: chars ts.
Proof. reflexivity. Qed.

Lemma parses_content :
  (forall L ts d, parses L ts d -> content (show1 d) = content (chars ts)) /\
  (forall ts args, parses_args ts args -> content (show_args1 args) = content (chars ts)).
Proof.
  apply parses_parses_args_ind.
  - reflexivity.
  - intros L run rest cs Hne Hrun Hrest _ IH. rewrite chars_app, show1_cons, !content_app, IH. reflexivity.
  - intros L v body rest inner cs Hb Hp IHi _ IH.
    rewrite show1_cons. cbn [show_chunk1 show_variant1]. rewrite show_scope_eq.
    rewrite chars_cons, chars_app, chars_cons. cbn [tchar].
    rewrite !content_app, (content_cons (open1 _)), (content_cons (open1 v)), !content_app, (content_cons (close1 v) (chars rest)).
    rewrite !content_open, !content_close, IHi, IH, app_nil_r. reflexivity.
  - intros L c rest cs Ha _ IH. rewrite show1_cons. cbn [show_chunk1 show_variant1 show_command1].
    rewrite chars_cons, content_app, IH, (content_cons c). cbn [tchar map concat]. rewrite app_nil_r.
    rewrite (content_cons c_bslash). reflexivity.
  - intros L a lab argtoks args ws rest cs Ha Hl _ IHa Hws Hf Hne _ IH.
    rewrite show1_cons. cbn [show_chunk1 show_variant1 show_command1]. fold (show_args1 args).
    rewrite chars_cons, !chars_app, chars_map_plain. cbn [tchar].
    rewrite !content_app, IH, (content_cons c_bslash), chars_app, chars_map_plain.
    change ((a :: lab) ++ show_args1 args) with (a :: lab ++ show_args1 args).
    rewrite (content_cons a (lab ++ show_args1 args)), (content_cons a (lab ++ _)), !content_app, IHa.
    change (content [c_bslash]) with (@nil N). cbn [app]. now rewrite <- !app_assoc.
  - intros L a lab argtoks args ws Ha Hl _ IHa Hws Hne.
    rewrite show1_cons. cbn [show_chunk1 show_variant1 show_command1]. fold (show_args1 args).
    rewrite chars_cons, !chars_app, chars_map_plain. cbn [tchar].
    rewrite !content_app, (content_cons c_bslash).
    change ((a :: lab) ++ show_args1 args) with (a :: lab ++ show_args1 args).
    rewrite (content_cons a (lab ++ show_args1 args)), (content_cons a (lab ++ _)), !content_app, IHa.
    change (content [c_bslash]) with (@nil N). cbn [app]. rewrite <- !app_assoc. unfold show1. cbn.
    now rewrite app_nil_r.
  - reflexivity.
  - intros pre o v body inner rest args Hpre Ho Hb Hp IHi _ IH.
    rewrite show_args_cons, show_scope_eq, !chars_app, chars_cons, chars_app, chars_cons, Ho. cbn [tchar].
    rewrite !content_app, (content_cons (open1 v) (show1 inner ++ _)), (content_cons (open1 v) (chars body ++ _)), !content_app, (content_cons (close1 v) (chars rest)).
    rewrite content_open, content_close, IHi, IH, content_drop_own. cbn [app]. now rewrite app_nil_r, <- app_assoc.
Qed.

Lemma from_str1_content p s d : N.of_nat (length s) + 1 < two32 ->
  from_str1 p s = Ok d -> content (show1 d) = content (strip_comments s).
Proof.
  intros B H. apply (from_str1_iff p s d B) in H.
  rewrite (proj1 parses_content _ _ _ H), <- content_untoks. apply (content_lex s false false).
Qed.

(** ** C04: comments *)

Lemma lex_app a : forall e m b,
  lex e m (a ++ b) = lex e m a ++ lex (fst (scan e m a)) (snd (scan e m a)) b.
Proof.
  induction a as [|c a IH]; intros e m b; [reflexivity|].
  cbn [lex scan app]. destruct (c =? c_newline); [cbn [app]; f_equal; apply IH|].
  destruct m, e; cbn [negb orb]; rewrite ?andb_false_r, ?andb_true_r.
  - apply IH.
  - destruct (N.eqb_spec c c_percent) as [->|].
    + apply IH.
    + destruct (c =? c_bslash); apply IH.
  - cbn [app]. f_equal. apply IH.
  - destruct (c =? c_percent); [apply IH|]. destruct (c =? c_bslash); [apply IH|].
    cbn [app]. f_equal. apply IH.
Qed.

Lemma lex_comment body b : ~ In c_newline body -> ~ In c_bslash body ->
  lex false true (body ++ b) = lex false true b.
Proof.
  induction body as [|c body IH]; intros N1 N2; [reflexivity|]. cbn [app lex].
  destruct (N.eqb_spec c c_newline); [exfalso; apply N1; now left|].
  destruct (N.eqb_spec c c_bslash); [exfalso; apply N2; now left|].
  cbn [negb andb]. rewrite andb_true_r.
  rewrite IH; [|intros ?; apply N1; now right|intros ?; apply N2; now right].
  now destruct (c =? c_percent).
Qed.

Lemma tokens_comment a body b : fst (scan false false a) = false ->
  ~ In c_newline body -> ~ In c_bslash body ->
  (b = [] \/ exists b', b = c_newline :: b') ->
  tokens (a ++ c_percent :: body ++ b) = tokens (a ++ b).
Proof.
  intros Ha N1 N2 Hb. unfold tokens. rewrite !lex_app. f_equal. rewrite Ha.
  cbn [lex]. change (c_percent =? c_newline) with false. change (c_percent =? c_percent) with true. cbn [andb negb].
  rewrite lex_comment by assumption.
  destruct Hb as [->|[b' ->]]; [reflexivity|]. reflexivity.
Qed.

Lemma from_str1_comment p a body b : fst (scan false false a) = false ->
  ~ In c_newline body -> ~ In c_bslash body ->
  (b = [] \/ exists b', b = c_newline :: b') ->
  N.of_nat (length (a ++ c_percent :: body ++ b)) + 1 < two32 ->
  from_str1 p (a ++ c_percent :: body ++ b) = from_str1 p (a ++ b).
Proof.
  intros Ha N1 N2 Hb B.
  assert (B' : N.of_nat (length (a ++ b)) + 1 < two32).
  { rewrite app_length. rewrite app_length in B. cbn [length] in B. rewrite app_length in B. lia. }
  destruct (from_str1_toks p _ B) as [-> _]. destruct (from_str1_toks p _ B') as [-> _].
  rewrite tokens_comment by assumption. reflexivity.
Qed.

(** ** C05: newlines are preserved *)

Lemma count_newlines_content s : count_newlines (content s) = count_newlines s.
Proof.
  induction s as [|c s IH]; [reflexivity|].
  rewrite content_cons, count_newlines_app, IH, (count_newlines_cons c). f_equal.
  unfold content. cbn [filter].
  destruct (N.eqb_spec c c_newline) as [->|Hc]; [reflexivity|].
  destruct (negb (is_bracket c) && negb (c =? c_bslash)); [|reflexivity].
  unfold count_newlines. cbn [filter]. apply N.eqb_neq in Hc. now rewrite Hc.
Qed.

Lemma parses_nls L ts d : parses L ts d -> nls d = nl ts.
Proof.
  intros H. unfold nls, nl. rewrite <- count_newlines_content, <- (count_newlines_content (chars ts)).
  now rewrite (proj1 parses_content _ _ _ H).
Qed.
Lemma parses_args_nls ts args : parses_args ts args -> count_newlines (show_args1 args) = nl ts.
Proof.
  intros H. unfold nl. rewrite <- count_newlines_content, <- (count_newlines_content (chars ts)).
  now rewrite (proj2 parses_content _ _ H).
Qed.

Lemma from_str1_newlines p s d : N.of_nat (length s) + 1 < two32 ->
  from_str1 p s = Ok d -> nls d = count_newlines s.
Proof.
  intros B H. apply (from_str1_iff p s d B) in H. rewrite (parses_nls _ _ _ H). apply tokens_nl.
Qed.

Lemma from_str1_lines {E} p s d : N.of_nat (length s) + 1 < two32 ->
  from_str1 p s = Ok d -> @lines1 E p d = Ok (1 + count_newlines s).
Proof.
  intros B H. pose proof (from_str1_newlines p s d B H) as Hn. unfold nls in Hn.
  pose proof (count_newlines_le s).
  rewrite (lines1_correct p d); rewrite Hn; [reflexivity|lia].
Qed.

(** ** Shape of the first chunk *)

Lemma parses_head L ts c cs : parses L ts (c :: cs) ->
  match variant_of1 c with
  | Text1 s => exists run rest, ts = run ++ rest /\ run <> [] /\ s = chars run /\
                forallb is_text_tok run = true /\
                match rest with [] => True | t :: _ => is_text_tok t = false end /\
                parses (L + nl run) rest cs
  | Scope1 _ => exists v ts', ts = Plain (open1 v) :: ts'
  | Command1 (mkCommand1 lab _) => exists a lab' ts', lab = a :: lab' /\ ts = Esc a :: ts'
  end.
Proof.
  intros H. inversion H; subst; cbn [variant_of1].
  - eexists _, _. repeat split; eauto.
  - eexists _, _. reflexivity.
  - eexists _, _, _. split; reflexivity.
  - eexists _, _, _. split; reflexivity.
  - eexists _, _, _. split; reflexivity.
Qed.

(** After a control word: what comes next *)
Lemma word_follow L args ws rest cs :
  forallb (fun t => is_whitespace (tchar t)) ws = true ->
  follow_ok args ws rest = true -> (ws = [] \/ rest <> []) ->
  parses L (map Plain (chars ws) ++ rest) cs ->
  match cs with
  | [] => True
  | c :: post =>
      is_scope1 c = false /\
      (is_blank1 c = true ->
       match post with [] => False | c' :: _ => is_scope1 c' = false end)
  end.
Proof.
  intros Hws Hf Hne H. destruct cs as [|c post]; [exact I|].
  pose proof (parses_head _ _ _ _ H) as Hh. unfold is_scope1, is_blank1.
  destruct (variant_of1 c) as [s|[lab a]|sc] eqn:Ev.
  - split; [reflexivity|]. intros Hb.
    destruct Hh as (run & rest' & Heq & Hrne & -> & Hrun & Hr' & Hp).
    (* the run covers exactly the blanks *)
    assert (Hrest : rest' = rest).
    { clear -Heq Hb Hws Hf Hrun Hr' Hrne Hne.
      revert run Heq Hb Hrun Hrne. induction ws as [|w ws IH]; intros run Heq Hb Hrun Hrne.
      - cbn [chars map app] in Heq. destruct run as [|t run]; [congruence|]. subst rest. cbn [app follow_ok] in Hf.
        cbn [chars map forallb] in Hb. destruct (is_whitespace (tchar t)); discriminate.
      - destruct run as [|t run]; [congruence|].
        cbn [chars map app] in Heq. injection Heq as <- Heq.
        cbn [forallb] in *. apply andb_true_iff in Hws as [_ Hws]. apply andb_true_iff in Hrun as [_ Hrun].
        cbn [chars map forallb] in Hb. apply andb_true_iff in Hb as [_ Hb].
        destruct ws as [|w' ws].
        + cbn [chars map app] in Heq. destruct run as [|t run]; [exact (eq_sym Heq)|].
          exfalso. destruct rest as [|t' rest]; [discriminate|]. injection Heq as -> _.
          cbn [follow_ok] in Hf. cbn [chars map forallb] in Hb. destruct (is_whitespace (tchar t)); discriminate.
        + assert (run <> []).
          { intros ->. cbn [chars map app] in Heq. subst rest'. cbn [is_text_tok] in Hr'.
            cbn [forallb] in Hws. apply andb_true_iff in Hws as [Hw _]. rewrite (ws_not_opening _ Hw) in Hr'. discriminate. }
          apply (IH Hws) with (run := run); auto. destruct Hne as [Hne|Hne]; [discriminate|now right]. }
    subst rest'. destruct post as [|c' post].
    + inversion Hp; subst. destruct Hne as [-> |Hne]; [|congruence].
      cbn [chars map app] in Heq. apply eq_sym, app_eq_nil in Heq as [Heq _]. congruence.
    + pose proof (parses_head _ _ _ _ Hp) as Hh.
      destruct (variant_of1 c') as [s|[lab a]|sc]; auto.
      destruct Hh as (v & ts' & ->). cbn in Hf. destruct v; discriminate.
  - split; [reflexivity|discriminate].
  - destruct Hh as (v & ts' & Heq). exfalso.
    destruct ws as [|w ws].
    + cbn [chars map app] in Heq. subst rest. destruct v; cbn in Hf; discriminate.
    + cbn [chars map app] in Heq. injection Heq as Heq _. cbn [forallb] in Hws.
      rewrite Heq in Hws. destruct v; discriminate.
Qed.

(** ** C06: line numbers *)

Lemma nls_cons c cs : nls (c :: cs) = count_newlines (show_chunk1 c) + nls cs.
Proof. unfold nls. now rewrite show1_cons, count_newlines_app. Qed.

Lemma word_nls a lab argtoks args : is_ascii_alphabetic a = true -> forallb is_label_char lab = true ->
  parses_args argtoks args ->
  forall L, count_newlines (show_chunk1 (mkChunk1 L (Command1 (mkCommand1 (a :: lab) args)))) = nl argtoks.
Proof.
  intros Ha Hl Hp L. cbn [show_chunk1 show_variant1 show_command1]. fold (show_args1 args).
  cbn [app]. rewrite !count_newlines_cons, count_newlines_app, (label_not_newline _ Hl), (alpha_not_newline _ Ha).
  rewrite (parses_args_nls _ _ Hp). reflexivity.
Qed.

Lemma extra_line_cons x pre c post : pre <> [] -> extra_line (x :: pre) c post = extra_line pre c post.
Proof.
  intros H. unfold extra_line. cbn [rev]. destruct (rev pre) as [|w l] eqn:E.
  - apply (f_equal (@rev chunk1)) in E. rewrite rev_involutive in E. cbn in E. congruence.
  - reflexivity.
Qed.

Lemma extra_line_one x c post : (is_word1 x && is_blank1 c = true -> post <> []) ->
  extra_line [x] c post = extra_line [] c post.
Proof.
  intros H. unfold extra_line. cbn [rev app]. destruct (variant_of1 c) as [s|cm|sc]; auto.
  destruct post; auto. destruct (is_word1 x && is_blank1 c); auto. exfalso. now apply H.
Qed.

Lemma parses_lines :
  (forall L ts d, parses L ts d -> forall pre c post, d = pre ++ c :: post ->
     line_no1 c = L + nls pre + extra_line pre c post) /\
  (forall ts args, parses_args ts args -> True).
Proof.
  apply parses_parses_args_ind; auto.
  - intros L pre c post H. now destruct pre.
  - intros L run rest cs Hne Hrun Hrest Hp IH pre c post H.
    destruct pre as [|x pre]; cbn [app] in H; injection H as <- H.
    + cbn [line_no1]. unfold extra_line. cbn. destruct post; change (nls []) with 0; lia.
    + rewrite (IH _ _ _ H), nls_cons. cbn [show_chunk1 show_variant1]. fold (nl run).
      destruct pre as [|y pre].
      * rewrite extra_line_one by (intros Hx; discriminate Hx). lia.
      * rewrite (extra_line_cons _ (y :: pre)) by discriminate. lia.
  - intros L v body rest inner cs Hb Hp IHi Hr IH pre c post H.
    destruct pre as [|x pre]; cbn [app] in H; injection H as <- H.
    + cbn [line_no1]. unfold extra_line. cbn. destruct post; change (nls []) with 0; lia.
    + rewrite (IH _ _ _ H), nls_cons. cbn [show_chunk1 show_variant1]. rewrite show_scope_eq.
      rewrite count_newlines_cons, count_newlines_app. fold (nls inner). rewrite (parses_nls _ _ _ Hp).
      change (count_newlines [close1 Curly1]) with 0. change (open1 Curly1 =? c_newline) with false.
      destruct pre as [|y pre].
      * rewrite extra_line_one by (intros Hx; discriminate Hx). lia.
      * rewrite (extra_line_cons _ (y :: pre)) by discriminate. lia.
  - intros L c0 rest cs Ha Hr IH pre c post H.
    destruct pre as [|x pre]; cbn [app] in H; injection H as <- H.
    + cbn [line_no1]. unfold extra_line. cbn [variant_of1]. rewrite nl_single. cbn [tchar].
      destruct post; change (nls []) with 0; lia.
    + rewrite (IH _ _ _ H), nls_cons. cbn [show_chunk1 show_variant1 show_command1 concat map].
      rewrite app_nil_r, !count_newlines_cons, count_newlines_nil, nl_single. cbn [tchar].
      change (c_bslash =? c_newline) with false.
      destruct pre as [|y pre].
      * rewrite extra_line_one. 2:{ unfold is_word1. cbn [variant_of1]. rewrite Ha. discriminate 1. } lia.
      * rewrite (extra_line_cons _ (y :: pre)) by discriminate. lia.
  - intros L a lab argtoks args ws rest cs Ha Hl Hargs _ Hws Hf Hne Hp IH pre c post H.
    destruct pre as [|x pre]; cbn [app] in H; injection H as <- H.
    + cbn [line_no1]. unfold extra_line. cbn [variant_of1]. change (nls []) with 0.
      destruct lab; [rewrite (alpha_not_newline _ Ha)|]; destruct post; lia.
    + rewrite (IH _ _ _ H), nls_cons, (word_nls a lab argtoks args Ha Hl Hargs).
      destruct pre as [|y pre].
      * rewrite extra_line_one; [lia|]. intros Hx. apply andb_true_iff in Hx as [_ Hx].
        pose proof (word_follow _ _ _ _ _ Hws Hf Hne Hp) as W. rewrite H in W. cbn [app] in W.
        destruct W as [_ W]. specialize (W Hx). now destruct post.
      * rewrite (extra_line_cons _ (y :: pre)) by discriminate. lia.
  - intros L a lab argtoks args ws Ha Hl Hargs _ Hws Hne pre c post H.
    destruct pre as [|x [|y pre]]; cbn [app] in H.
    + injection H as <- <-. cbn [line_no1]. unfold extra_line. cbn [variant_of1]. change (nls []) with 0.
      destruct lab; [rewrite (alpha_not_newline _ Ha)|]; lia.
    + injection H as <- <- <-. cbn [line_no1]. unfold extra_line. cbn [variant_of1 rev app is_word1 is_blank1].
      rewrite Ha. replace (forallb is_whitespace (chars ws)) with true.
      2:{ symmetry. clear -Hws. induction ws as [|t ws IH]; [reflexivity|]. cbn [forallb chars map] in *.
          apply andb_true_iff in Hws as [H1 H2]. rewrite H1. now apply IH. }
      cbn [andb]. rewrite nls_cons, (word_nls a lab argtoks args Ha Hl Hargs). change (nls []) with 0. fold (nl ws). lia.
    + exfalso. injection H as _ _ H. now destruct pre.
Qed.

Lemma from_str1_chunk_lines p s d : N.of_nat (length s) + 1 < two32 -> from_str1 p s = Ok d ->
  forall cs, within1 d cs -> forall pre c post, cs = pre ++ c :: post ->
  line_no1 c = 1 + count_newlines (show1 pre) + extra_line pre c post.
Proof.
  intros B H cs Hw pre c post E. apply (from_str1_has_parse p s d B) in H as [H _].
  destruct (within_parse _ _ H Hw) as [ts [_ Hp]]. exact (proj1 parses_lines _ _ _ Hp _ _ _ E).
Qed.

(** ** C08: normal form *)

Lemma parses_nonempty :
  (forall L ts d, parses L ts d -> forall l s, In (mkChunk1 l (Text1 s)) d -> s <> []) /\
  (forall ts args, parses_args ts args -> True).
Proof.
  apply parses_parses_args_ind; auto.
  - intros L run rest cs Hne Hrun Hrest Hp IH l s [E|E]; [|eauto].
    injection E as <- <-. now destruct run.
  - intros L v body rest inner cs Hb Hp IHi Hr IH l s [E|E]; [discriminate|eauto].
  - intros L c0 rest cs Ha Hr IH l s [E|E]; [discriminate|eauto].
  - intros L a lab argtoks args ws rest cs Ha Hl Hargs _ Hws Hf Hne Hp IH l s [E|E]; [discriminate|eauto].
  - intros L a lab argtoks args ws Ha Hl Hargs _ Hws Hne l s [E|[E|[]]]; [discriminate|].
    injection E as <- <-. now destruct ws.
Qed.

Lemma parses_adjacent :
  (forall L ts d, parses L ts d -> forall pre a b post, d = pre ++ a :: b :: post ->
     is_text1 a && is_text1 b = false /\ is_word1 a && is_scope1 b = false /\
     match post with c :: _ => is_word1 a && is_blank1 b && is_scope1 c = false | [] => True end) /\
  (forall ts args, parses_args ts args -> True).
Proof.
  apply parses_parses_args_ind; auto.
  - intros L pre a b post H. now destruct pre.
  - intros L run rest cs Hne Hrun Hrest Hp IH pre a b post H.
    destruct pre as [|x pre]; cbn [app] in H; injection H as <- H; [|now apply (IH _ _ _ _ H)].
    subst cs. pose proof (parses_head _ _ _ _ Hp) as Hh. unfold is_text1, is_scope1, is_word1.
    cbn [variant_of1 andb].
    destruct (variant_of1 b) as [s|[lab args]|sc]; [|split; [|split]; [..|destruct post]; auto..].
    destruct Hh as (r & rest' & -> & Hr & _ & Hf & _).
    destruct r as [|t r]; [congruence|]. cbn [app forallb] in *. rewrite Hrest in Hf. discriminate.
  - intros L v body rest inner cs Hb Hp IHi Hr IH pre a b post H.
    destruct pre as [|x pre]; cbn [app] in H; injection H as <- H; [|now apply (IH _ _ _ _ H)].
    cbn. repeat split; destruct post; auto.
  - intros L c0 rest cs Ha Hr IH pre a b post H.
    destruct pre as [|x pre]; cbn [app] in H; injection H as <- H; [|now apply (IH _ _ _ _ H)].
    unfold is_text1, is_word1. cbn [variant_of1 andb]. rewrite Ha. repeat split; destruct post; auto.
  - intros L a lab argtoks args ws rest cs Ha Hl Hargs _ Hws Hf Hne Hp IH pre x b post H.
    destruct pre as [|y pre]; cbn [app] in H; injection H as <- H; [|now apply (IH _ _ _ _ H)].
    pose proof (word_follow _ _ _ _ _ Hws Hf Hne Hp) as W. rewrite H in W. destruct W as [W1 W2].
    unfold is_text1, is_word1. cbn [variant_of1 andb]. rewrite Ha, W1. cbn [andb].
    repeat split. destruct post as [|c post]; [exact I|]. destruct (is_blank1 b); [|reflexivity].
    now rewrite W2.
  - intros L a lab argtoks args ws Ha Hl Hargs _ Hws Hne pre x b post H.
    destruct pre as [|y [|z pre]]; cbn [app] in H.
    + injection H as <- <- <-. unfold is_text1, is_scope1. cbn [variant_of1 andb]. now rewrite andb_false_r.
    + injection H as _ _ H. discriminate.
    + exfalso. injection H as _ _ H. now destruct pre.
Qed.

(** ** C10: labels and texts *)

Lemma unsanitised_special c : unsanitised c = special c.
Proof.
  unfold unsanitised, special, is_opening, is_closing. cbn [existsb].
  change (S! "\%()[]{}") with [c_bslash; c_percent; c_lround; c_rround; c_lsquare; c_rsquare; c_lcurly; c_rcurly].
  cbn [existsb].
  destruct (c =? c_bslash), (c =? c_percent), (c =? c_lcurly), (c =? c_lsquare), (c =? c_lround), (c =? c_rcurly),
    (c =? c_rsquare), (c =? c_rround); reflexivity.
Qed.

Definition clean_chunk (c : chunk1) : Prop :=
  match variant_of1 c with
  | Text1 s => forall x, In x s -> special x = true -> is_closing x = true
  | Command1 (mkCommand1 lab _) => clean_label lab = true
  | Scope1 _ => True
  end.

Lemma symbol_label_clean c : clean_label [c] = true.
Proof.
  unfold clean_label. cbn [str_len fold_right existsb]. unfold len_utf8.
  destruct (N.ltb_spec c 128); [reflexivity|]. apply orb_true_iff. right. rewrite orb_false_r.
  rewrite <- unsanitised_special.
  unfold unsanitised, is_opening, is_closing.
  repeat match goal with |- context [c =? ?k] => destruct (N.eqb_spec c k) as [->|_]; [exfalso; revert H; now vm_compute|] end.
  reflexivity.
Qed.

Lemma word_label_clean a lab : is_ascii_alphabetic a = true -> forallb is_label_char lab = true ->
  Forall wf_token (map Plain lab) -> existsb special (a :: lab) = false.
Proof.
  intros Ha Hl W. cbn [existsb]. apply orb_false_iff. split.
  - rewrite <- unsanitised_special. unfold unsanitised, is_opening, is_closing.
    repeat match goal with |- context [a =? ?k] => destruct (N.eqb_spec a k) as [->|_]; [discriminate|] end.
    reflexivity.
  - induction lab as [|c lab IH]; [reflexivity|]. cbn [map] in W. inversion W as [|? ? W1 W2]; subst.
    cbn [forallb existsb] in *. apply andb_true_iff in Hl as [Hc Hl]. rewrite IH by assumption.
    destruct W1 as [W1 W3]. apply N.eqb_neq in W1, W3. unfold is_label_char in Hc.
    apply andb_true_iff in Hc as [Hc Hc3]. apply andb_true_iff in Hc as [_ Hc2].
    apply negb_true_iff in Hc2, Hc3. rewrite <- unsanitised_special. unfold unsanitised. now rewrite W1, W3, Hc2, Hc3.
Qed.
Lemma word_clean_label a lab : is_ascii_alphabetic a = true -> forallb is_label_char lab = true ->
  Forall wf_token (map Plain lab) -> clean_label (a :: lab) = true.
Proof. intros. unfold clean_label. rewrite word_label_clean by assumption. apply orb_true_r. Qed.

Lemma parses_clean :
  (forall L ts d, parses L ts d -> Forall wf_token ts -> Forall clean_chunk d) /\
  (forall ts args, parses_args ts args -> True).
Proof.
  assert (T : forall ts, Forall wf_token ts -> forallb is_text_tok ts = true ->
    forall x, In x (chars ts) -> special x = true -> is_closing x = true).
  { intros ts W H x Hx Hu. rewrite <- unsanitised_special in Hu. unfold chars in Hx. apply in_map_iff in Hx as (t & <- & Ht).
    rewrite Forall_forall in W. specialize (W _ Ht). rewrite forallb_forall in H. specialize (H _ Ht).
    destruct t as [c|c]; [|discriminate]. cbn in *. destruct W as [W1 W2].
    apply N.eqb_neq in W1, W2. unfold unsanitised in Hu. rewrite W1, W2 in Hu.
    apply negb_true_iff in H. now rewrite H in Hu. }
  apply parses_parses_args_ind; auto.
  - intros L run rest cs Hne Hrun Hrest Hp IH W. apply Forall_app in W as [W1 W2].
    constructor; [|auto]. exact (T _ W1 Hrun).
  - intros L v body rest inner cs Hb Hp IHi Hr IH W. inversion W as [|? ? W0 W1]; subst.
    apply Forall_app in W1 as [W1 W2]. inversion W2; subst. constructor; [exact I|auto].
  - intros L c0 rest cs Ha Hr IH W. inversion W; subst. constructor; [apply symbol_label_clean|auto].
  - intros L a lab argtoks args ws rest cs Ha Hl Hargs _ Hws Hf Hne Hp IH W.
    inversion W as [|? ? W0 W1]; subst.
    apply Forall_app in W1 as [W1 W2]. apply Forall_app in W2 as [W2 W3]. apply Forall_app in W3 as [W3 W4].
    constructor; [now apply word_clean_label|]. apply IH. apply Forall_app; split; [now apply wf_plain_ws|auto].
  - intros L a lab argtoks args ws Ha Hl Hargs _ Hws Hne W.
    inversion W as [|? ? W0 W1]; subst.
    apply Forall_app in W1 as [W1 W2]. apply Forall_app in W2 as [W2 W3].
    constructor; [now apply word_clean_label|]. constructor; [|constructor].
    unfold clean_chunk. cbn [variant_of1]. rewrite <- (chars_map_plain (chars ws)).
    apply T; [now apply wf_plain_ws|now apply ws_text].
Qed.

(** ** Statements about [from_str1] *)

Lemma from_str1_errors p s e : N.of_nat (length s) + 1 < two32 -> from_str1 p s = Err e ->
  1 <= err_line e <= 1 + count_newlines s /\
  (exists v, err_type e = UnexpectedClosing v \/ err_type e = UnclosedArgument v \/ err_type e = UnclosedScope v).
Proof.
  intros B H. destruct (from_str1_toks p s B) as [E G]. rewrite E in H.
  destruct (parse_toks (tokens s)) as [d|e'] eqn:Ep; [discriminate|]. injection H as ->.
  destruct (G e eq_refl) as [G1 G2]. rewrite tokens_nl in G1. split; [assumption|].
  destruct (err_type e); cbn in G2; try contradiction; eauto.
Qed.

Lemma from_str1_no_empty p s d : N.of_nat (length s) + 1 < two32 -> from_str1 p s = Ok d ->
  forall cs l t, within1 d cs -> In (mkChunk1 l (Text1 t)) cs -> t <> [].
Proof.
  intros B H cs l t Hw. apply (from_str1_has_parse p s d B) in H as [H _].
  destruct (within_parse _ _ H Hw) as [ts [_ Hp]]. exact (proj1 parses_nonempty _ _ _ Hp _ _).
Qed.

Lemma from_str1_adjacent p s d : N.of_nat (length s) + 1 < two32 -> from_str1 p s = Ok d ->
  forall cs pre a b post, within1 d cs -> cs = pre ++ a :: b :: post ->
  is_text1 a && is_text1 b = false /\ is_word1 a && is_scope1 b = false /\
  match post with c :: _ => is_word1 a && is_blank1 b && is_scope1 c = false | [] => True end.
Proof.
  intros B H cs pre a b post Hw E. apply (from_str1_has_parse p s d B) in H as [H _].
  destruct (within_parse _ _ H Hw) as [ts [_ Hp]]. exact (proj1 parses_adjacent _ _ _ Hp _ _ _ _ E).
Qed.

Lemma from_str1_clean p s d : N.of_nat (length s) + 1 < two32 -> from_str1 p s = Ok d ->
  forall cs c, within1 d cs -> In c cs -> clean_chunk c.
Proof.
  intros B H cs c Hw Hin. apply (from_str1_has_parse p s d B) in H as [H _].
  destruct (within_parse _ _ H Hw) as [ts [W Hp]]. pose proof (proj1 parses_clean _ _ _ Hp W) as K.
  rewrite Forall_forall in K. now apply K.
Qed.

Lemma from_str1_labels p s d : N.of_nat (length s) + 1 < two32 -> from_str1 p s = Ok d ->
  forall cs l lab args, within1 d cs -> In (mkChunk1 l (Command1 (mkCommand1 lab args))) cs ->
  clean_label lab = true.
Proof. intros B H cs l lab args Hw Hin. exact (from_str1_clean p s d B H cs _ Hw Hin). Qed.
