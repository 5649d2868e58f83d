(** * Gram1: the stage-1 parser accepts exactly the grammar of Spec1.v *)
From Verif Require Import Base Ast1 Parse1 Spec1 Tok Pure1 Refine1.

(** ** Balanced bodies and bracket depth *)
Fixpoint run_depth (v : sv1) (d : nat) (ts : list token) : option nat :=
  match ts with
  | [] => Some d
  | t :: ts =>
      if is_open_tok v t then run_depth v (S d) ts
      else if is_close_tok v t then match d with O => None | S d' => run_depth v d' ts end
      else run_depth v d ts
  end.

Lemma run_depth_app v a : forall d b,
  run_depth v d (a ++ b) = match run_depth v d a with Some d' => run_depth v d' b | None => None end.
Proof.
  induction a as [|t a IH]; intros d b; cbn [app run_depth]; [reflexivity|].
  destruct (is_open_tok v t); [apply IH|]. destruct (is_close_tok v t); [|apply IH].
  destruct d; [reflexivity|apply IH].
Qed.

Lemma open_not_close v : is_close_tok v (Plain (open1 v)) = false.
Proof. destruct v; reflexivity. Qed.
Lemma open_open v : is_open_tok v (Plain (open1 v)) = true.
Proof. destruct v; reflexivity. Qed.
Lemma close_not_open v : is_open_tok v (Plain (close1 v)) = false.
Proof. destruct v; reflexivity. Qed.
Lemma close_close v : is_close_tok v (Plain (close1 v)) = true.
Proof. destruct v; reflexivity. Qed.
Lemma is_open_tok_eq v t : is_open_tok v t = true -> t = Plain (open1 v).
Proof. destruct t; cbn; [|discriminate]. intros H. apply N.eqb_eq in H. now subst. Qed.
Lemma is_close_tok_eq v t : is_close_tok v t = true -> t = Plain (close1 v).
Proof. destruct t; cbn; [|discriminate]. intros H. apply N.eqb_eq in H. now subst. Qed.

Lemma balanced_run v ts : balanced v ts -> forall d, run_depth v d ts = Some d.
Proof.
  induction 1 as [|t ts Ho Hc _ IH|ts1 ts2 _ IH1 _ IH2]; intros d; cbn [run_depth].
  - reflexivity.
  - rewrite Ho, Hc. apply IH.
  - rewrite open_open, run_depth_app, IH1. cbn [run_depth]. rewrite close_not_open, close_close. apply IH2.
Qed.

Lemma run_balanced v n : forall ts, (length ts < n)%nat -> forall d,
  run_depth v d ts = Some O ->
  match d with
  | O => balanced v ts
  | S d' => exists ts1 ts2, ts = ts1 ++ Plain (close1 v) :: ts2 /\ balanced v ts1 /\ run_depth v d' ts2 = Some O
  end.
Proof.
  induction n as [|n IH]; intros ts Hn d H; [lia|].
  destruct ts as [|t ts]; cbn [run_depth length] in *.
  { injection H as ->. constructor. }
  destruct (is_open_tok v t) eqn:Eo.
  { apply is_open_tok_eq in Eo. subst t.
    destruct (IH ts ltac:(lia) (S d) H) as [ts1 [ts2 [-> [Hb1 Hr2]]]].
    rewrite app_length in Hn. cbn [length] in Hn.
    specialize (IH ts2 ltac:(lia) d Hr2). destruct d.
    - constructor; assumption.
    - destruct IH as [ts3 [ts4 [-> [Hb3 Hr4]]]].
      exists (Plain (open1 v) :: ts1 ++ Plain (close1 v) :: ts3), ts4. split; [|split; [constructor; assumption|exact Hr4]].
      cbn [app]. rewrite <- app_assoc. reflexivity. }
  destruct (is_close_tok v t) eqn:Ec.
  { apply is_close_tok_eq in Ec. subst t. destruct d; [discriminate|].
    exists [], ts. split; [reflexivity|]. split; [constructor|exact H]. }
  specialize (IH ts ltac:(lia) d H). destruct d.
  - constructor; assumption.
  - destruct IH as [ts1 [ts2 [-> [Hb1 Hr2]]]]. exists (t :: ts1), ts2.
    split; [reflexivity|]. split; [constructor; assumption|exact Hr2].
Qed.
Lemma run_depth_balanced v ts : run_depth v 0 ts = Some O <-> balanced v ts.
Proof.
  split; [|intros H; now apply balanced_run]. intros H. exact (run_balanced v (S (length ts)) ts (Nat.lt_succ_diag_r _) O H).
Qed.

Lemma drop_own_app v a b : drop_own v (a ++ b) = drop_own v a ++ drop_own v b.
Proof. apply filter_app. Qed.
Lemma drop_own_length v a : (length (drop_own v a) <= length a)%nat.
Proof. unfold drop_own. induction a as [|t a IH]; cbn [filter length]; [lia|]. destruct (negb _); cbn [length]; lia. Qed.

Definition is_ws_tok (t : token) : bool := is_whitespace (tchar t).

(** ** Arguments before their contents are parsed *)
Inductive raw_args : list token -> list (list token * sv1 * str) -> Prop :=
| RA_nil : raw_args [] []
| RA_cons pre o v body rest sc :
    forallb is_ws_tok pre = true -> tchar o = open1 v -> balanced v body -> raw_args rest sc ->
    raw_args (pre ++ o :: body ++ Plain (close1 v) :: rest) ((drop_own v body, v, chars pre) :: sc).

Lemma raw_args_snoc argtoks sc pre o v body :
  raw_args argtoks sc ->
  forallb is_ws_tok pre = true -> tchar o = open1 v -> balanced v body ->
  raw_args (argtoks ++ pre ++ o :: body ++ [Plain (close1 v)]) (sc ++ [(drop_own v body, v, chars pre)]).
Proof.
  intros H Hp Ho Hb. induction H as [|pre1 o1 v1 body1 rest sc Hp1 Ho1 Hb1 _ IH].
  - cbn [app]. change [Plain (close1 v)] with (Plain (close1 v) :: []). constructor; auto. constructor.
  - rewrite <- app_assoc. cbn [app]. rewrite <- app_assoc. cbn [app]. constructor; auto.
Qed.

Lemma raw_args_parse rec argtoks sc K :
  raw_args argtoks sc ->
  (length argtoks <= K)%nat ->
  (forall ct d, (length ct < K)%nat -> rec ct = ROk d -> parses 1 ct d) ->
  forall args,
  rmap (fun x => match x with (content, v, prec) =>
          let! inner := rec content in ROk (prec, mkScope1 inner v) end) sc = ROk args ->
  parses_args argtoks args.
Proof.
  intros H. induction H as [|pre o v body rest sc Hp Ho Hb Hrest IH]; intros HK Hrec args; cbn [rmap].
  - intros E; injection E as <-. constructor.
  - rewrite app_length in HK. cbn [length] in HK. rewrite app_length in HK. cbn [length] in HK.
    destruct (rec (drop_own v body)) as [inner|] eqn:Er; cbn [rbind]; [|discriminate].
    match goal with |- context[rmap ?f sc] => destruct (rmap f sc) as [args'|] end; cbn [rbind]; [|discriminate].
    intros E; injection E as <-.
    constructor; auto.
    + apply Hrec; [|exact Er]. pose proof (drop_own_length v body). lia.
    + apply IH; auto. lia.
Qed.

(** ** Soundness *)

(** buffer [b] is what the tokens [pre] leave behind *)
Inductive pend : qbuf -> list token -> Prop :=
| pend_text c : forallb is_text_tok (map Plain c) = true -> pend (QText c) (map Plain c)
| pend_scope v ct d : run_depth v 0 ct = Some d ->
    pend (QScope ct v (N.of_nat (S d))) (Plain (open1 v) :: ct)
| pend_cmd a lab argtoks sc ws :
    is_ascii_alphabetic a = true -> forallb is_label_char lab = true ->
    raw_args argtoks sc -> forallb is_ws_tok ws = true ->
    pend (QCommand (a :: lab) sc 0 (chars ws)) (Esc a :: map Plain lab ++ argtoks ++ ws)
| pend_arg a lab argtoks sc pre o v part d :
    is_ascii_alphabetic a = true -> forallb is_label_char lab = true ->
    raw_args argtoks sc -> forallb is_ws_tok pre = true -> tchar o = open1 v ->
    run_depth v 0 part = Some d ->
    pend (QCommand (a :: lab) (sc ++ [(drop_own v part, v, chars pre)]) (N.of_nat (S d)) [])
         (Esc a :: map Plain lab ++ argtoks ++ pre ++ o :: part).

Lemma raw_args_empty argtoks sc : raw_args argtoks sc -> is_empty sc = is_empty argtoks.
Proof. destruct 1; [reflexivity|]. destruct pre; reflexivity. Qed.
Lemma parses_args_empty argtoks args : parses_args argtoks args -> is_empty args = is_empty argtoks.
Proof. destruct 1; [reflexivity|]. destruct pre; reflexivity. Qed.

Lemma alpha_not_newline a : is_ascii_alphabetic a = true -> (a =? c_newline) = false.
Proof. destruct (N.eqb_spec a c_newline); [subst; discriminate|reflexivity]. Qed.
Lemma label_not_newline lab : forallb is_label_char lab = true -> count_newlines lab = 0.
Proof.
  induction lab as [|c lab IH]; cbn [forallb]; intros H; [reflexivity|].
  apply andb_prop in H as [H1 H2]. rewrite count_newlines_cons, (IH H2).
  destruct (N.eqb_spec c c_newline); [subst; discriminate|reflexivity].
Qed.

Lemma nl_command a lab rest : is_ascii_alphabetic a = true -> forallb is_label_char lab = true ->
  nl (Esc a :: map Plain lab ++ rest) = nl rest.
Proof.
  intros Ha Hl. rewrite nl_cons, nl_single, nl_app, nl_map_plain. cbn [tchar].
  rewrite (alpha_not_newline a Ha), (label_not_newline lab Hl). lia.
Qed.

Lemma text_tok_plain c : is_opening c = false -> is_text_tok (Plain c) = true.
Proof. intros H. cbn. now rewrite H. Qed.

Lemma ws_not_opening c : is_whitespace c = true -> is_opening c = false.
Proof.
  intros H. unfold is_opening.
  destruct (N.eqb_spec c c_lcurly); [subst; discriminate|].
  destruct (N.eqb_spec c c_lsquare); [subst; discriminate|].
  destruct (N.eqb_spec c c_lround); [subst; discriminate|]. reflexivity.
Qed.
Lemma ws_text ws : forallb is_ws_tok ws = true -> forallb is_text_tok (map Plain (chars ws)) = true.
Proof.
  induction ws as [|t ws IH]; cbn [forallb]; intros H; [reflexivity|].
  apply andb_prop in H as [H1 H2]. cbn [chars map forallb]. rewrite text_tok_plain by (apply ws_not_opening; exact H1).
  apply IH, H2.
Qed.

Lemma snoc_eq {A} (pre : list A) t ts : pre ++ t :: ts = (pre ++ [t]) ++ ts.
Proof. now rewrite <- app_assoc. Qed.

Lemma cmd_flush rec K bl label argtoks sc tr cs0 cs a lab :
  label = a :: lab ->
  is_ascii_alphabetic a = true -> forallb is_label_char lab = true ->
  raw_args argtoks sc -> (length argtoks <= K)%nat ->
  (forall ct d, (length ct < K)%nat -> rec ct = ROk d -> parses 1 ct d) ->
  qflush rec (QCommand label sc 0 tr) bl cs0 = ROk cs ->
  exists args, parses_args argtoks args /\ cs = cs0 ++ [mkChunk1 bl (Command1 (mkCommand1 label args))].
Proof.
  intros -> Ha Hl Hra HK Hrec. cbn [qflush]. change (0 =? 0) with true. cbn iota.
  match goal with |- context[rmap ?f sc] => destruct (rmap f sc) as [args|] eqn:Er end; cbn [rbind]; [|discriminate].
  intros E; injection E as <-. exists args. split; [|reflexivity].
  eapply raw_args_parse; eauto.
Qed.

Section Sound.
  Context (K : nat) (rec : list token -> res document1).
  Context (Hrec : forall ct d, (length ct < K)%nat -> rec ct = ROk d -> parses 1 ct d).

  Lemma sound ts : forall q pre d,
    pend (q_buf q) pre -> q_line q = q_bline q + nl pre ->
    (length (pre ++ ts) <= K)%nat ->
    (let! q' := rfold (qstep rec) q ts in qfinish rec q') = ROk d ->
    exists cs, d = q_chunks q ++ cs /\ parses (q_bline q) (pre ++ ts) cs.
  Proof.
    induction ts as [|t ts IH]; intros q pre d Hp Hline Hlen.
    { (* end of input *)
      cbn [rfold rbind]. rewrite app_nil_r in *. unfold qfinish, qflush_bang.
      destruct q as [cs0 line bl b]. cbn [q_chunks q_line q_bline q_buf] in *.
      destruct Hp as [c Hc|v ct dd Hd|a lab argtoks sc ws Ha Hl Hra Hws|a lab argtoks sc pre o v part dd Ha Hl Hra Hpre Ho Hd].
      - cbn [qflush rbind]. intros E; injection E as <-. cbn [q_chunks].
        destruct c as [|c0 c]; cbn [is_empty].
        + exists []. rewrite app_nil_r. split; [reflexivity|constructor].
        + eexists. split; [reflexivity|].
          rewrite <- (app_nil_r (map Plain (c0 :: c))).
          replace (Text1 (c0 :: c)) with (Text1 (chars (map Plain (c0 :: c)))) by (now rewrite chars_map_plain).
          apply P_text; auto; [discriminate|constructor].
      - cbn [qflush]. destruct (N.eqb_spec (N.of_nat (S dd)) 0); [lia|]. discriminate.
      - destruct (qflush rec (QCommand (a :: lab) sc 0 (chars ws)) bl cs0) as [cs|] eqn:Ef; [|discriminate].
        cbn [rbind q_chunks q_line].
        apply (cmd_flush rec K bl _ argtoks sc _ _ _ a lab) in Ef; auto.
        2:{ cbn [length] in Hlen. rewrite !app_length in Hlen. lia. }
        destruct Ef as [args [Hargs ->]]. unfold qtrail.
        destruct (is_empty (chars ws)) eqn:Ews; intros E; injection E as <-.
        + apply is_empty_nil in Ews. destruct ws; [|discriminate]. rewrite app_nil_r.
          eexists; split; [reflexivity|].
          pose proof (P_command bl a lab argtoks args [] [] []) as P. cbn [app] in P. rewrite !app_nil_r in P.
          apply P; auto. constructor.
        + rewrite <- app_assoc. cbn [app]. eexists; split; [reflexivity|].
          rewrite nl_command in Hline by assumption.
          replace line with (bl + nl argtoks + nl ws) by (rewrite nl_app in Hline; lia).
          apply P_command_eof; auto. intros ->. discriminate.
      - cbn [qflush]. destruct (N.eqb_spec (N.of_nat (S dd)) 0); [lia|]. discriminate. }
    (* one more token *)
    cbn [rfold].
    (* continuing with the same buffer *)
    assert (Hcont : forall b, pend b (pre ++ [t]) ->
      (let! q' := (let! s' := ROk (mkQ (q_chunks q) (q_line q + nl [t]) (q_bline q) b) in rfold (qstep rec) s' ts) in qfinish rec q') = ROk d ->
      exists cs, d = q_chunks q ++ cs /\ parses (q_bline q) (pre ++ t :: ts) cs).
    { intros b Hb HR. cbn [rbind] in HR.
      specialize (IH (mkQ (q_chunks q) (q_line q + nl [t]) (q_bline q) b) (pre ++ [t]) d).
      cbn [q_chunks q_line q_bline q_buf] in IH. rewrite <- snoc_eq in IH. apply IH; auto.
      rewrite nl_app. lia. }
    unfold qstep at 1. unfold qmain. cbn [q_chunks q_line q_bline q_buf].
    destruct q as [cs0 line bl b]. cbn [q_chunks q_line q_bline q_buf] in *.
    destruct Hp as [c Hc|v ct dd Hd|a lab argtoks sc ws Ha Hl Hra Hws|a lab argtoks sc pre o v part dd Ha Hl Hra Hpre Ho Hd].
    - (* text *)
      destruct t as [c1|c1]; cbn [is_esc tchar].
      + destruct (is_opening c1) eqn:Eo.
        * (* a scope begins *)
          unfold qflush_bang. cbn [qflush q_buf q_bline q_line q_chunks rbind].
          destruct (@from_opening_ok error _ Eo) as [_ Hov].
          match goal with |- context[rfold (qstep rec) ?Q ts] => specialize (IH Q [Plain c1] d) end.
          cbn [q_buf q_bline q_line q_chunks] in IH.
          intros HR. destruct IH as [cs [-> Hcs]]; auto.
          { rewrite <- Hov at 2. change 1 with (N.of_nat 1). constructor. reflexivity. }
          { rewrite nl_single. cbn [tchar]. destruct (N.eqb_spec c1 c_newline); [subst; discriminate|lia]. }
          { rewrite app_length in *. cbn [length app] in *. lia. }
          assert (H0 : nl [Plain c1] = 0).
          { rewrite nl_single. cbn [tchar]. destruct (N.eqb_spec c1 c_newline); [subst; discriminate|reflexivity]. }
          rewrite H0, N.add_0_r in Hcs. rewrite Hline in Hcs.
          destruct c as [|c0 c]; cbn [is_empty].
          { exists cs. split; [reflexivity|]. cbn [map] in *. rewrite nl_nil, N.add_0_r in Hcs. exact Hcs. }
          { rewrite <- app_assoc. eexists; split; [reflexivity|].
            replace (Text1 (c0 :: c)) with (Text1 (chars (map Plain (c0 :: c)))) by (now rewrite chars_map_plain).
            apply P_text; auto; [discriminate|]. cbn. now rewrite Eo. }
        * intros HR. apply (Hcont (QText (c ++ [c1]))); [|exact HR].
          replace (map Plain c ++ [Plain c1]) with (map Plain (c ++ [c1])) by (now rewrite map_app).
          constructor. rewrite map_app, forallb_app, Hc. cbn. now rewrite Eo.
      + (* a command begins *)
        unfold qflush_bang. cbn [qflush q_buf q_bline q_line q_chunks rbind qstart].
        set (cs1 := if is_empty c then cs0 else cs0 ++ [mkChunk1 bl (Text1 c)]).
        intros HR.
        assert (Hrest : exists cs, d = cs1 ++ cs /\ parses (bl + nl (map Plain c)) (Esc c1 :: ts) cs).
        { rewrite <- Hline. unfold qstart in HR. cbn [q_chunks q_line rbind] in HR.
          destruct (is_ascii_alphabetic c1) eqn:Ea.
          - match type of HR with context[rfold (qstep rec) ?Q ts] => specialize (IH Q [Esc c1] d) end.
            cbn [q_buf q_bline q_line q_chunks] in IH.
            assert (H0 : nl [Esc c1] = 0) by (rewrite nl_single; cbn [tchar]; now rewrite alpha_not_newline).
            rewrite H0, N.add_0_r in *.
            apply IH; auto; try lia.
            { pose proof (pend_cmd c1 [] [] [] []) as P. cbn [map app chars] in P. apply P; auto. constructor. }
            { rewrite app_length in *. cbn [length app] in *. lia. }
          - match type of HR with context[rfold (qstep rec) ?Q ts] => specialize (IH Q [] d) end.
            cbn [q_buf q_bline q_line q_chunks] in IH.
            destruct IH as [cs [-> Hcs]]; auto.
            { apply (pend_text []). reflexivity. }
            { rewrite nl_nil. lia. }
            { rewrite app_length in *. cbn [length app] in *. lia. }
            rewrite <- app_assoc. eexists; split; [reflexivity|]. cbn [app] in *.
            apply P_symbol; auto. }
        clear HR IH. destruct Hrest as [cs [-> Hcs]]. unfold cs1.
        destruct c as [|c0 c]; cbn [is_empty].
        { exists cs. split; [reflexivity|]. cbn [map] in *. rewrite nl_nil, N.add_0_r in Hcs. exact Hcs. }
        { rewrite <- app_assoc. eexists; split; [reflexivity|].
          replace (Text1 (c0 :: c)) with (Text1 (chars (map Plain (c0 :: c)))) by (now rewrite chars_map_plain).
          apply P_text; auto. discriminate. }
    - (* scope *)
      destruct (is_open_tok v t) eqn:Eo.
      { intros HR. apply (Hcont (QScope (ct ++ [t]) v (N.of_nat (S dd) + 1))); [|exact HR].
        replace (N.of_nat (S dd) + 1) with (N.of_nat (S (S dd))) by lia.
        cbn [app]. constructor. rewrite run_depth_app, Hd. cbn [run_depth]. now rewrite Eo. }
      destruct (is_close_tok v t) eqn:Ec.
      { destruct (N.eqb_spec (N.of_nat (S dd) - 1) 0) as [E0|E0].
        - destruct dd; [|lia].
          unfold qflush_bang. cbn [q_buf q_bline q_line q_chunks]. cbn [qflush].
          change (0 =? 0) with true. cbn iota.
          destruct (rec ct) as [inner|] eqn:Er; cbn [rbind]; [|discriminate].
          intros HR.
          match type of HR with context[rfold (qstep rec) ?Q ts] => specialize (IH Q [] d) end.
          cbn [q_buf q_bline q_line q_chunks] in IH. cbn [app length] in Hlen. rewrite app_length in Hlen. cbn [length] in Hlen.
          destruct IH as [cs [-> Hcs]]; auto.
          { apply (pend_text []). reflexivity. }
          { rewrite nl_nil. lia. }
          { cbn [app]. lia. }
          rewrite <- app_assoc. eexists; split; [reflexivity|]. cbn [app] in *.
          apply is_close_tok_eq in Ec. subst t.
          assert (Hn1 : nl [Plain (close1 v)] = 0) by (destruct v; reflexivity).
          assert (Hn2 : nl [Plain (open1 v)] = 0) by (destruct v; reflexivity).
          rewrite Hn1, N.add_0_r, Hline, nl_cons, Hn2, N.add_0_l in Hcs.
          apply P_scope; auto.
          + apply run_depth_balanced. exact Hd.
          + apply Hrec; [lia|exact Er].
        - intros HR. apply (Hcont (QScope (ct ++ [t]) v (N.of_nat (S dd) - 1))); [|exact HR].
          destruct dd; [lia|].
          replace (N.of_nat (S (S dd)) - 1) with (N.of_nat (S dd)) by lia.
          cbn [app]. constructor. rewrite run_depth_app, Hd. cbn [run_depth]. now rewrite Eo, Ec. }
      intros HR. apply (Hcont (QScope (ct ++ [t]) v (N.of_nat (S dd)))); [|exact HR].
      cbn [app]. constructor. rewrite run_depth_app, Hd. cbn [run_depth]. now rewrite Eo, Ec.
    - (* command, between arguments *)
      change (0 =? 0) with true. cbn iota.
      destruct (is_opening (tchar t)) eqn:Eo.
      { intros HR. apply (Hcont (QCommand (a :: lab) (sc ++ [([], ov (tchar t), chars ws)]) 1 [])); [|exact HR].
        destruct (@from_opening_ok error _ Eo) as [_ Hov].
        replace ((Esc a :: map Plain lab ++ argtoks ++ ws) ++ [t])
          with (Esc a :: map Plain lab ++ argtoks ++ ws ++ t :: []).
        2:{ cbn [app]. rewrite <- !app_assoc. reflexivity. }
        change 1 with (N.of_nat 1).
        change (@nil token) with (drop_own (ov (tchar t)) []) at 1.
        constructor; auto. }
      destruct (is_whitespace (tchar t)) eqn:Ew.
      { intros HR. apply (Hcont (QCommand (a :: lab) sc 0 (chars ws ++ [tchar t]))); [|exact HR].
        replace ((Esc a :: map Plain lab ++ argtoks ++ ws) ++ [t])
          with (Esc a :: map Plain lab ++ argtoks ++ (ws ++ [t])).
        2:{ cbn [app]. rewrite <- !app_assoc. reflexivity. }
        change (chars ws ++ [tchar t]) with (chars ws ++ chars [t]). rewrite <- chars_app.
        constructor; auto. rewrite forallb_app, Hws. cbn. unfold is_ws_tok. now rewrite Ew. }
      assert (Hn0 : nl [t] = 0).
      { rewrite nl_single. destruct (N.eqb_spec (tchar t) c_newline) as [E|]; [rewrite E in Ew; discriminate|reflexivity]. }
      rewrite Hn0, N.add_0_r in *.
      assert (HlenA : (length argtoks <= K)%nat).
      { cbn [app length] in Hlen. rewrite !app_length in Hlen. lia. }
      rewrite nl_command in Hline by assumption. rewrite nl_app in Hline.
      destruct (is_esc t) eqn:Ee.
      { unfold qflush_bang. cbn [q_buf q_bline q_line q_chunks].
        destruct (qflush rec (QCommand (a :: lab) sc 0 (chars ws)) bl cs0) as [cs1|] eqn:Ef; [|discriminate].
        cbn [rbind q_chunks q_line].
        apply (cmd_flush rec K bl _ argtoks sc _ _ _ a lab) in Ef; auto.
        destruct Ef as [args [Hargs ->]].
        set (cs1 := cs0 ++ [mkChunk1 bl (Command1 (mkCommand1 (a :: lab) args))]).
        set (cs2 := qtrail cs1 (line - count_newlines (chars ws)) (chars ws)).
        intros HR.
        destruct t as [c1|c1]; [discriminate|]. cbn [tchar] in *.
        assert (Hrest : exists cs, d = cs2 ++ cs /\ parses line (Esc c1 :: ts) cs).
        { unfold qstart in HR. cbn [q_chunks q_line rbind] in HR.
          destruct (is_ascii_alphabetic c1) eqn:Ea.
          - match type of HR with context[rfold (qstep rec) ?Q ts] => specialize (IH Q [Esc c1] d) end.
            cbn [q_buf q_bline q_line q_chunks] in IH.
            apply IH; auto; try lia.
            { pose proof (pend_cmd c1 [] [] [] []) as P. cbn [map app chars] in P. apply P; auto. constructor. }
            { rewrite app_length in *. cbn [length app] in *. lia. }
          - match type of HR with context[rfold (qstep rec) ?Q ts] => specialize (IH Q [] d) end.
            cbn [q_buf q_bline q_line q_chunks] in IH.
            destruct IH as [cs [-> Hcs]]; auto.
            { apply (pend_text []). reflexivity. }
            { rewrite nl_nil. lia. }
            { rewrite app_length in *. cbn [length app] in *. lia. }
            rewrite <- app_assoc. eexists; split; [reflexivity|]. cbn [app] in *.
            pose proof (P_symbol line c1 ts cs) as P. rewrite Hn0, N.add_0_r in P. apply P; auto. }
        clear HR IH. destruct Hrest as [cs [-> Hcs]].
        assert (Hbody : exists cs', cs2 ++ cs = cs0 ++ mkChunk1 bl (Command1 (mkCommand1 (a :: lab) args)) :: cs'
                   /\ parses (bl + nl argtoks) (map Plain (chars ws) ++ Esc c1 :: ts) cs').
        { unfold cs2, qtrail, cs1. destruct ws as [|w ws]; cbn [chars map is_empty].
          - exists cs. rewrite <- app_assoc. split; [reflexivity|]. cbn [map app].
            rewrite nl_nil, N.add_0_r in Hline. rewrite <- Hline. exact Hcs.
          - rewrite <- !app_assoc. cbn [app]. eexists. split; [reflexivity|].
            change (tchar w :: map tchar ws) with (chars (w :: ws)).
            change (count_newlines (chars (w :: ws))) with (nl (w :: ws)).
            replace (line - nl (w :: ws)) with (bl + nl argtoks) by lia.
            change (Plain (tchar w) :: map Plain (map tchar ws) ++ Esc c1 :: ts)
              with (map Plain (chars (w :: ws)) ++ Esc c1 :: ts).
            replace (Text1 (chars (w :: ws))) with (Text1 (chars (map Plain (chars (w :: ws))))) by (now rewrite chars_map_plain).
            apply P_text; auto.
            + discriminate.
            + apply ws_text, Hws.
            + rewrite nl_map_plain. change (count_newlines (chars (w :: ws))) with (nl (w :: ws)).
              replace (bl + nl argtoks + nl (w :: ws)) with line by lia. exact Hcs. }
        destruct Hbody as [cs' [-> Hcs']]. eexists. split; [reflexivity|].
        cbn [app]. rewrite <- !app_assoc. apply P_command; auto.
        - cbn. rewrite Ew, Eo. reflexivity.
        - right; discriminate. }
      destruct t as [c1|c1]; [|discriminate]. cbn [tchar] in *.
      destruct (negb (is_empty (chars ws))) eqn:Ews.
      { unfold qflush_bang. cbn [q_buf q_bline q_line q_chunks].
        destruct (qflush rec (QCommand (a :: lab) sc 0 (chars ws)) bl cs0) as [cs1|] eqn:Ef; [|discriminate].
        cbn [rbind q_chunks q_line q_buf].
        apply (cmd_flush rec K bl _ argtoks sc _ _ _ a lab) in Ef; auto.
        destruct Ef as [args [Hargs ->]]. intros HR.
        match type of HR with context[rfold (qstep rec) ?Q ts] => specialize (IH Q (map Plain (chars ws ++ [c1])) d) end.
        cbn [q_buf q_bline q_line q_chunks] in IH.
        change (count_newlines (chars ws)) with (nl ws) in *.
        destruct IH as [cs [-> Hcs]]; auto.
        { constructor. rewrite map_app, forallb_app, ws_text by exact Hws. cbn. now rewrite Eo. }
        { rewrite nl_map_plain, count_newlines_app. change (count_newlines [c1]) with (nl [Plain c1]).
          change (count_newlines (chars ws)) with (nl ws). lia. }
        { cbn [app length] in Hlen. rewrite !app_length in *. rewrite map_length, app_length, length_chars. cbn [length] in *. lia. }
        rewrite <- app_assoc. eexists. split; [reflexivity|].
        replace (line - nl ws) with (bl + nl argtoks) in Hcs by lia.
        cbn [app]. rewrite <- !app_assoc. apply P_command; auto.
        - cbn. rewrite Ew, Eo. cbn. destruct ws; [discriminate|reflexivity].
        - right; discriminate.
        - rewrite map_app, <- app_assoc in Hcs. exact Hcs. }
      apply negb_false_iff, is_empty_nil in Ews. destruct ws; [|discriminate]. cbn [chars map] in *.
      rewrite nl_nil, N.add_0_r in Hline. rewrite app_nil_r in *.
      destruct (is_closing c1) eqn:Ecl; [discriminate|].
      destruct (negb (is_empty sc)) eqn:Esc.
      { unfold qflush_bang. cbn [q_buf q_bline q_line q_chunks].
        destruct (qflush rec (QCommand (a :: lab) sc 0 []) bl cs0) as [cs1|] eqn:Ef; [|discriminate].
        cbn [rbind q_chunks q_line q_buf].
        apply (cmd_flush rec K bl _ argtoks sc _ _ _ a lab) in Ef; auto.
        destruct Ef as [args [Hargs ->]]. intros HR.
        match type of HR with context[rfold (qstep rec) ?Q ts] => specialize (IH Q (map Plain [c1]) d) end.
        cbn [q_buf q_bline q_line q_chunks] in IH.
        destruct IH as [cs [-> Hcs]]; auto.
        { constructor. cbn. now rewrite Eo. }
        { cbn [map]. lia. }
        { cbn [app length] in Hlen. rewrite !app_length in *. cbn [length map app] in *. lia. }
        rewrite <- app_assoc. eexists. split; [reflexivity|].
        cbn [app]. rewrite <- !app_assoc.
        pose proof (P_command bl a lab argtoks args [] (Plain c1 :: ts) cs) as P. cbn [app] in P.
        apply P; auto.
        - cbn. rewrite Ew, Eo, Ecl. cbn.
          rewrite (parses_args_empty _ _ Hargs), <- (raw_args_empty _ _ Hra). exact Esc.
        - cbn [chars map app]. rewrite <- Hline. exact Hcs. }
      apply negb_false_iff, is_empty_nil in Esc. subst sc.
      inversion Hra; subst argtoks. rewrite app_nil_r in *.
      intros HR. apply (Hcont (QCommand ((a :: lab) ++ [c1]) [] 0 [])); [|exact HR].
      cbn [app].
      pose proof (pend_cmd a (lab ++ [c1]) [] [] []) as P. cbn [chars map app] in P.
      rewrite app_nil_r, map_app in P. apply P; auto.
      rewrite forallb_app, Hl. cbn. unfold is_label_char. now rewrite Ew, Eo, Ecl.
    - (* inside an argument *)
      destruct (N.eqb_spec (N.of_nat (S dd)) 0) as [E0|E0]; [lia|].
      rewrite last_variant_snoc.
      assert (Eapp : (Esc a :: map Plain lab ++ argtoks ++ pre ++ o :: part) ++ [t]
                     = Esc a :: map Plain lab ++ argtoks ++ pre ++ o :: (part ++ [t])).
      { cbn [app]. rewrite <- !app_assoc. reflexivity. }
      destruct (is_open_tok v t) eqn:Eo.
      { intros HR. apply (Hcont (QCommand (a :: lab) (sc ++ [(drop_own v part, v, chars pre)]) (N.of_nat (S dd) + 1) [])); [|exact HR].
        rewrite Eapp. replace (N.of_nat (S dd) + 1) with (N.of_nat (S (S dd))) by lia.
        replace (drop_own v part) with (drop_own v (part ++ [t])).
        2:{ rewrite drop_own_app. cbn [drop_own filter]. rewrite Eo. cbn. apply app_nil_r. }
        constructor; auto. rewrite run_depth_app, Hd. cbn [run_depth]. now rewrite Eo. }
      destruct (is_close_tok v t) eqn:Ec.
      { destruct dd as [|dd].
        - intros HR. change (N.of_nat 1 - 1) with 0 in HR.
          apply (Hcont (QCommand (a :: lab) (sc ++ [(drop_own v part, v, chars pre)]) 0 [])); [|exact HR].
          rewrite Eapp. apply is_close_tok_eq in Ec. subst t.
          pose proof (pend_cmd a lab (argtoks ++ pre ++ o :: part ++ [Plain (close1 v)]) (sc ++ [(drop_own v part, v, chars pre)]) []) as P.
          rewrite app_nil_r in P. apply P; auto.
          apply raw_args_snoc; auto. apply run_depth_balanced. exact Hd.
        - intros HR. apply (Hcont (QCommand (a :: lab) (sc ++ [(drop_own v part, v, chars pre)]) (N.of_nat (S (S dd)) - 1) [])); [|exact HR].
          rewrite Eapp. replace (N.of_nat (S (S dd)) - 1) with (N.of_nat (S dd)) by lia.
          replace (drop_own v part) with (drop_own v (part ++ [t])).
          2:{ rewrite drop_own_app. cbn [drop_own filter]. rewrite Eo, Ec. cbn. apply app_nil_r. }
          constructor; auto. rewrite run_depth_app, Hd. cbn [run_depth]. now rewrite Eo, Ec. }
      intros HR. unfold push_last in HR. rewrite modify_last_snoc in HR.
      apply (Hcont (QCommand (a :: lab) (sc ++ [(drop_own v part ++ [t], v, chars pre)]) (N.of_nat (S dd)) [])); [|exact HR].
      rewrite Eapp.
      replace (drop_own v part ++ [t]) with (drop_own v (part ++ [t])).
      2:{ rewrite drop_own_app. cbn [drop_own filter]. rewrite Eo, Ec. reflexivity. }
      constructor; auto. rewrite run_depth_app, Hd. cbn [run_depth]. now rewrite Eo, Ec.
  Qed.
End Sound.

Lemma parse_toks_sound n : forall ts d, (length ts < n)%nat ->
  parse_toks ts = ROk d -> parses 1 ts d.
Proof.
  induction n as [|n IH]; intros ts d Hn; [lia|].
  rewrite parse_toks_eq. intros HR.
  destruct (sound (length ts) parse_toks ltac:(intros; apply IH; auto; lia) ts qinit [] d) as [cs [-> Hcs]]; auto.
  apply (pend_text []). reflexivity.
Qed.

(** ** Completeness *)
Definition go (q : qst) (ts : list token) : res document1 :=
  let! q' := rfold (qstep parse_toks) q ts in qfinish parse_toks q'.

Lemma rfold_app {A S} (f : S -> A -> res S) a : forall s b,
  rfold f s (a ++ b) = let! s' := rfold f s a in rfold f s' b.
Proof.
  induction a as [|x a IH]; intros s b; cbn [app rfold rbind]; [reflexivity|].
  destruct (f s x); cbn [rbind]; [apply IH|reflexivity].
Qed.
Lemma go_app q a b : go q (a ++ b) = let! q' := rfold (qstep parse_toks) q a in go q' b.
Proof. unfold go. rewrite rfold_app. destruct (rfold _ q a); reflexivity. Qed.
Lemma go_cons q t ts : go q (t :: ts) = let! q' := qstep parse_toks q t in go q' ts.
Proof. unfold go. cbn [rfold]. destruct (qstep parse_toks q t); reflexivity. Qed.

Lemma run_text run : forallb is_text_tok run = true -> forall cs l bl c,
  rfold (qstep parse_toks) (mkQ cs l bl (QText c)) run = ROk (mkQ cs (l + nl run) bl (QText (c ++ chars run))).
Proof.
  induction run as [|t run IH]; intros H cs l bl c; cbn [rfold forallb] in *.
  { rewrite nl_nil, N.add_0_r, app_nil_r. reflexivity. }
  apply andb_prop in H as [H1 H2]. destruct t as [c1|c1]; [|discriminate].
  unfold qstep at 1, qmain. cbn [q_buf q_chunks q_line q_bline is_esc tchar].
  cbn in H1. apply negb_true_iff in H1. rewrite H1. cbn [rbind]. rewrite (IH H2).
  rewrite <- app_assoc, (nl_cons (Plain c1) run), N.add_assoc. reflexivity.
Qed.

Lemma text_flush cs l bl c rest : c <> [] ->
  match rest with [] => True | t :: _ => is_text_tok t = false end ->
  go (mkQ cs l bl (QText c)) rest = go (mkQ (cs ++ [mkChunk1 bl (Text1 c)]) l l (QText [])) rest.
Proof.
  intros Hc Hr. destruct c as [|c0 c]; [contradiction|].
  destruct rest as [|t rest]; [reflexivity|].
  rewrite !go_cons. unfold qstep, qmain. cbn [q_buf q_chunks q_line q_bline].
  destruct t as [c1|c1]; cbn [is_esc tchar]; [|reflexivity].
  cbn in Hr. apply negb_false_iff in Hr. rewrite Hr. reflexivity.
Qed.

Lemma run_scope v body : forall d d', run_depth v d body = Some d' -> forall cs l bl ct,
  rfold (qstep parse_toks) (mkQ cs l bl (QScope ct v (N.of_nat (S d)))) body
  = ROk (mkQ cs (l + nl body) bl (QScope (ct ++ body) v (N.of_nat (S d')))).
Proof.
  induction body as [|t body IH]; intros d d' H cs l bl ct; cbn [rfold run_depth] in *.
  { injection H as ->. rewrite nl_nil, N.add_0_r, app_nil_r. reflexivity. }
  unfold qstep at 1, qmain. cbn [q_buf q_chunks q_line q_bline].
  rewrite (nl_cons t body), N.add_assoc, (snoc_eq ct t body).
  destruct (is_open_tok v t).
  { replace (N.of_nat (S d) + 1) with (N.of_nat (S (S d))) by lia. cbn [rbind]. apply IH, H. }
  destruct (is_close_tok v t).
  { destruct d as [|d]; [discriminate|].
    destruct (N.eqb_spec (N.of_nat (S (S d)) - 1) 0); [lia|].
    replace (N.of_nat (S (S d)) - 1) with (N.of_nat (S d)) by lia. cbn [rbind]. apply IH, H. }
  cbn [rbind]. apply IH, H.
Qed.

Lemma run_label lab : forallb is_label_char lab = true -> forall cs l bl label,
  rfold (qstep parse_toks) (mkQ cs l bl (QCommand label [] 0 [])) (map Plain lab)
  = ROk (mkQ cs l bl (QCommand (label ++ lab) [] 0 [])).
Proof.
  induction lab as [|c lab IH]; intros H cs l bl label; cbn [rfold map forallb] in *.
  { rewrite app_nil_r. reflexivity. }
  apply andb_prop in H as [H1 H2]. unfold is_label_char in H1.
  apply andb_prop in H1 as [H1 H3]. apply andb_prop in H1 as [H1 H4].
  apply negb_true_iff in H1, H3, H4.
  unfold qstep at 1, qmain. cbn [q_buf q_chunks q_line q_bline tchar is_esc].
  change (0 =? 0) with true. cbn iota. rewrite H4, H1, H3. cbn [is_empty negb rbind].
  rewrite (nl_single (Plain c)). cbn [tchar].
  destruct (N.eqb_spec c c_newline); [subst; discriminate|].
  rewrite N.add_0_r, (IH H2), <- app_assoc. reflexivity.
Qed.

Lemma run_ws ws : forallb is_ws_tok ws = true -> forall cs l bl label sc tr,
  rfold (qstep parse_toks) (mkQ cs l bl (QCommand label sc 0 tr)) ws
  = ROk (mkQ cs (l + nl ws) bl (QCommand label sc 0 (tr ++ chars ws))).
Proof.
  induction ws as [|t ws IH]; intros H cs l bl label sc tr; cbn [rfold forallb] in *.
  { rewrite nl_nil, N.add_0_r, app_nil_r. reflexivity. }
  apply andb_prop in H as [H1 H2]. unfold is_ws_tok in H1.
  unfold qstep at 1, qmain. cbn [q_buf q_chunks q_line q_bline].
  change (0 =? 0) with true. cbn iota. rewrite (ws_not_opening _ H1), H1. cbn [rbind].
  rewrite (IH H2), <- app_assoc, (nl_cons t ws), N.add_assoc. reflexivity.
Qed.

Lemma run_arg v body : forall d d', run_depth v d body = Some d' -> forall cs l bl label sc ct pr,
  rfold (qstep parse_toks) (mkQ cs l bl (QCommand label (sc ++ [(ct, v, pr)]) (N.of_nat (S d)) [])) body
  = ROk (mkQ cs (l + nl body) bl (QCommand label (sc ++ [(ct ++ drop_own v body, v, pr)]) (N.of_nat (S d')) [])).
Proof.
  induction body as [|t body IH]; intros d d' H cs l bl label sc ct pr; cbn [rfold run_depth] in *.
  { injection H as ->. rewrite nl_nil, N.add_0_r, app_nil_r. reflexivity. }
  unfold qstep at 1, qmain. cbn [q_buf q_chunks q_line q_bline].
  destruct (N.eqb_spec (N.of_nat (S d)) 0); [lia|].
  rewrite (nl_cons t body), N.add_assoc, last_variant_snoc. cbn [drop_own filter].
  destruct (is_open_tok v t).
  { replace (N.of_nat (S d) + 1) with (N.of_nat (S (S d))) by lia. cbn [rbind orb negb]. apply IH, H. }
  destruct (is_close_tok v t).
  { destruct d as [|d]; [discriminate|].
    replace (N.of_nat (S (S d)) - 1) with (N.of_nat (S d)) by lia. cbn [rbind orb negb]. apply IH, H. }
  cbn [rbind orb negb]. unfold push_last. rewrite modify_last_snoc. rewrite (IH _ _ H), <- app_assoc. reflexivity.
Qed.

Lemma ov_open v c : c = open1 v -> ov c = v.
Proof. intros ->. destruct v; reflexivity. Qed.
Lemma open_is_opening v : is_opening (open1 v) = true.
Proof. destruct v; reflexivity. Qed.

Lemma run_args argtoks sc' : raw_args argtoks sc' -> forall cs l bl label sc,
  rfold (qstep parse_toks) (mkQ cs l bl (QCommand label sc 0 [])) argtoks
  = ROk (mkQ cs (l + nl argtoks) bl (QCommand label (sc ++ sc') 0 [])).
Proof.
  induction 1 as [|pre o v body rest sc' Hp Ho Hb _ IH]; intros cs l bl label sc.
  { cbn [rfold]. rewrite nl_nil, N.add_0_r, app_nil_r. reflexivity. }
  rewrite rfold_app, run_ws by exact Hp. cbn [rbind rfold app].
  unfold qstep at 1, qmain. cbn [q_buf q_chunks q_line q_bline].
  change (0 =? 0) with true. cbn iota.
  rewrite Ho, open_is_opening, (ov_open v _ eq_refl). cbn [rbind].
  rewrite rfold_app. change 1 with (N.of_nat 1).
  rewrite (run_arg v body O O) by (apply run_depth_balanced; exact Hb). cbn [rbind rfold app].
  unfold qstep at 1, qmain. cbn [q_buf q_chunks q_line q_bline].
  change (N.of_nat 1 =? 0) with false. cbn iota. rewrite last_variant_snoc, close_not_open, close_close.
  cbn [rbind]. change (N.of_nat 1 - 1) with 0. rewrite IH, <- app_assoc. cbn [app].
  f_equal. f_equal. rewrite nl_app, (nl_cons o (body ++ _)), nl_app, (nl_cons _ rest). lia.
Qed.

Lemma cmd_follow cs l bl label sc args ws rest :
  rmap (fun x => match x with (content, v, prec) =>
          let! inner := parse_toks content in ROk (prec, mkScope1 inner v) end) sc = ROk args ->
  forallb is_ws_tok ws = true ->
  follow_ok (negb (is_empty sc)) ws rest = true -> (ws = [] \/ rest <> []) ->
  go (mkQ cs l bl (QCommand label sc 0 [])) (ws ++ rest)
  = go (mkQ (cs ++ [mkChunk1 bl (Command1 (mkCommand1 label args))]) l l (QText []))
       (map Plain (chars ws) ++ rest).
Proof.
  intros Hargs Hws Hf Hne.
  rewrite !go_app, run_ws by exact Hws. rewrite run_text by (apply ws_text; exact Hws).
  cbn [rbind app]. rewrite nl_map_plain, chars_map_plain. change (count_newlines (chars ws)) with (nl ws).
  assert (Hfl : forall tr bl', qflush parse_toks (QCommand label sc 0 tr) bl' cs
                   = ROk (cs ++ [mkChunk1 bl' (Command1 (mkCommand1 label args))])).
  { intros. cbn [qflush]. change (0 =? 0) with true. cbn iota. rewrite Hargs. reflexivity. }
  destruct rest as [|t rest].
  { destruct Hne as [->|H]; [|contradiction]. unfold go. cbn [rfold rbind]. unfold qfinish, qflush_bang.
    cbn [q_buf q_bline q_chunks q_line chars map]. rewrite Hfl. reflexivity. }
  rewrite !go_cons. unfold qstep, qmain. cbn [q_buf q_chunks q_line q_bline].
  change (0 =? 0) with true. cbn iota.
  cbn [follow_ok] in Hf. apply andb_prop in Hf as [Hf Hf3]. apply andb_prop in Hf as [Hf1 Hf2].
  apply negb_true_iff in Hf1, Hf2. rewrite Hf1, Hf2.
  assert (Hn0 : nl [t] = 0).
  { rewrite nl_single. destruct (N.eqb_spec (tchar t) c_newline) as [E|]; [rewrite E in Hf1; discriminate|reflexivity]. }
  rewrite Hn0, !N.add_0_r.
  unfold qflush_bang. cbn [q_buf q_chunks q_line q_bline]. rewrite !Hfl.
  change (count_newlines (chars ws)) with (nl ws).
  destruct t as [c|c]; cbn [is_esc tchar].
  - destruct ws as [|w ws].
    + cbn [is_empty negb orb] in Hf3. cbn [chars map is_empty negb]. apply andb_prop in Hf3 as [Hf3 Hf4].
      apply negb_true_iff in Hf3. rewrite Hf3, Hf4. cbn [rbind q_chunks q_line q_buf app].
      rewrite nl_nil, N.add_0_r. reflexivity.
    + cbn [chars map is_empty negb rbind q_chunks q_line q_buf].
      change (count_newlines (tchar w :: map tchar ws)) with (nl (w :: ws)). rewrite N.add_sub. reflexivity.
  - cbn [rbind q_chunks q_line qflush]. unfold qtrail.
    change (count_newlines (chars ws)) with (nl ws). rewrite N.add_sub. reflexivity.
Qed.

Scheme parses_mut := Induction for parses Sort Prop
  with parses_args_mut := Induction for parses_args Sort Prop.
Combined Scheme parses_parses_args_ind from parses_mut, parses_args_mut.

Lemma complete_mut :
  (forall L ts d, parses L ts d -> forall cs0, go (mkQ cs0 L L (QText [])) ts = ROk (cs0 ++ d)) /\
  (forall argtoks args, parses_args argtoks args -> exists sc, raw_args argtoks sc /\
     rmap (fun x => match x with (content, v, prec) =>
          let! inner := parse_toks content in ROk (prec, mkScope1 inner v) end) sc = ROk args).
Proof.
  apply parses_parses_args_ind.
  - intros L cs0. unfold go. cbn. now rewrite app_nil_r.
  - intros L run rest cs Hne Hrun Hrest _ IH cs0.
    rewrite go_app, run_text by exact Hrun. cbn [rbind app].
    rewrite text_flush; [|destruct run; [contradiction|discriminate]|exact Hrest].
    rewrite IH, <- app_assoc. reflexivity.
  - intros L v body rest inner cs Hb _ IHin _ IH cs0.
    rewrite go_cons. unfold qstep, qmain. cbn [q_buf q_chunks q_line q_bline is_esc tchar].
    rewrite open_is_opening, (ov_open v _ eq_refl).
    replace (nl [Plain (open1 v)]) with 0 by (destruct v; reflexivity). rewrite N.add_0_r.
    unfold qflush_bang. cbn [q_buf q_bline q_chunks q_line qflush is_empty rbind].
    rewrite go_app. change 1 with (N.of_nat 1).
    rewrite (run_scope v body O O) by (apply run_depth_balanced; exact Hb). cbn [rbind app].
    rewrite go_cons. unfold qstep, qmain. cbn [q_buf q_chunks q_line q_bline].
    rewrite close_not_open, close_close. change (N.of_nat 1 - 1 =? 0) with true. cbn iota.
    unfold qflush_bang. cbn [q_buf q_bline q_chunks q_line qflush]. change (0 =? 0) with true. cbn iota.
    assert (Hin : parse_toks body = ROk inner).
    { rewrite parse_toks_eq. exact (IHin []). }
    rewrite Hin. cbn [rbind].
    replace (nl [Plain (close1 v)]) with 0 by (destruct v; reflexivity). rewrite N.add_0_r.
    rewrite IH, <- app_assoc. reflexivity.
  - intros L c rest cs Hc _ IH cs0.
    rewrite go_cons. unfold qstep, qmain. cbn [q_buf q_chunks q_line q_bline is_esc tchar].
    unfold qflush_bang. cbn [q_buf q_bline q_chunks q_line qflush is_empty rbind].
    unfold qstart. rewrite Hc. cbn [rbind q_chunks q_line]. rewrite IH, <- app_assoc. reflexivity.
  - intros L a lab argtoks args ws rest cs Ha Hl Hargs [sc [Hra Hm]] Hws Hf Hne _ IH cs0.
    rewrite go_cons. unfold qstep, qmain. cbn [q_buf q_chunks q_line q_bline is_esc tchar].
    unfold qflush_bang. cbn [q_buf q_bline q_chunks q_line qflush is_empty rbind].
    unfold qstart. rewrite Ha. cbn [rbind q_chunks q_line].
    replace (nl [Esc a]) with 0 by (rewrite nl_single; cbn [tchar]; now rewrite alpha_not_newline).
    rewrite N.add_0_r, go_app, run_label by exact Hl. cbn [rbind app].
    rewrite go_app, (run_args _ _ Hra). cbn [rbind app].
    rewrite (cmd_follow _ _ _ _ _ args).
    + rewrite IH, <- app_assoc. reflexivity.
    + exact Hm.
    + exact Hws.
    + rewrite (raw_args_empty _ _ Hra), <- (parses_args_empty _ _ Hargs). exact Hf.
    + exact Hne.
  - intros L a lab argtoks args ws Ha Hl Hargs [sc [Hra Hm]] Hws Hne cs0.
    rewrite go_cons. unfold qstep, qmain. cbn [q_buf q_chunks q_line q_bline is_esc tchar].
    unfold qflush_bang. cbn [q_buf q_bline q_chunks q_line qflush is_empty rbind].
    unfold qstart. rewrite Ha. cbn [rbind q_chunks q_line].
    replace (nl [Esc a]) with 0 by (rewrite nl_single; cbn [tchar]; now rewrite alpha_not_newline).
    rewrite N.add_0_r, go_app, run_label by exact Hl. cbn [rbind app].
    rewrite go_app, (run_args _ _ Hra). cbn [rbind app].
    rewrite <- (app_nil_r ws) at 1. rewrite go_app, run_ws by exact Hws. cbn [rbind app].
    unfold go. cbn [rfold rbind]. unfold qfinish, qflush_bang. cbn [q_buf q_chunks q_line q_bline qflush].
    change (0 =? 0) with true. cbn iota. rewrite Hm. cbn [rbind q_chunks q_line].
    unfold qtrail. destruct ws; [contradiction|]. cbn [chars map is_empty].
    rewrite <- app_assoc. reflexivity.
  - exists []. split; [constructor|reflexivity].
  - intros pre o v body inner rest args Hp Ho Hb _ IHin _ [sc [Hra Hm]].
    eexists. split; [constructor; eauto|]. cbn [rmap].
    assert (Hin : parse_toks (drop_own v body) = ROk inner).
    { rewrite parse_toks_eq. exact (IHin []). }
    rewrite Hin. cbn [rbind]. rewrite Hm. reflexivity.
Qed.

Lemma parse_toks_complete ts d : parses 1 ts d -> parse_toks ts = ROk d.
Proof. intros H. rewrite parse_toks_eq. exact (proj1 complete_mut 1 ts d H []). Qed.

Theorem parse_toks_iff ts d : parse_toks ts = ROk d <-> parses 1 ts d.
Proof. split; [apply (parse_toks_sound (S (length ts))); lia|apply parse_toks_complete]. Qed.

Theorem from_str1_iff p s d : N.of_nat (length s) + 1 < two32 ->
  from_str1 p s = Ok d <-> parses 1 (tokens s) d.
Proof.
  intros Hb. destruct (from_str1_toks p s Hb) as [-> _]. rewrite <- parse_toks_iff.
  destruct (parse_toks (tokens s)); cbn; split; congruence.
Qed.
