(** * Fail1: the stage-1 parser rejects exactly what SpecFail1.v says *)
From Verif Require Import Base Ast1 Parse1 Spec1 Tok Pure1 Refine1 Gram1 SpecFail1.

(** ** Every token list is accepted or rejected by the grammar *)

(** the bracket opened before [ts] is closed, or not *)
Lemma find_close v ts : forall d,
  (exists body rest d', ts = body ++ Plain (close1 v) :: rest /\ run_depth v d body = Some O /\ d' = O) \/
  (forall body rest, ts = body ++ Plain (close1 v) :: rest -> run_depth v d body <> Some O).
Proof.
  induction ts as [|t ts IH]; intros d.
  - right. intros [|? ?] ? ?; discriminate.
  - destruct (is_close_tok v t) eqn:Ec.
    + assert (t = Plain (close1 v)) by (apply is_close_tok_eq; assumption). subst t.
      destruct d as [|d].
      * left. exists [], ts, O. auto.
      * destruct (IH d) as [(body & rest & d' & -> & H & ->)|H].
        -- left. exists (Plain (close1 v) :: body), rest, O. split; [reflexivity|]. split; [|reflexivity].
           cbn [run_depth]. rewrite close_not_open, close_close. exact H.
        -- right. intros [|t body] rest E; cbn [app] in E.
           ++ cbn. discriminate.
           ++ injection E as Et E. subst t. cbn [run_depth]. rewrite close_not_open, close_close. eapply H, E.
    + destruct (is_open_tok v t) eqn:Eo.
      * destruct (IH (S d)) as [(body & rest & d' & -> & H & ->)|H].
        -- left. exists (t :: body), rest, O. split; [reflexivity|]. split; [|reflexivity].
           cbn [run_depth]. rewrite Eo. exact H.
        -- right. intros [|t' body] rest E; cbn [app] in E; injection E as Et E.
           ++ rewrite Et, close_close in Ec. discriminate.
           ++ subst t'. cbn [run_depth]. rewrite Eo. eapply H, E.
      * destruct (IH d) as [(body & rest & d' & -> & H & ->)|H].
        -- left. exists (t :: body), rest, O. split; [reflexivity|]. split; [|reflexivity].
           cbn [run_depth]. rewrite Eo, Ec. exact H.
        -- right. intros [|t' body] rest E; cbn [app] in E; injection E as Et E.
           ++ rewrite Et, close_close in Ec. discriminate.
           ++ subst t'. cbn [run_depth]. rewrite Eo, Ec. eapply H, E.
Qed.
Lemma closed_or_not v ts :
  (exists body rest, ts = body ++ Plain (close1 v) :: rest /\ balanced v body) \/ never_closed v ts.
Proof.
  destruct (find_close v ts O) as [(body & rest & ? & -> & H & _)|H].
  - left. exists body, rest. split; [reflexivity|]. apply run_depth_balanced, H.
  - right. intros body rest E Hb. apply run_depth_balanced in Hb. exact (H body rest E Hb).
Qed.

(** longest prefix *)
Lemma span (f : token -> bool) ts : exists a b, ts = a ++ b /\ forallb f a = true /\
  match b with [] => True | t :: _ => f t = false end.
Proof.
  induction ts as [|t ts (a & b & -> & Ha & Hb)]; [exists [], []; auto|].
  destruct (f t) eqn:E.
  - exists (t :: a), b. cbn. rewrite E. auto.
  - exists [], (t :: a ++ b). cbn. auto.
Qed.

(** arguments of a command, as far as they go *)
Lemma span_args n : forall ts, (length ts < n)%nat -> exists argtoks bodies ws rest,
  ts = argtoks ++ ws ++ rest /\ bracketed argtoks bodies /\ forallb is_ws_tok ws = true /\
  match rest with
  | [] => True
  | o :: ts' => is_whitespace (tchar o) = false /\
      (is_opening (tchar o) = false \/ exists v, tchar o = open1 v /\ never_closed v ts')
  end.
Proof.
  induction n as [|n IH]; intros ts Hn; [lia|].
  destruct (span is_ws_tok ts) as (ws & rest & -> & Hws & Hr).
  destruct rest as [|o rest].
  { exists [], [], ws, []. rewrite !app_nil_r. cbn. repeat split; auto. constructor. }
  destruct (is_opening (tchar o)) eqn:Eo.
  - destruct (@from_opening_ok error _ Eo) as [_ Hv]. set (v := ov (tchar o)) in *.
    destruct (closed_or_not v rest) as [(body & rest' & -> & Hb)|Hnc].
    + destruct (IH rest') as (argtoks & bodies & ws' & rest & -> & H1 & H2 & H3).
      { rewrite app_length in Hn. cbn [length] in Hn. rewrite app_length in Hn. cbn [length] in Hn. lia. }
      exists (ws ++ o :: body ++ Plain (close1 v) :: argtoks), ((v, body) :: bodies), ws', rest.
      split; [|split; [constructor; auto|split; assumption]].
      rewrite <- !app_assoc. cbn [app]. rewrite <- !app_assoc. reflexivity.
    + exists [], [], ws, (o :: rest). cbn [app]. split; [reflexivity|]. split; [constructor|]. split; [exact Hws|]. split; [exact Hr|]. right. exists v. auto.
  - exists [], [], ws, (o :: rest). cbn [app]. split; [reflexivity|]. split; [constructor|]. split; [exact Hws|]. split; [exact Hr|]. left. exact Eo.
Qed.

Lemma bracketed_shorter argtoks bodies : bracketed argtoks bodies -> forall v body, In (v, body) bodies ->
  (length (drop_own v body) < length argtoks)%nat.
Proof.
  induction 1 as [|pre o v body rest bodies Hp Ho Hb _ IH]; intros v' body' Hin; [destruct Hin|].
  rewrite app_length. cbn [length]. rewrite app_length. cbn [length].
  destruct Hin as [[= -> ->]|Hin]; [pose proof (drop_own_length v' body'); lia|]. specialize (IH _ _ Hin). lia.
Qed.

(** all the bodies parse, or there is a first one that does not *)
Lemma first_failing (bodies : list (sv1 * list token)) :
  (forall v body, In (v, body) bodies -> (exists d, parses 1 (drop_own v body) d) \/ (exists e, fails 1 (drop_own v body) e)) ->
  (exists inners, Forall2 (fun x inner => parses 1 (drop_own (fst x) (snd x)) inner) bodies inners) \/
  (exists before v body after inners e, bodies = before ++ (v, body) :: after /\
     Forall2 (fun x inner => parses 1 (drop_own (fst x) (snd x)) inner) before inners /\ fails 1 (drop_own v body) e).
Proof.
  induction bodies as [|[v body] bodies IH]; intros H.
  - left. exists []. constructor.
  - destruct (H v body (or_introl eq_refl)) as [[d Hd]|[e He]].
    + destruct IH as [[inners Hi]|(before & v' & body' & after & inners & e & -> & H1 & H2)].
      * intros v' body' Hin. apply H. right. exact Hin.
      * left. exists (d :: inners). constructor; auto.
      * right. exists ((v, body) :: before), v', body', after, (d :: inners), e. split; [reflexivity|]. split; [constructor; auto|exact H2].
    + right. exists [], v, body, bodies, [], e. split; [reflexivity|]. split; [constructor|exact He].
Qed.
Lemma bracketed_parses argtoks bodies : bracketed argtoks bodies -> forall inners,
  Forall2 (fun x inner => parses 1 (drop_own (fst x) (snd x)) inner) bodies inners ->
  exists args, parses_args argtoks args.
Proof.
  induction 1 as [|pre o v body rest bodies Hp Ho Hb _ IH]; intros inners Hi.
  - exists []. constructor.
  - inversion Hi as [|x inner ? inners' Hx Hr]; subst. cbn in Hx. destruct (IH _ Hr) as [args Ha].
    eexists. constructor; eauto.
Qed.
Lemma bracketed_empty argtoks bodies : bracketed argtoks bodies -> is_empty argtoks = is_empty bodies.
Proof. destruct 1; [reflexivity|]. destruct pre; reflexivity. Qed.

(** longest label *)
Lemma span_label ts : exists lab rest, ts = map Plain lab ++ rest /\ forallb is_label_char lab = true /\
  match rest with Plain c :: _ => is_label_char c = false | _ => True end.
Proof.
  induction ts as [|t ts (lab & rest & -> & H1 & H2)]; [exists [], []; auto|].
  destruct t as [c|c].
  - destruct (is_label_char c) eqn:E.
    + exists (c :: lab), rest. cbn. rewrite E. auto.
    + exists [], (Plain c :: map Plain lab ++ rest). auto.
  - exists [], (Esc c :: map Plain lab ++ rest). auto.
Qed.

Lemma follow_mono (b : bool) ws rest : follow_ok b ws rest = true -> follow_ok true ws rest = true.
Proof.
  destruct rest as [|t rest]; [reflexivity|]. cbn. intros H. apply andb_prop in H as [H1 H2]. rewrite H1.
  destruct t; [|reflexivity]. cbn. destruct (negb (is_empty ws)); [reflexivity|]. cbn in *.
  apply andb_prop in H2 as [-> _]. reflexivity.
Qed.
Lemma length_plain_chars ws : length (map Plain (chars ws)) = length ws.
Proof. now rewrite map_length, length_chars. Qed.

Lemma decide n : forall L ts, (length ts < n)%nat -> (exists d, parses L ts d) \/ (exists e, fails L ts e).
Proof.
  induction n as [|n IH]; intros L ts Hn; [lia|].
  destruct ts as [|t ts]; [left; exists []; constructor|]. cbn [length] in Hn.
  destruct (is_text_tok t) eqn:Et.
  { (* text *)
    destruct (span is_text_tok ts) as (a & b & -> & Ha & Hb). rewrite app_length in Hn.
    destruct (IH (L + nl (t :: a)) b) as [[d Hd]|[e He]]; [lia| |].
    - left. eexists. change (t :: a ++ b) with ((t :: a) ++ b). apply P_text; eauto; [discriminate|]. cbn. now rewrite Et.
    - right. exists e. change (t :: a ++ b) with ((t :: a) ++ b). apply F_text; auto; [discriminate|]. cbn. now rewrite Et. }
  destruct t as [c|c].
  { (* scope *)
    cbn in Et. apply negb_false_iff in Et. destruct (@from_opening_ok error _ Et) as [_ Hv]. set (v := ov c) in *.
    rewrite <- Hv. destruct (closed_or_not v ts) as [(body & rest & -> & Hb)|Hnc].
    - rewrite app_length in Hn. cbn [length] in Hn.
      destruct (IH 1 body) as [[inner Hi]|[e He]]; [lia| |].
      + destruct (IH (L + nl body) rest) as [[d Hd]|[e He]]; [lia| |].
        * left. eexists. apply P_scope; eauto.
        * right. exists e. eapply F_scope_after; eauto.
      + right. eexists. apply F_scope_inside; eauto.
    - right. eexists. apply F_scope_open; auto. }
  destruct (is_ascii_alphabetic c) eqn:Ea.
  2:{ destruct (IH (L + nl [Esc c]) ts) as [[d Hd]|[e He]]; [lia| |].
      - left. eexists. apply P_symbol; eauto.
      - right. exists e. apply F_symbol; auto. }
  (* control word *)
  destruct (span_label ts) as (lab & ts' & -> & Hlab & Hstop).
  destruct (span_args (S (length ts')) ts') as (argtoks & bodies & ws & rest & -> & Hbr & Hws & Hrest); [lia|].
  rewrite !app_length, map_length in Hn.
  assert (Hopen : forall o ts0, rest = o :: ts0 -> (exists v, tchar o = open1 v /\ never_closed v ts0) ->
    exists e, fails L (Esc c :: map Plain lab ++ argtoks ++ ws ++ rest) e).
  { intros o ts0 -> (v & Ho & Hnc). eexists. eapply F_command_open; eauto. }
  assert (Hinner : follow_ok (negb (is_empty bodies)) ws rest = true ->
    (exists d, parses L (Esc c :: map Plain lab ++ argtoks ++ ws ++ rest) d) \/
    (exists e, fails L (Esc c :: map Plain lab ++ argtoks ++ ws ++ rest) e)).
  { intros Hf. destruct (first_failing bodies) as [[inners Hi]|(before & v & body & after & inners & e & E & H1 & H2)].
    - intros v body Hin. apply IH. pose proof (bracketed_shorter _ _ Hbr v body Hin). lia.
    - destruct (bracketed_parses _ _ Hbr _ Hi) as [args Hargs].
      assert (Hne : is_empty args = is_empty bodies).
      { rewrite (parses_args_empty _ _ Hargs). apply bracketed_empty, Hbr. }
      destruct rest as [|r rest].
      + destruct ws as [|w ws].
        * left. eexists. eapply P_command; [exact Ea|exact Hlab|exact Hargs|exact Hws|rewrite Hne; exact Hf|left; reflexivity|constructor].
        * left. eexists. rewrite app_nil_r. apply P_command_eof; eauto. discriminate.
      + destruct (IH (L + nl argtoks) (map Plain (chars ws) ++ r :: rest)) as [[d Hd]|[e He]].
        { rewrite app_length, length_plain_chars. lia. }
        * left. eexists. eapply P_command; [exact Ea|exact Hlab|exact Hargs|exact Hws|rewrite Hne; exact Hf|right; discriminate|exact Hd].
        * right. exists e. eapply F_command_after; [exact Ea|exact Hlab|exact Hargs|exact Hws|rewrite Hne; exact Hf|discriminate|exact He].
    - right. eexists. eapply F_command_inside; eauto. eapply follow_mono, Hf. }
  destruct rest as [|r rest]; [apply Hinner; reflexivity|].
  destruct Hrest as [Hw [Ho|Ho]]; [|right; eapply Hopen; eauto].
  destruct r as [x|x].
  2:{ apply Hinner. cbn. cbn in Hw, Ho. rewrite Hw, Ho. reflexivity. }
  cbn [tchar] in Hw, Ho.
  destruct ws as [|w ws].
  2:{ apply Hinner. cbn. rewrite Hw, Ho. reflexivity. }
  destruct (is_closing x) eqn:Ec.
  - right. destruct (@from_closing_ok error _ Ec) as [_ Hv]. rewrite <- Hv. eexists. cbn [app].
    eapply F_command_closing; eauto.
  - apply Hinner. cbn. rewrite Hw, Ho, Ec. cbn. rewrite <- (bracketed_empty _ _ Hbr).
    destruct argtoks as [|o' argtoks]; [|reflexivity].
    cbn in Hstop. unfold is_label_char in Hstop. rewrite Hw, Ho, Ec in Hstop. discriminate.
Qed.

(** ** What the grammar rejects, the parser rejects, with that error *)
Lemma bracketed_raw argtoks bodies : bracketed argtoks bodies ->
  exists sc, raw_args argtoks sc /\ map (fun x => fst (fst x)) sc = map (fun x => drop_own (fst x) (snd x)) bodies /\
             map (fun x => snd (fst x)) sc = map fst bodies.
Proof.
  induction 1 as [|pre o v body rest bodies Hp Ho Hb _ (sc & H1 & H2 & H3)].
  - exists []. split; [constructor|]. split; reflexivity.
  - exists ((drop_own v body, v, chars pre) :: sc). split; [constructor; auto|]. cbn. rewrite H2, H3. split; reflexivity.
Qed.

Definition parse_arg (x : list token * sv1 * str) : res (str * scope1) :=
  match x with (content, v, prec) => let! inner := parse_toks content in ROk (prec, mkScope1 inner v) end.
Lemma args_fail sc before d after inners e :
  map (fun x => fst (fst x)) sc = before ++ d :: after ->
  Forall2 (fun ct inner => parse_toks ct = ROk inner) before inners ->
  parse_toks d = RErr e ->
  rmap parse_arg sc = RErr e.
Proof.
  intros Hm Hi Hd. revert sc Hm. induction Hi as [|ct inner before inners Hct _ IH]; intros sc Hm.
  - destruct sc as [|[[ct v] pr] sc]; [discriminate|]. cbn in Hm. injection Hm as -> _.
    cbn [rmap parse_arg]. rewrite Hd. reflexivity.
  - destruct sc as [|[[ct' v] pr] sc]; [discriminate|]. cbn in Hm. injection Hm as -> Hm.
    cbn [rmap parse_arg]. rewrite Hct. cbn [rbind]. rewrite (IH sc Hm). reflexivity.
Qed.

(** the state in which a never-closed bracket leaves the machine *)
Lemma never_closed_run v ts : never_closed v ts -> exists d, run_depth v 0 ts = Some d.
Proof.
  intros H.
  assert (G : forall ts d, (forall body rest, ts = body ++ Plain (close1 v) :: rest -> run_depth v d body <> Some O) ->
    exists d', run_depth v d ts = Some d').
  { clear. induction ts as [|t ts IH]; intros d H; [eexists; reflexivity|]. cbn [run_depth].
    destruct (is_open_tok v t) eqn:Eo.
    - apply IH. intros body rest E. specialize (H (t :: body) rest). cbn [app run_depth] in H. rewrite Eo in H.
      apply H. now rewrite E.
    - destruct (is_close_tok v t) eqn:Ec.
      + destruct d as [|d].
        * exfalso. apply is_close_tok_eq in Ec. subst t. exact (H [] ts eq_refl eq_refl).
        * apply IH. intros body rest E. specialize (H (t :: body) rest). cbn [app run_depth] in H. rewrite Eo, Ec in H.
          apply H. now rewrite E.
      + apply IH. intros body rest E. specialize (H (t :: body) rest). cbn [app run_depth] in H. rewrite Eo, Ec in H.
        apply H. now rewrite E. }
  apply G. intros body rest E Hb. apply run_depth_balanced in Hb. exact (H body rest E Hb).
Qed.

Lemma start_word cs0 L a lab rest : is_ascii_alphabetic a = true -> forallb is_label_char lab = true ->
  go (mkQ cs0 L L (QText [])) (Esc a :: map Plain lab ++ rest) = go (mkQ cs0 L L (QCommand (a :: lab) [] 0 [])) rest.
Proof.
  intros Ha Hl. rewrite go_cons. unfold qstep, qmain. cbn [q_buf q_chunks q_line q_bline is_esc tchar].
  unfold qflush_bang. cbn [q_buf q_bline q_chunks q_line qflush is_empty rbind].
  unfold qstart. rewrite Ha. cbn [rbind q_chunks q_line].
  replace (nl [Esc a]) with 0 by (rewrite nl_single; cbn [tchar]; now rewrite alpha_not_newline).
  rewrite N.add_0_r, go_app, run_label by exact Hl. reflexivity.
Qed.
Lemma start_scope cs0 L v ts :
  go (mkQ cs0 L L (QText [])) (Plain (open1 v) :: ts) = go (mkQ cs0 L L (QScope [] v (N.of_nat 1))) ts.
Proof.
  rewrite go_cons. unfold qstep, qmain. cbn [q_buf q_chunks q_line q_bline is_esc tchar].
  rewrite open_is_opening, (ov_open v _ eq_refl).
  replace (nl [Plain (open1 v)]) with 0 by (destruct v; reflexivity). rewrite N.add_0_r.
  unfold qflush_bang. cbn [q_buf q_bline q_chunks q_line qflush is_empty rbind]. reflexivity.
Qed.

(** a command whose arguments fail, at the point where it is flushed *)
Lemma cmd_follow_fail cs l bl label sc ws rest e :
  rmap parse_arg sc = RErr e -> forallb is_ws_tok ws = true -> follow_ok (negb (is_empty sc)) ws rest = true ->
  go (mkQ cs l bl (QCommand label sc 0 [])) (ws ++ rest) = RErr (moved bl e).
Proof.
  intros Hargs Hws Hf.
  rewrite go_app, run_ws by exact Hws. cbn [rbind app].
  assert (Hfl : forall tr bl', qflush parse_toks (QCommand label sc 0 tr) bl' cs = RErr e).
  { intros. cbn [qflush]. change (0 =? 0) with true. cbn iota. fold parse_arg. 
    change (rmap (fun x => match x with (content, v, prec) =>
          let! inner := parse_toks content in ROk (prec, mkScope1 inner v) end) sc) with (rmap parse_arg sc).
    rewrite Hargs. reflexivity. }
  destruct rest as [|t rest].
  { unfold go. cbn [rfold rbind]. unfold qfinish, qflush_bang. cbn [q_buf q_bline q_chunks q_line]. rewrite Hfl. reflexivity. }
  rewrite go_cons. unfold qstep, qmain. cbn [q_buf q_chunks q_line q_bline].
  change (0 =? 0) with true. cbn iota.
  cbn [follow_ok] in Hf. apply andb_prop in Hf as [Hf Hf3]. apply andb_prop in Hf as [Hf1 Hf2].
  apply negb_true_iff in Hf1, Hf2. rewrite Hf1, Hf2.
  unfold qflush_bang. cbn [q_buf q_chunks q_line q_bline]. rewrite !Hfl.
  destruct t as [c|c]; cbn [is_esc tchar]; [|reflexivity].
  destruct ws as [|w ws]; [|reflexivity].
  cbn [is_empty negb orb] in Hf3. cbn [chars map is_empty negb]. apply andb_prop in Hf3 as [Hf3 Hf4].
  apply negb_true_iff in Hf3. rewrite Hf3, Hf4. reflexivity.
Qed.

Lemma closing_run cs l bl label sc v rest :
  go (mkQ cs l bl (QCommand label sc 0 [])) (Plain (close1 v) :: rest) = RErr (mkError l (UnexpectedClosing v)).
Proof.
  rewrite go_cons. unfold qstep, qmain. cbn [q_buf q_chunks q_line q_bline tchar is_esc].
  change (0 =? 0) with true. cbn iota.
  replace (nl [Plain (close1 v)]) with 0 by (destruct v; reflexivity). rewrite N.add_0_r.
  destruct v; reflexivity.
Qed.

Lemma parse_iff ts d : parses 1 ts d -> parse_toks ts = ROk d.
Proof. apply parse_toks_iff. Qed.

Lemma fails_go L ts e : fails L ts e -> 1 <= L -> forall cs0, go (mkQ cs0 L L (QText [])) ts = RErr e.
Proof.
  assert (inner_fail : forall ts e, (forall cs0, go (mkQ cs0 1 1 (QText [])) ts = RErr e) -> parse_toks ts = RErr e).
  { intros ts0 e0 H. rewrite parse_toks_eq. exact (H []). }
  induction 1 as [L run rest e Hne Hrun Hrest _ IH|L v ts Hnc|L v body rest e Hb _ IH|L v body rest inner e Hb Hi _ IH
    |L c rest e Hc _ IH|L a lab argtoks bodies pre o v ts Ha Hl Hbr Hpre Ho Hnc|L a lab argtoks bodies v rest Ha Hl Hbr
    |L a lab argtoks bodies before v body after inners ws rest e Ha Hl Hbr Hbo Hbe _ IH Hws Hf
    |L a lab argtoks args ws rest e Ha Hl Hargs Hws Hf Hne _ IH]; intros HL cs0.
  - rewrite go_app, run_text by exact Hrun. cbn [rbind app].
    rewrite text_flush; [|destruct run; [contradiction|discriminate]|exact Hrest]. apply IH. lia.
  - rewrite start_scope. destruct (never_closed_run v ts Hnc) as [d Hd].
    rewrite <- (app_nil_r ts), go_app, (run_scope v ts O d Hd). cbn [rbind app].
    unfold go, qfinish, qflush_bang. cbn [rfold rbind q_buf q_bline q_chunks q_line qflush].
    destruct (N.eqb_spec (N.of_nat (S d)) 0); [lia|]. cbn [rbind err_line err_type]. do 2 f_equal. lia.
  - rewrite start_scope, go_app, (run_scope v body O O) by (apply run_depth_balanced; exact Hb). cbn [rbind app].
    rewrite go_cons. unfold qstep, qmain. cbn [q_buf q_chunks q_line q_bline].
    rewrite close_not_open, close_close. change (N.of_nat 1 - 1 =? 0) with true. cbn iota.
    unfold qflush_bang. cbn [q_buf q_bline q_chunks q_line qflush]. change (0 =? 0) with true. cbn iota.
    rewrite (inner_fail _ _ (IH ltac:(lia))). reflexivity.
  - rewrite start_scope, go_app, (run_scope v body O O) by (apply run_depth_balanced; exact Hb). cbn [rbind app].
    rewrite go_cons. unfold qstep, qmain. cbn [q_buf q_chunks q_line q_bline].
    rewrite close_not_open, close_close. change (N.of_nat 1 - 1 =? 0) with true. cbn iota.
    unfold qflush_bang. cbn [q_buf q_bline q_chunks q_line qflush]. change (0 =? 0) with true. cbn iota.
    rewrite (parse_iff _ _ Hi). cbn [rbind].
    replace (nl [Plain (close1 v)]) with 0 by (destruct v; reflexivity). rewrite N.add_0_r. apply IH. lia.
  - rewrite go_cons. unfold qstep, qmain. cbn [q_buf q_chunks q_line q_bline is_esc tchar].
    unfold qflush_bang. cbn [q_buf q_bline q_chunks q_line qflush is_empty rbind].
    unfold qstart. rewrite Hc. cbn [rbind q_chunks q_line]. apply IH. lia.
  - rewrite start_word by assumption. destruct (bracketed_raw _ _ Hbr) as (sc & Hra & _ & _).
    rewrite go_app, (run_args _ _ Hra). cbn [rbind app]. rewrite go_app, run_ws by exact Hpre. cbn [rbind app].
    rewrite go_cons. unfold qstep, qmain. cbn [q_buf q_chunks q_line q_bline].
    change (0 =? 0) with true. cbn iota. rewrite Ho, open_is_opening, (ov_open v _ eq_refl). cbn [rbind].
    destruct (never_closed_run v ts Hnc) as [d Hd]. change 1 with (N.of_nat 1).
    rewrite <- (app_nil_r ts), go_app, (run_arg v ts O d Hd). cbn [rbind].
    unfold go, qfinish, qflush_bang. cbn [rfold rbind q_buf q_bline q_chunks q_line qflush].
    destruct (N.eqb_spec (N.of_nat (S d)) 0); [lia|]. rewrite last_variant_snoc. cbn [rbind err_line err_type]. do 2 f_equal. lia.
  - rewrite start_word by assumption. destruct (bracketed_raw _ _ Hbr) as (sc & Hra & _ & _).
    rewrite go_app, (run_args _ _ Hra). cbn [rbind app]. apply closing_run.
  - rewrite start_word by assumption. destruct (bracketed_raw _ _ Hbr) as (sc & Hra & Hm & _).
    rewrite go_app, (run_args _ _ Hra). cbn [rbind app].
    assert (Hsc : is_empty sc = false).
    { rewrite (raw_args_empty _ _ Hra), (bracketed_empty _ _ Hbr), Hbo. destruct before; reflexivity. }
    apply cmd_follow_fail; auto; [|rewrite Hsc; exact Hf].
    rewrite Hbo, map_app in Hm. cbn [map fst snd] in Hm.
    eapply (args_fail _ _ _ _ inners); [exact Hm| |apply inner_fail, IH; lia].
    clear - Hbe. induction Hbe as [|x inn bef inns Hx _ IH']; cbn; constructor; auto. apply parse_iff, Hx.
  - rewrite start_word by assumption. destruct (proj2 complete_mut _ _ Hargs) as (sc & Hra & Hm).
    rewrite go_app, (run_args _ _ Hra). cbn [rbind app].
    rewrite (cmd_follow _ _ _ _ _ args); auto.
    + apply IH. lia.
    + rewrite (raw_args_empty _ _ Hra), <- (parses_args_empty _ _ Hargs). exact Hf.
Qed.

Theorem parse_toks_fails ts e : parse_toks ts = RErr e <-> fails 1 ts e.
Proof.
  assert (C : forall e, fails 1 ts e -> parse_toks ts = RErr e).
  { intros e0 H. rewrite parse_toks_eq. exact (fails_go 1 ts e0 H ltac:(lia) []). }
  split; [|apply C]. intros H.
  destruct (decide (S (length ts)) 1 ts) as [[d Hd]|[e' He]]; [lia| |].
  - apply parse_toks_iff in Hd. congruence.
  - pose proof (C e' He). congruence.
Qed.
Theorem from_str1_fails p s e : N.of_nat (length s) + 1 < two32 ->
  from_str1 p s = Err e <-> fails 1 (tokens s) e.
Proof.
  intros Hb. destruct (from_str1_toks p s Hb) as [-> _]. rewrite <- parse_toks_fails.
  destruct (parse_toks (tokens s)); cbn; split; congruence.
Qed.
