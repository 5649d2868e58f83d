(** * Concat1: parsing of a source written below another one *)
From Verif Require Import Base Ast1 Parse1 Spec1 SpecDoc1 Tok Pure1 Refine1 Gram1 SpecFail1 Fail1 Facts1 Rules SpecCanon1 Canon1 Ast2 SpecConcat.
Open Scope N_scope.

Lemma nl_app ts us : nl (ts ++ us) = nl ts + nl us.
Proof. unfold nl, chars. now rewrite map_app, count_newlines_app. Qed.
Lemma count1 c : c <> c_newline -> count_newlines [c] = 0.
Proof. intros Hn. unfold count_newlines. cbn [filter]. apply N.eqb_neq in Hn. now rewrite Hn. Qed.
Lemma nl_label lab : forallb is_label_char lab = true -> nl (map Plain lab) = 0.
Proof.
  intros H. unfold nl, chars. rewrite map_map, map_id. induction lab as [|c lab IH]; [reflexivity|]. cbn [forallb] in H. apply andb_true_iff in H as [H1 H2].
  rewrite count_newlines_cons, IH by exact H2.
  unfold is_label_char in H1. apply andb_true_iff in H1 as [H1 _]. apply andb_true_iff in H1 as [H1 _].
  destruct (N.eqb_spec c c_newline) as [->|]; [discriminate H1|]. reflexivity.
Qed.
Lemma nl_cons_plain c ts : nl (Plain c :: ts) = count_newlines [c] + nl ts.
Proof. unfold nl. unfold chars. cbn [map tchar]. apply (count_newlines_app [c]). Qed.
Lemma nl_cons_esc c ts : nl (Esc c :: ts) = count_newlines [c] + nl ts.
Proof. unfold nl. unfold chars. cbn [map tchar]. apply (count_newlines_app [c]). Qed.
Lemma nl_open v : count_newlines [open1 v] = 0. Proof. now destruct v. Qed.
Lemma nl_close v : count_newlines [close1 v] = 0. Proof. now destruct v. Qed.
Lemma nl_alpha a : is_ascii_alphabetic a = true -> count_newlines [a] = 0.
Proof. intros H. apply count1. intros ->. discriminate H. Qed.
Lemma nl_plain ws : nl (map Plain (chars ws)) = nl ws.
Proof. unfold nl, chars. now rewrite !map_map. Qed.

Lemma parses_empty L ts : parses L ts [] -> ts = [].
Proof. intros H. now inversion H. Qed.
Lemma parses_nothing L cs : parses L [] cs -> cs = [].
Proof. intros H. remember [] as ts. destruct H; try discriminate; [reflexivity|]. destruct run; [congruence|discriminate]. Qed.
Lemma settled_tail c d : settled (c :: d) -> settled d.
Proof.
  intros [H1 H2]. split.
  - intros d0 w ->. apply (H1 (c :: d0) w). reflexivity.
  - intros d0 w t ->. apply (H2 (c :: d0) w t). reflexivity.
Qed.
(** gluing below a first chunk *)
Lemma glued_cons c d e x : d <> [] -> glued1 d e x -> glued1 (c :: d) e (c :: x).
Proof.
  intros Hd H. inversion H; subst.
  - change (c :: d0 ++ ?x) with ((c :: d0) ++ x). apply glued_text1.
  - change (c :: d ++ e) with ((c :: d) ++ e). apply glued_other1. intros (d0 & l & s & l' & s' & e0 & E1 & E2).
    match goal with K : ~ _ |- _ => apply K end. destruct d0 as [|c0 d0]; cbn in E1; injection E1 as -> E1; [congruence|].
    exists d0, l, s, l', s', e0. auto.
Qed.
Lemma glued_nontext c e : is_text1 c = false -> glued1 [c] e (c :: e).
Proof.
  intros H. apply (glued_other1 [c] e). intros (d0 & l & s & l' & s' & e0 & E1 & E2).
  destruct d0 as [|? [|? ?]]; try discriminate. cbn in E1. injection E1 as ->. discriminate H.
Qed.
Lemma glued_first c d e x : is_text1 c = false -> glued1 d e x -> glued1 (c :: d) e (c :: x).
Proof.
  intros Hc H. destruct d as [|c0 d]; [|now apply glued_cons].
  inversion H as [d1 ? ? ? ? ? E|]; subst; [destruct d1; discriminate|]. now apply glued_nontext.
Qed.

Lemma parses_concat_both :
  (forall L ts d, parses L ts d -> forall us e, settled d -> parses (L + nl ts) us e ->
     exists x, glued1 d e x /\ parses L (ts ++ us) x) /\
  (forall ts args, parses_args ts args -> True).
Proof.
  apply parses_parses_args_ind; try (intros; exact I).
  - intros L us e _ H. exists e. change (nl []) with 0 in H. rewrite N.add_0_r in H. split; [|exact H].
    apply (glued_other1 [] e). intros (d0 & l & s & l' & s' & e0 & E1 & E2). destruct d0; discriminate.
  - intros L run rest cs Hne Hrun Hrest Hp IH us e Hs He. rewrite nl_app, N.add_assoc in He.
    destruct (IH us e (settled_tail _ _ Hs) He) as (x & Hx & Hpx). rewrite <- app_assoc.
    destruct rest as [|r rest].
    + apply parses_nothing in Hp. subst cs. cbn [app] in *.
      change (nl []) with 0 in He. rewrite N.add_0_r in He.
      destruct e as [|[l v] e].
      * apply parses_empty in He. subst us. eexists. split; [apply glued_other1|cbn [app]; rewrite app_nil_r; pattern run at 1; rewrite <- (app_nil_r run); apply P_text; auto; constructor].
        intros (d0 & l & s & l' & s' & e0 & E1 & E2). discriminate.
      * pose proof (parses_head _ _ _ _ He) as Hh. destruct v as [s|[lab args]|[inner v]]; cbn [variant_of1] in Hh.
        -- destruct Hh as (run' & rest' & -> & Hne' & -> & Hrun' & Hrest' & Hp').
           exists ([] ++ mkChunk1 L (Text1 (chars run ++ chars run')) :: e). split; [apply (glued_text1 [])|]. cbn [app].
           replace (chars run ++ chars run') with (chars (run ++ run')) by apply map_app.
           rewrite app_assoc. apply P_text; auto.
           ++ intros K. apply app_eq_nil in K as [K _]. auto.
           ++ rewrite forallb_app, Hrun, Hrun'. reflexivity.
           ++ rewrite nl_app, N.add_assoc. exact Hp'.
        -- destruct Hh as (a & lab' & ts' & _ & ->). eexists. split; [apply glued_other1|cbn [app]; apply P_text; auto; exact He].
           intros (d0 & l0 & s & l' & s' & e0 & E1 & E2). discriminate.
        -- destruct Hh as (w & ts' & ->). eexists. split; [apply glued_other1|cbn [app]; apply P_text; [exact Hne|exact Hrun| |exact He]].
           ++ intros (d0 & l0 & s & l' & s' & e0 & E1 & E2). discriminate.
           ++ destruct w; reflexivity.
    + eexists. split; [|apply P_text; [exact Hne|exact Hrun| |exact Hpx]; exact Hrest].
      apply glued_cons; [|exact Hx]. intros ->. apply parses_empty in Hp. discriminate.
  - intros L v body rest inner cs Hb Hi _ Hp IH us e Hs He.
    rewrite nl_cons_plain, nl_app, nl_cons_plain, nl_open, nl_close in He. rewrite !N.add_0_l, N.add_assoc in He.
    destruct (IH us e (settled_tail _ _ Hs) He) as (x & Hx & Hpx).
    eexists. split; [apply glued_first; [reflexivity|exact Hx]|]. cbn [app]. rewrite <- app_assoc. cbn [app]. now apply P_scope.
  - intros L c rest cs Ha Hp IH us e Hs He. change (Esc c :: rest) with ([Esc c] ++ rest) in He. rewrite nl_app, N.add_assoc in He.
    destruct (IH us e (settled_tail _ _ Hs) He) as (x & Hx & Hpx).
    eexists. split; [apply glued_first; [reflexivity|exact Hx]|]. cbn [app]. now apply P_symbol.
  - intros L a lab argtoks args ws rest cs Ha Hl Hargs _ Hws Hf Hor Hp IH us e Hs He.
    rewrite nl_cons_esc, (nl_alpha a Ha), !nl_app, nl_label, !N.add_0_l in He by exact Hl.
    destruct (IH us e (settled_tail _ _ Hs)) as (x & Hx & Hpx).
    { rewrite nl_app, nl_plain. rewrite <- !N.add_assoc. exact He. }
    destruct rest as [|r rest].
    { destruct Hor as [->|K]; [|congruence]. apply parses_nothing in Hp. subst cs.
      destruct Hs as [Hs _]. specialize (Hs [] _ eq_refl). cbn in Hs. congruence. }
    eexists. split; [apply glued_first; [reflexivity|exact Hx]|]. cbn [app]. rewrite <- !app_assoc. cbn [app].
    rewrite <- app_assoc in Hpx. apply P_command; auto. right. discriminate.
  - intros L a lab argtoks args ws Ha Hl Hargs _ Hws Hne us e [_ Hs] _. specialize (Hs [] _ _ eq_refl).
    cbn in Hs. rewrite Ha in Hs. exfalso. assert (true = false) by (apply Hs; now apply ws_chars). discriminate.
Qed.

(** ** lines *)
Lemma parses_below_both k :
  (forall L ts d, parses L ts d -> parses (L + k) ts (map (below1 k) d)) /\
  (forall ts args, parses_args ts args -> True).
Proof.
  apply parses_parses_args_ind; try (intros; exact I).
  - intros L. constructor.
  - intros L run rest cs Hne Hrun Hrest Hp IH. cbn [map below1]. apply P_text; auto.
    replace (L + k + nl run) with (L + nl run + k) by lia. exact IH.
  - intros L v body rest inner cs Hb Hi _ Hp IH. cbn [map below1]. apply P_scope; auto.
    replace (L + k + nl body) with (L + nl body + k) by lia. exact IH.
  - intros L c rest cs Ha Hp IH. cbn [map below1]. replace (L + nl [Esc c] + k) with (L + k + nl [Esc c]) in * by lia. now apply P_symbol.
  - intros L a lab argtoks args ws rest cs Ha Hl Hargs _ Hws Hf Hor Hp IH. cbn [map below1]. apply P_command; auto.
    replace (L + k + nl argtoks) with (L + nl argtoks + k) by lia. exact IH.
  - intros L a lab argtoks args ws Ha Hl Hargs _ Hws Hne. cbn [map below1].
    replace (L + nl argtoks + nl ws + k) with (L + k + nl argtoks + nl ws) by lia. now apply P_command_eof.
Qed.
Lemma fails_below L ts e k : fails L ts e -> 1 <= L -> fails (L + k) ts (below_error k e).
Proof.
  intros H. induction H; intros HL; cbn [below_error err_line err_type moved].
  - apply F_text; auto. replace (L + k + nl run) with (L + nl run + k) by lia. apply IHfails. lia.
  - now apply F_scope_open.
  - replace (below_error k (moved L e)) with (moved (L + k) e) by (unfold below_error, moved; cbn; f_equal; lia). now apply F_scope_inside.
  - eapply F_scope_after; eauto. replace (L + k + nl body) with (L + nl body + k) by lia. apply IHfails. lia.
  - apply F_symbol; auto. replace (L + k + nl [Esc c]) with (L + nl [Esc c] + k) by lia. apply IHfails. lia.
  - eapply F_command_open; eauto.
  - unfold below_error. cbn [err_line err_type]. replace (L + nl argtoks + k) with (L + k + nl argtoks) by lia. eapply F_command_closing; eauto.
  - replace (below_error k (moved L e)) with (moved (L + k) e) by (unfold below_error, moved; cbn; f_equal; lia). eapply F_command_inside; eauto.
  - eapply F_command_after; eauto. replace (L + k + nl argtoks) with (L + nl argtoks + k) by lia. apply IHfails. lia.
Qed.

Lemma fails_nonempty L e : ~ fails L [] e.
Proof. intros H. remember [] as ts. destruct H; try discriminate. destruct run; [congruence|discriminate]. Qed.
Lemma fails_concat_both :
  (forall L ts d, parses L ts d -> forall us e, settled d -> fails (L + nl ts) us e -> fails L (ts ++ us) e) /\
  (forall ts args, parses_args ts args -> True).
Proof.
  apply parses_parses_args_ind; try (intros; exact I).
  - intros L us e _ H. change (nl []) with 0 in H. rewrite N.add_0_r in H. exact H.
  - intros L run rest cs Hne Hrun Hrest Hp IH us e Hs He. rewrite nl_app, N.add_assoc in He.
    rewrite <- app_assoc. destruct rest as [|r rest].
    + cbn [app]. change (nl []) with 0 in He. rewrite N.add_0_r in He.
      destruct us as [|u us]; [now apply fails_nonempty in He|].
      destruct (is_text_tok u) eqn:Eu.
      * inversion He as [L0 run' rest' e' Hne' Hrun' Hrest' He'| | | | | | | |]; subst; try discriminate Eu.
        -- rewrite app_assoc. apply F_text; auto.
           ++ intros K. apply app_eq_nil in K as [K _]. auto.
           ++ rewrite forallb_app, Hrun, Hrun'. reflexivity.
           ++ rewrite nl_app, N.add_assoc. exact He'.
        -- destruct v; discriminate Eu.
        -- destruct v; discriminate Eu.
        -- destruct v; discriminate Eu.
      * apply F_text; auto.
    + apply F_text; auto. apply IH; [exact (settled_tail _ _ Hs)|exact He].
  - intros L v body rest inner cs Hb Hi _ Hp IH us e Hs He.
    rewrite nl_cons_plain, nl_app, nl_cons_plain, nl_open, nl_close in He. rewrite !N.add_0_l, N.add_assoc in He.
    cbn [app]. rewrite <- app_assoc. cbn [app]. eapply F_scope_after; eauto. apply IH; [exact (settled_tail _ _ Hs)|exact He].
  - intros L c rest cs Ha Hp IH us e Hs He. change (Esc c :: rest) with ([Esc c] ++ rest) in He. rewrite nl_app, N.add_assoc in He.
    cbn [app]. apply F_symbol; auto. apply IH; [exact (settled_tail _ _ Hs)|exact He].
  - intros L a lab argtoks args ws rest cs Ha Hl Hargs _ Hws Hf Hor Hp IH us e Hs He.
    rewrite nl_cons_esc, (nl_alpha a Ha), !nl_app, nl_label, !N.add_0_l in He by exact Hl.
    destruct rest as [|r rest].
    { destruct Hor as [->|K]; [|congruence]. apply parses_nothing in Hp. subst cs.
      destruct Hs as [Hs _]. specialize (Hs [] _ eq_refl). cbn in Hs. congruence. }
    cbn [app]. rewrite <- !app_assoc. cbn [app]. eapply F_command_after; eauto; [discriminate|].
    change (r :: rest ++ us) with ((r :: rest) ++ us). rewrite app_assoc. apply IH; [exact (settled_tail _ _ Hs)|].
    rewrite nl_app, nl_plain. rewrite <- !N.add_assoc. exact He.
  - intros L a lab argtoks args ws Ha Hl Hargs _ Hws Hne us e [_ Hs] _. specialize (Hs [] _ _ eq_refl).
    cbn in Hs. rewrite Ha in Hs. exfalso. assert (true = false) by (apply Hs; now apply ws_chars). discriminate.
Qed.

Lemma tokens_app s t : clean_end s -> tokens (s ++ t) = tokens s ++ tokens t.
Proof. intros H. unfold tokens. rewrite lex_app. unfold clean_end in H. now rewrite H. Qed.
Lemma fits_app s t : source_fits (s ++ t) -> source_fits s /\ source_fits t.
Proof. unfold source_fits. rewrite app_length. lia. Qed.

Theorem concat_ok p q r s t d e : source_fits (s ++ t) -> clean_end s -> settled d ->
  from_str1 p s = Ok d -> from_str1 q t = Ok e ->
  exists x, glued1 d (map (below1 (count_newlines s)) e) x /\ from_str1 r (s ++ t) = Ok x.
Proof.
  intros B C S Hd He. destruct (fits_app _ _ B) as [Bs Bt].
  apply (from_str1_iff p s d Bs) in Hd. apply (from_str1_iff q t e Bt) in He.
  apply (proj1 (parses_below_both (nl (tokens s)))) in He.
  destruct (proj1 parses_concat_both _ _ _ Hd _ _ S He) as (x & Hx & Hp).
  exists x. rewrite <- (tokens_nl s). split; [exact Hx|]. apply (from_str1_iff r _ _ B). now rewrite tokens_app.
Qed.
Theorem concat_error p q r s t d e : source_fits (s ++ t) -> clean_end s -> settled d ->
  from_str1 p s = Ok d -> from_str1 q t = Err e ->
  from_str1 r (s ++ t) = Err (below_error (count_newlines s) e).
Proof.
  intros B C S Hd He. destruct (fits_app _ _ B) as [Bs Bt].
  apply (from_str1_iff p s d Bs) in Hd. apply (from_str1_fails q t e Bt) in He.
  apply (fails_below _ _ _ (nl (tokens s))) in He; [|lia].
  apply (from_str1_fails r _ _ B). rewrite tokens_app by exact C. rewrite <- (tokens_nl s).
  exact (proj1 fails_concat_both _ _ _ Hd _ _ S He).
Qed.

(** ** A closing bracket in the wrong place cannot be repaired by writing more *)
Lemma bracketed_app a bs a' bs' : bracketed a bs -> bracketed a' bs' -> bracketed (a ++ a') (bs ++ bs').
Proof.
  induction 1; intros H'; [exact H'|]. rewrite <- app_assoc. cbn [app]. rewrite <- app_assoc. cbn [app]. apply B_cons; auto.
Qed.
Lemma fails_extend L ts e : fails L ts e -> (exists v, err_type e = UnexpectedClosing v) -> forall us, exists e', fails L (ts ++ us) e'.
Proof.
  induction 1 as [L run rest e Hne Hrun Hrest H IH|L v ts Hn|L v body rest e Hb H IH|L v body rest inner e Hb Hi H IH|L c rest e Ha H IH
    |L a lab argtoks bodies pre o v ts Ha Hl Hbr Hpre Ho Hn|L a lab argtoks bodies v rest Ha Hl Hbr
    |L a lab argtoks bodies before v body after inners ws rest e Ha Hl Hbr Eb Hin H IH Hws Hf
    |L a lab argtoks args ws rest e Ha Hl Hargs Hws Hf Hne H IH]; intros [v0 Ev] us.
  - destruct (IH (ex_intro _ v0 Ev) us) as [e' He']. exists e'. rewrite <- app_assoc. apply F_text; auto.
    destruct rest; [now apply fails_nonempty in H|exact Hrest].
  - discriminate.
  - eexists. cbn [app]. rewrite <- app_assoc. cbn [app]. eapply F_scope_inside; eassumption.
  - destruct (IH (ex_intro _ v0 Ev) us) as [e' He']. exists e'. cbn [app]. rewrite <- app_assoc. cbn [app]. eapply F_scope_after; eauto.
  - destruct (IH (ex_intro _ v0 Ev) us) as [e' He']. exists e'. cbn [app]. now apply F_symbol.
  - discriminate.
  - eexists. cbn [app]. rewrite <- !app_assoc. cbn [app]. eapply F_command_closing; eauto.
  - destruct rest as [|r rest].
    2:{ eexists. cbn [app]. rewrite <- !app_assoc. eapply F_command_inside; eauto. }
    cbn [app]. rewrite app_nil_r, <- !app_assoc.
    destruct (span_args (S (length (ws ++ us))) (ws ++ us)) as (argtoks2 & bodies2 & ws2 & rest2 & -> & Hbr2 & Hws2 & Hrest2); [lia|].
    pose proof (bracketed_app _ _ _ _ Hbr Hbr2) as Hbr3. rewrite (app_assoc argtoks).
    assert (K : follow_ok true ws2 rest2 = true ->
      exists e', fails L (Esc a :: map Plain lab ++ (argtoks ++ argtoks2) ++ ws2 ++ rest2) e').
    { intros Hf2. eexists. eapply F_command_inside; [exact Ha|exact Hl|exact Hbr3| |exact Hin|exact H|exact Hws2|exact Hf2].
      rewrite Eb, <- app_assoc. reflexivity. }
    destruct rest2 as [|r rest2]; [apply K; reflexivity|]. destruct Hrest2 as [Hw [Ho|(v2 & Ho & Hn)]].
    2:{ eexists. eapply F_command_open; eauto. }
    destruct r as [x|x]; cbn [tchar] in Hw, Ho.
    2:{ apply K. cbn. rewrite Hw, Ho. reflexivity. }
    destruct ws2 as [|w ws2].
    2:{ apply K. cbn. rewrite Hw, Ho. reflexivity. }
    destruct (is_closing x) eqn:Ec.
    + destruct (@from_closing_ok error _ Ec) as [_ Hv]. rewrite <- Hv. eexists. cbn [app]. eapply F_command_closing; eauto.
    + apply K. cbn. rewrite Hw, Ho, Ec. reflexivity.
  - destruct (IH (ex_intro _ v0 Ev) us) as [e' He']. exists e'. cbn [app]. rewrite <- !app_assoc.
    eapply F_command_after; eauto.
    + destruct rest; [congruence|exact Hf].
    + destruct rest; discriminate || congruence.
    + now rewrite app_assoc.
Qed.
Theorem closing_stays p q s t e v : source_fits (s ++ t) -> from_str1 p s = Err e -> err_type e = UnexpectedClosing v ->
  exists e', from_str1 q (s ++ t) = Err e'.
Proof.
  intros B H Ev. destruct (fits_app _ _ B) as [Bs Bt]. apply (from_str1_fails p s e Bs) in H.
  destruct (fails_extend _ _ _ H (ex_intro _ v Ev) (lex (fst (scan false false s)) (snd (scan false false s)) t)) as [e' He'].
  exists e'. apply (from_str1_fails q _ _ B). unfold tokens. now rewrite lex_app.
Qed.

(** ** below a control word *)
Lemma text_toks_plain run : forallb is_text_tok run = true -> run = map Plain (chars run).
Proof.
  induction run as [|t run IH]; [reflexivity|]. cbn [forallb]. intros H. apply andb_true_iff in H as [H1 H2]. cbn [chars map].
  destruct t as [c|c]; [|discriminate]. cbn [tchar]. f_equal. exact (IH H2).
Qed.
Lemma next_tok L us c e : parses L us (c :: e) -> is_text1 c = false -> next_ok c = true ->
  exists x ts, us = Esc x :: ts /\ is_whitespace x = false /\ is_opening x = false.
Proof.
  intros H Ht Hn. pose proof (parses_head _ _ _ _ H) as Hh. destruct c as [l [s|[lab args]|sc]]; unfold is_text1, next_ok in *; cbn [variant_of1] in *; try discriminate.
  destruct Hh as (a & lab' & ts' & -> & ->). apply andb_true_iff in Hn as [N1 N2]; apply negb_true_iff in N1, N2. eauto.
Qed.
Lemma after_word_toks L has us e : parses L us e -> after_word has e = true ->
  exists w rest, us = map Plain w ++ rest /\ forallb is_whitespace w = true /\
    follow_ok has (map Plain w) rest = true /\ (w = [] \/ rest <> []).
Proof.
  intros H Ha. destruct e as [|c e]. { apply parses_empty in H. subst. exists [], []. auto. }
  unfold after_word in Ha. destruct (is_text1 c) eqn:Et.
  - destruct c as [l v]. unfold is_text1 in Et. cbn [variant_of1] in *. destruct v as [s|?|?]; try discriminate.
    destruct (parses_head _ _ _ _ H) as (run & rest & -> & Hne & Es0 & Hrun & Hrest & Hp).
    pose proof (text_toks_plain run Hrun) as Er. rewrite <- Es0 in Er. rewrite Er.
    destruct s as [|x s']; [discriminate|]. set (s := x :: s') in *.
    destruct (forallb is_whitespace s) eqn:Eb.
    + exists s, rest. destruct e as [|c' e]; [discriminate|].
      assert (Et' : is_text1 c' = false) by (pose proof (text_first_rest _ _ _ Hrest Hp) as K; exact K).
      destruct (next_tok _ _ _ _ Hp Et' Ha) as (y & ts & -> & Y1 & Y2).
      repeat split; auto; [|right; discriminate]. cbn. rewrite Y1, Y2. reflexivity.
    + destruct (split_blanks s) as (w & r & Es & Hw & Hr).
      exists w, (map Plain r ++ rest). rewrite Es at 1. rewrite map_app, <- app_assoc.
      destruct r as [|y r]. { rewrite app_nil_r in Es. rewrite Es in Eb. congruence. }
      repeat split; auto; [|right; discriminate].
      assert (Hy : is_opening y = false).
      { rewrite Er, Es, map_app, forallb_app in Hrun. apply andb_true_iff in Hrun as [_ Hrun]. cbn in Hrun.
        apply andb_true_iff in Hrun as [Hrun _]. now apply negb_true_iff in Hrun. }
      cbn. rewrite Hr, Hy. cbn. destruct w as [|w0 w]; [|reflexivity].
      unfold s in Es. cbn in Es. injection Es as -> _. rewrite Hr in Ha. cbn in Ha.
      cbn. rewrite andb_comm. exact Ha.
  - assert (Hn : next_ok c = true).
    { destruct c as [l v]. cbn [variant_of1] in *. destruct v; [discriminate|exact Ha|exact Ha]. }
    destruct (next_tok _ _ _ _ H Et Hn) as (y & ts & -> & Y1 & Y2).
    exists [], (Esc y :: ts). repeat split; auto. cbn. now rewrite Y1, Y2.
Qed.
Lemma parses_word_both :
  (forall L ts d, parses L ts d -> forall d0 l a lab args us e, d = d0 ++ [mkChunk1 l (Command1 (mkCommand1 (a :: lab) args))] ->
     is_ascii_alphabetic a = true -> after_word (negb (is_empty args)) e = true -> parses (L + nl ts) us e ->
     parses L (ts ++ us) (d ++ e)) /\
  (forall ts args, parses_args ts args -> True).
Proof.
  apply parses_parses_args_ind; try (intros; exact I).
  - intros L d0 l a lab args us e E. destruct d0; discriminate.
  - intros L run rest cs Hne Hrun Hrest Hp IH d0 l a lab args us e E Ha Hw He.
    destruct d0 as [|c0 d0]; [discriminate|]. cbn [app] in E. injection E as <- E.
    rewrite nl_app, N.add_assoc in He. rewrite <- app_assoc. cbn [app]. apply P_text; auto.
    + destruct rest; [|exact Hrest]. apply parses_nothing in Hp. subst cs. destruct d0; discriminate.
    + eapply IH; eauto.
  - intros L v body rest inner cs Hb Hi _ Hp IH d0 l a lab args us e E Ha Hw He.
    destruct d0 as [|c0 d0]; [discriminate|]. cbn [app] in E. injection E as <- E.
    rewrite nl_cons_plain, nl_app, nl_cons_plain, nl_open, nl_close in He. rewrite !N.add_0_l, N.add_assoc in He.
    cbn [app]. rewrite <- app_assoc. cbn [app]. apply P_scope; auto. eapply IH; eauto.
  - intros L c rest cs Hc Hp IH d0 l a lab args us e E Ha Hw He.
    destruct d0 as [|c0 d0]; cbn [app] in E; [injection E; intros; subst; congruence|]. injection E as <- E.
    change (Esc c :: rest) with ([Esc c] ++ rest) in He. rewrite nl_app, N.add_assoc in He.
    cbn [app]. apply P_symbol; auto. eapply IH; eauto.
  - intros L a lab argtoks args ws rest cs Ha Hl Hargs _ Hws Hf Hor Hp IH d0 l a0 lab0 args0 us e E Ha0 Hw He.
    rewrite nl_cons_esc, (nl_alpha a Ha), !nl_app, nl_label, !N.add_0_l in He by exact Hl.
    destruct d0 as [|c0 d0]; cbn [app] in E.
    + injection E as <- <- <- <- ->. apply parses_empty in Hp. apply app_eq_nil in Hp as [Hp1 ->].
      assert (ws = []) by (destruct ws; [reflexivity|discriminate]). subst ws. cbn [app]. rewrite <- !app_assoc. cbn [app].
      change (nl []) with 0 in He. rewrite !N.add_0_r in He.
      destruct (after_word_toks _ _ _ _ He Hw) as (w & rest & -> & Hw1 & Hw2 & Hw3).
      apply P_command; auto.
      * now apply ws_tok_map.
      * destruct Hw3 as [->|]; [now left|now right].
      * rewrite chars_map_plain in *. exact He.
    + injection E as <- E. cbn [app]. rewrite <- !app_assoc.
      assert (Hrest : rest <> []).
      { intros ->. destruct Hor as [->|K]; [|congruence]. apply parses_nothing in Hp. subst cs. destruct d0; discriminate. }
      apply P_command; auto; [destruct rest; [congruence|exact Hf]|right; destruct rest; [congruence|discriminate]|].
      rewrite app_assoc. eapply IH; eauto. rewrite nl_app, nl_plain, <- !N.add_assoc. exact He.
  - intros L a lab argtoks args ws Ha Hl Hargs _ Hws Hne d0 l a0 lab0 args0 us e E.
    destruct d0 as [|? [|? [|? ?]]]; discriminate.
Qed.
Lemma after_word_below k has e : after_word has (map (below1 k) e) = after_word has e.
Proof.
  assert (N : forall c, next_ok (below1 k c) = next_ok c) by (intros [l v]; reflexivity).
  destruct e as [|[l v] e]; [reflexivity|]. cbn [map below1 after_word variant_of1]. destruct v as [s|c|sc]; try apply (N (mkChunk1 l _)).
  destruct s; [reflexivity|]. destruct (forallb is_whitespace (n :: s)); [|reflexivity]. destruct e as [|c e]; [reflexivity|]. apply N.
Qed.
Theorem concat_word p q r s t d l a lab args e : source_fits (s ++ t) -> clean_end s ->
  from_str1 p s = Ok (d ++ [mkChunk1 l (Command1 (mkCommand1 (a :: lab) args))]) -> is_ascii_alphabetic a = true ->
  from_str1 q t = Ok e -> after_word (negb (is_empty args)) e = true ->
  from_str1 r (s ++ t) = Ok (d ++ mkChunk1 l (Command1 (mkCommand1 (a :: lab) args)) :: map (below1 (count_newlines s)) e).
Proof.
  intros B C Hd Ha He Hw. destruct (fits_app _ _ B) as [Bs Bt].
  apply (from_str1_iff p s _ Bs) in Hd. apply (from_str1_iff q t e Bt) in He.
  apply (proj1 (parses_below_both (nl (tokens s)))) in He. rewrite (tokens_nl s) in He at 2.
  rewrite <- (after_word_below (count_newlines s)) in Hw.
  pose proof (proj1 parses_word_both _ _ _ Hd _ _ _ _ _ _ _ eq_refl Ha Hw He) as K.
  apply (from_str1_iff r _ _ B). rewrite tokens_app by exact C. rewrite <- app_assoc in K. exact K.
Qed.
Lemma fails_types L ts e : fails L ts e -> (exists v, err_type e = UnclosedScope v) \/ (exists v, err_type e = UnclosedArgument v) \/
  (exists v, err_type e = UnexpectedClosing v).
Proof. induction 1; cbn [moved err_type]; eauto. Qed.
Theorem completed p q s t e d : source_fits (s ++ t) -> from_str1 p s = Err e -> from_str1 q (s ++ t) = Ok d ->
  (exists v, err_type e = UnclosedScope v) \/ (exists v, err_type e = UnclosedArgument v).
Proof.
  intros B He Hd. destruct (fits_app _ _ B) as [Bs Bt]. pose proof (proj1 (from_str1_fails p s e Bs) He) as F.
  destruct (fails_types _ _ _ F) as [K|[K|[v K]]]; [now left|now right|]. exfalso.
  destruct (closing_stays p q s t e v B He K) as [e' H]. congruence.
Qed.
