(** * Par3: paragraph splitting *)
From Verif Require Import Base Ast1 Parse1 Ast2 Ast3 Spec1 SpecDoc1 SpecDoc2 SpecDoc3 SpecPar3 Tok Refine1 Ind Lines Facts1 Valid1 Valid2 Valid3 Conv2.
Open Scope N_scope.

(** ** A scanner for paragraph breaks: [None] when one was seen, [Some b] with [b] true when
    only blanks followed the last newline *)
Definition scan1 (st : option bool) (c : N) : option bool :=
  match st with
  | None => None
  | Some b => if c =? c_newline then (if b then None else Some true)
              else Some (b && is_whitespace c)
  end.
Definition scan (st : option bool) (s : str) : option bool := fold_left scan1 s st.
Lemma scan_none s : scan None s = None.
Proof. induction s as [|c s IH]; [reflexivity|exact IH]. Qed.
Lemma scan_app st a b : scan st (a ++ b) = scan (scan st a) b.
Proof. apply fold_left_app. Qed.
Lemma scan_breaks s : forall b, breaks b s <-> scan (Some b) s = None.
Proof.
  induction s as [|c s IH]; intros b.
  - split; [|discriminate]. intros [(a & w & x & E & _)|(_ & w & x & E & _)]; [now destruct a|now destruct w].
  - rewrite breaks_cons. change (scan (Some b) (c :: s)) with (scan (scan1 (Some b) c) s). cbn [scan1].
    destruct (c =? c_newline).
    + destruct b.
      * rewrite scan_none. tauto.
      * rewrite IH. intuition congruence.
    + apply IH.
Qed.
Lemma scan_has s : has_break s <-> scan (Some false) s = None.
Proof. now rewrite <- breaks_false, scan_breaks. Qed.
Lemma scan_nl s : ~ has_break (s ++ [c_newline]) <-> scan (Some false) s = Some false.
Proof.
  rewrite scan_has, scan_app. destruct (scan (Some false) s) as [[|]|]; cbn; split; intros H; try congruence; try discriminate; exfalso; now apply H.
Qed.
Lemma scan_some s : ~ has_break s <-> exists b, scan (Some false) s = Some b.
Proof.
  rewrite scan_has. destruct (scan (Some false) s) as [b|]; split; intros H; try discriminate; eauto.
  - exfalso; now apply H. - destruct H; discriminate.
Qed.
Lemma scan_blank w b : forallb is_whitespace w = true -> count_newlines w = 0 -> scan (Some b) w = Some b.
Proof.
  revert b. induction w as [|c w IH]; intros b H N; [reflexivity|].
  cbn [forallb] in H. apply andb_true_iff in H as [H1 H2]. rewrite count_newlines_cons in N.
  change (scan (Some b) (c :: w)) with (scan (scan1 (Some b) c) w). cbn [scan1].
  destruct (c =? c_newline); [lia|]. rewrite H1, andb_true_r. apply IH; [exact H2|lia].
Qed.
Lemma ws_newline : is_whitespace c_newline = true. Proof. reflexivity. Qed.

(** ** The loop *)
Lemma inc_i32_ok {E} p z : (0 <= z < 2147483647)%Z -> @inc_i32 E p z = Ok (z + 1)%Z.
Proof. intros H. unfold inc_i32. destruct (Z.ltb_spec (z + 1) 2147483648); [reflexivity|lia]. Qed.
Lemma text_chunk_app L s : s <> [] -> text_chunk3 L s = [mkChunk3 L (Text3 s)].
Proof. now destruct s. Qed.
Lemma is_empty_false {A} (l : list A) : l <> [] -> is_empty l = false.
Proof. now destruct l. Qed.
Lemma nl1 c : c <> c_newline -> count_newlines [c] = 0.
Proof. intros H. rewrite count_newlines_cons. destruct (N.eqb_spec c c_newline); [contradiction|reflexivity]. Qed.
Lemma nlnl : count_newlines [c_newline] = 1. Proof. reflexivity. Qed.
Lemma snoc_ne {A} (l : list A) x : l ++ [x] <> []. Proof. now destruct l. Qed.
Lemma break_line_first l b : count_newlines b = 2 -> break_line l b = l.
Proof. intros H. unfold break_line. now rewrite H. Qed.
Lemma break_line_more l b : 2 <= count_newlines b -> break_line l (b ++ [c_newline]) = l + count_newlines b.
Proof.
  intros H. unfold break_line. rewrite count_newlines_app, nlnl. destruct (N.eqb_spec (count_newlines b + 1) 2); lia.
Qed.
Lemma break_line_blank l b c : c <> c_newline -> break_line l (b ++ [c]) = break_line l b.
Proof. intros H. unfold break_line. now rewrite count_newlines_app, nl1, N.add_0_r. Qed.

Definition after {E} (p : profile) (st : parstate) (s : str) (X : list chunk3) : Prop :=
  exists st', @foldM E _ _ (par_step p) st s = Ok st' /\ par_finish st' = pa_new st ++ X.

Lemma par_loop {E} p s :
  (* no pending newline *)
  (forall new line text tline bline,
     line = tline + count_newlines text -> (text = [] -> tline = line) -> scan (Some false) text = Some false ->
     count_newlines s < 2147483648 -> line + count_newlines s < two32 ->
     exists X, @after E p (mkPar new line text tline [] bline 0%Z) s X /\ paragraphs tline (text ++ s) X) /\
  (* one pending newline *)
  (forall new line text tline w bline,
     line = bline + 1 -> bline = tline + count_newlines text -> (text = [] -> tline = bline) -> scan (Some false) text = Some false ->
     forallb is_whitespace w = true -> count_newlines w = 0 ->
     count_newlines s < 2147483647 -> line + count_newlines s < two32 ->
     exists X, @after E p (mkPar new line text tline (c_newline :: w) bline 1%Z) s X /\ paragraphs tline (text ++ (c_newline :: w) ++ s) X) /\
  (* inside a break *)
  (forall new line tline buf l0,
     is_break buf -> line = l0 + count_newlines buf ->
     count_newlines buf + count_newlines s < 2147483648 -> line + count_newlines s < two32 ->
     exists b rest cs, s = b ++ rest /\ is_break (buf ++ b) /\ (forall c r, rest = c :: r -> is_whitespace c = false) /\
       paragraphs (l0 + count_newlines (buf ++ b)) rest cs /\
       @after E p (mkPar new line [] tline buf (break_line l0 buf) (Z.of_N (count_newlines buf))) s
         (mkChunk3 (break_line l0 (buf ++ b)) (ParagraphBreak3 (buf ++ b)) :: cs)).
Proof.
  induction s as [|c s (IH0 & IH1 & IH2)].
  - split; [|split].
    + intros new line text tline bline El Et Sc _ _. exists (text_chunk3 tline text). rewrite app_nil_r. split.
      * eexists. split; [reflexivity|]. cbn [par_finish pa_new is_empty negb]. destruct text as [|x text]; cbn [is_empty negb].
        -- cbn [text_chunk3]. now rewrite app_nil_r.
        -- now rewrite app_nil_r.
      * apply pp_text. apply scan_some. eauto.
    + intros new line text tline w bline El Eb Et Sc Hw Nw _ _. exists (text_chunk3 tline (text ++ (c_newline :: w) ++ [])). rewrite app_nil_r. split.
      * eexists. split; [reflexivity|]. cbn [par_finish pa_new is_empty negb]. change (1 >? 1)%Z with false. cbv iota.
        rewrite is_empty_false by (destruct text; discriminate). cbn [negb]. rewrite text_chunk_app by (destruct text; discriminate). reflexivity.
      * apply pp_text. apply scan_some. exists true. rewrite scan_app, Sc.
        change (scan (Some false) (c_newline :: w)) with (scan (Some true) w). now apply scan_blank.
    + intros new line tline buf l0 Hb El B _. exists [], [], []. rewrite !app_nil_r. split; [reflexivity|]. split; [exact Hb|].
      split; [discriminate|]. split; [apply (pp_text _ []); rewrite scan_has; discriminate|].
      eexists. split; [reflexivity|]. cbn [par_finish pa_new]. destruct Hb as ((w & ->) & _ & H2). cbn [is_empty negb].
      destruct (Z.gtb_spec (Z.of_N (count_newlines (c_newline :: w))) 1); [reflexivity|lia].
  - split; [|split].
    + intros new line text tline bline El Et Sc B1 B2. rewrite count_newlines_cons in B1, B2.
      unfold after. cbn [foldM]. cbn [par_step]. change (0 =? 1)%Z with false. change (0 =? 0)%Z with true. rewrite andb_false_r, andb_true_r.
      destruct (N.eqb_spec c c_newline) as [->|Hc].
      * rewrite inc_i32_ok by lia. cbn [bind]. rewrite add32_ok by lia. cbn [bind].
        destruct (IH1 new (line + 1) text tline [] line) as (X & HX & P); auto; try lia.
        exists X. split; [exact HX|exact P].
      * destruct (is_whitespace c) eqn:Wc; cbn [bind].
        -- destruct (IH0 new line (text ++ [c]) tline bline) as (X & HX & P).
           ++ rewrite count_newlines_app, nl1 by exact Hc. lia.
           ++ intros K. exfalso. exact (snoc_ne _ _ K).
           ++ rewrite scan_app, Sc. cbn. destruct (N.eqb_spec c c_newline); [contradiction|reflexivity].
           ++ lia.
           ++ lia.
           ++ exists X. split; [exact HX|]. now rewrite <- app_assoc in P.
        -- destruct (IH0 new line (text ++ [c]) (if is_empty text then line else tline) bline) as (X & HX & P).
           ++ rewrite count_newlines_app, nl1 by exact Hc. destruct text as [|x text]; cbn [is_empty]; [rewrite count_newlines_nil|]; lia.
           ++ intros K. exfalso. exact (snoc_ne _ _ K).
           ++ rewrite scan_app, Sc. cbn. destruct (N.eqb_spec c c_newline); [contradiction|reflexivity].
           ++ lia.
           ++ lia.
           ++ exists X. split; [exact HX|]. rewrite <- app_assoc in P. destruct text as [|x text]; cbn [is_empty] in P; [|exact P].
              rewrite (Et eq_refl). exact P.
    + intros new line text tline w bline El Eb Et Sc Hw Nw B1 B2. rewrite count_newlines_cons in B1, B2.
      unfold after. cbn [foldM]. cbn [par_step]. change (1 =? 1)%Z with true. change (1 =? 0)%Z with false. rewrite andb_false_r, andb_true_r.
      destruct (N.eqb_spec c c_newline) as [->|Hc].
      * rewrite inc_i32_ok by lia. cbn [bind]. rewrite add32_ok by lia. cbn [bind].
        assert (Nb : count_newlines ((c_newline :: w) ++ [c_newline]) = 2).
        { rewrite count_newlines_app, nlnl, count_newlines_cons, Nw. reflexivity. }
        destruct (IH2 (if negb (is_empty text) then new ++ [mkChunk3 tline (Text3 text)] else new) (line + 1) tline ((c_newline :: w) ++ [c_newline]) bline)
          as (b & rest & cs & -> & Hb & Hr & P & st' & Hf & Hfin).
        -- split; [eexists; reflexivity|]. split; [|lia]. rewrite forallb_app. cbn [forallb]. rewrite ws_newline, Hw. reflexivity.
        -- lia.
        -- lia.
        -- lia.
        -- exists (text_chunk3 tline text ++ mkChunk3 (break_line bline ((c_newline :: w) ++ [c_newline] ++ b)) (ParagraphBreak3 ((c_newline :: w) ++ [c_newline] ++ b)) :: cs).
           split.
           ++ exists st'. rewrite Nb in Hf. rewrite break_line_first in Hf by exact Nb. split; [exact Hf|]. rewrite Hfin.
              cbn [pa_new]. rewrite <- app_assoc. destruct text as [|x text]; cbn [is_empty negb text_chunk3 app]; [reflexivity|].
              rewrite <- app_assoc. reflexivity.
           ++ subst bline. replace (text ++ (c_newline :: w) ++ c_newline :: b ++ rest) with (text ++ (((c_newline :: w) ++ [c_newline]) ++ b) ++ rest)
                by (cbn [app]; rewrite <- !app_assoc; reflexivity).
              rewrite (app_assoc (c_newline :: w) [c_newline] b).
              apply pp_break; auto. apply scan_nl. exact Sc.
      * destruct (is_whitespace c) eqn:Wc; cbn [bind].
        -- destruct (IH1 new line text tline (w ++ [c]) bline) as (X & HX & P); auto; try lia.
           ++ rewrite forallb_app. cbn [forallb]. now rewrite Hw, Wc.
           ++ rewrite count_newlines_app, nl1 by exact Hc. lia.
           ++ exists X. split; [exact HX|]. replace (text ++ (c_newline :: w) ++ c :: s) with (text ++ (c_newline :: w ++ [c]) ++ s); [exact P|].
              cbn [app]. now rewrite <- app_assoc.
        -- destruct (IH0 new line (text ++ (c_newline :: w) ++ [c]) (if is_empty text then bline else tline) bline) as (X & HX & P).
           ++ rewrite !count_newlines_app, nl1, count_newlines_cons, Nw by exact Hc. rewrite N.eqb_refl.
              destruct text as [|x text]; cbn [is_empty]; [rewrite count_newlines_nil|]; lia.
           ++ intros K. exfalso. destruct text; discriminate K.
           ++ rewrite !scan_app, Sc. change (scan (Some false) (c_newline :: w)) with (scan (Some true) w). rewrite scan_blank by assumption.
              cbn. destruct (N.eqb_spec c c_newline); [contradiction|]. now rewrite Wc.
           ++ lia.
           ++ lia.
           ++ exists X. split; [exact HX|].
              replace (text ++ (c_newline :: w) ++ c :: s) with ((text ++ (c_newline :: w) ++ [c]) ++ s) by (rewrite <- !app_assoc; reflexivity).
              destruct text as [|x text]; cbn [is_empty] in P; [|exact P]. rewrite (Et eq_refl). exact P.
    + intros new line tline buf l0 Hb El B1 B2. rewrite count_newlines_cons in B1, B2. pose proof Hb as (Hb1 & Hb2 & Hb3).
      unfold after. cbn [foldM]. cbn [par_step].
      destruct (Z.eqb_spec (Z.of_N (count_newlines buf)) 1); [lia|]. destruct (Z.eqb_spec (Z.of_N (count_newlines buf)) 0); [lia|].
      rewrite !andb_false_r.
      destruct (N.eqb_spec c c_newline) as [->|Hc].
      * rewrite inc_i32_ok by lia. cbn [bind]. rewrite add32_ok by lia. cbn [bind].
        destruct (IH2 new (line + 1) tline (buf ++ [c_newline]) l0) as (b & rest & cs & -> & Hbb & Hr & P & st' & Hf & Hfin).
        -- destruct Hb1 as [w ->]. split; [eexists; reflexivity|]. rewrite forallb_app, Hb2, count_newlines_app. split; [reflexivity|lia].
        -- rewrite count_newlines_app, nlnl. lia.
        -- rewrite count_newlines_app, nlnl. lia.
        -- lia.
        -- rewrite <- !app_assoc in *. exists (c_newline :: b), rest, cs. split; [reflexivity|]. split; [exact Hbb|]. split; [exact Hr|]. split; [exact P|].
           exists st'. split; [|exact Hfin].
           replace (Z.of_N (count_newlines buf) + 1)%Z with (Z.of_N (count_newlines (buf ++ [c_newline]))) by (rewrite count_newlines_app, nlnl; lia).
           rewrite break_line_more in Hf by exact Hb3. rewrite <- El in Hf. exact Hf.
      * destruct (is_whitespace c) eqn:Wc; cbn [bind].
        -- destruct (IH2 new line tline (buf ++ [c]) l0) as (b & rest & cs & -> & Hbb & Hr & P & st' & Hf & Hfin).
           ++ destruct Hb1 as [w ->]. split; [eexists; reflexivity|]. rewrite forallb_app, Hb2, count_newlines_app. cbn [forallb]. rewrite Wc. split; [reflexivity|lia].
           ++ rewrite count_newlines_app, nl1 by exact Hc. lia.
           ++ rewrite count_newlines_app, nl1 by exact Hc. lia.
           ++ lia.
           ++ rewrite <- !app_assoc in *. exists (c :: b), rest, cs. split; [reflexivity|]. split; [exact Hbb|]. split; [exact Hr|]. split; [exact P|].
              exists st'. split; [|exact Hfin]. rewrite break_line_blank, count_newlines_app, nl1, N.add_0_r in Hf by exact Hc. exact Hf.
        -- destruct (IH0 (new ++ [mkChunk3 (break_line l0 buf) (ParagraphBreak3 buf)]) line [c] line (break_line l0 buf)) as (X & (st' & Hf & Hfin) & P).
           ++ rewrite nl1 by exact Hc. lia.
           ++ discriminate.
           ++ cbn. destruct (N.eqb_spec c c_newline); [contradiction|reflexivity].
           ++ lia.
           ++ lia.
           ++ exists [], (c :: s), X. rewrite !app_nil_r. split; [reflexivity|]. split; [exact Hb|].
              split; [intros x r K; injection K as <- <-; exact Wc|]. split; [rewrite <- El; exact P|].
              exists st'. split; [exact Hf|]. rewrite Hfin. cbn [pa_new]. now rewrite <- app_assoc.
Qed.

(** ** Whole lists *)
Lemma par_text_ok {E} p new L s : count_newlines s < 2147483648 -> L + count_newlines s < two32 ->
  exists X, @par_chunk E p new (mkChunk3 L (Text3 s)) = Ok (new ++ X) /\ paragraphs L s X.
Proof.
  intros B1 B2. destruct (proj1 (@par_loop E p s) new L [] L L) as (X & (st' & Hf & Hfin) & P); auto.
  { now rewrite count_newlines_nil, N.add_0_r. }
  exists X. split; [|exact P]. cbn [par_chunk]. rewrite Hf. cbn [bind]. now rewrite Hfin.
Qed.
Theorem paragraph_split {E} p cs : Forall text_in_range cs ->
  exists cs', @paragraph_from_chunks E p cs = Ok cs' /\ split_all cs cs'.
Proof.
  intros H. unfold paragraph_from_chunks. change (exists cs', @foldM E _ _ (par_chunk p) [] cs = Ok ([] ++ cs') /\ split_all cs cs').
  generalize (@nil chunk3) as new. induction H as [|[L v] cs Hc _ IH]; intros new.
  - exists []. split; [cbn; now rewrite app_nil_r|constructor].
  - cbn [foldM].
    assert (O : (forall s, v <> Text3 s) -> @par_chunk E p new (mkChunk3 L v) = Ok (new ++ [mkChunk3 L v]) ->
      exists cs', (let* s' := @par_chunk E p new (mkChunk3 L v) in foldM (par_chunk p) s' cs) = Ok (new ++ cs') /\ split_all (mkChunk3 L v :: cs) cs').
    { intros Hv ->. cbn [bind]. destruct (IH (new ++ [mkChunk3 L v])) as (cs' & Hf & Hs). rewrite <- app_assoc in Hf.
      exists (mkChunk3 L v :: cs'). split; [exact Hf|]. now apply sa_other. }
    destruct v; try (apply O; [discriminate|reflexivity]). clear O.
    destruct Hc as [B1 B2]. destruct (@par_text_ok E p new L s B1 B2) as (X & -> & P). cbn [bind].
    destruct (IH (new ++ X)) as (cs' & Hf & Hs). rewrite <- app_assoc in Hf. exists (X ++ cs'). split; [exact Hf|]. now constructor.
Qed.

(** ** Uniqueness of the split *)
(** the end of a text before a break is where the scanner first meets a second newline *)
Lemma break_scan b : is_break b -> scan (Some false) b = None.
Proof.
  intros ((w & ->) & Hw & N). change (scan (Some false) (c_newline :: w)) with (scan (Some true) w).
  cbn [forallb] in Hw. apply andb_true_iff in Hw as [_ Hw]. rewrite count_newlines_cons, N.eqb_refl in N.
  clear - Hw N. induction w as [|c w IH]; [rewrite count_newlines_nil in N; lia|].
  cbn [forallb] in Hw. apply andb_true_iff in Hw as [H1 H2]. change (scan (Some true) (c :: w)) with (scan (scan1 (Some true) c) w). cbn [scan1].
  destruct (c =? c_newline) eqn:Ec; [apply scan_none|]. rewrite H1. cbn [andb]. apply IH; [exact H2|]. rewrite count_newlines_cons, Ec in N. lia.
Qed.
Lemma blank_prefix_newline w x : forallb is_whitespace w = true -> count_newlines w > 0 -> scan (Some true) (w ++ x) = None.
Proof.
  intros Hw N. rewrite scan_app.
  assert (scan (Some true) w = None) as ->; [|apply scan_none].
  induction w as [|c w IH]; [rewrite count_newlines_nil in N; lia|].
  cbn [forallb] in Hw. apply andb_true_iff in Hw as [H1 H2]. change (scan (Some true) (c :: w)) with (scan (scan1 (Some true) c) w). cbn [scan1].
  destruct (c =? c_newline) eqn:Ec; [apply scan_none|]. rewrite H1. cbn [andb]. apply IH; [exact H2|]. rewrite count_newlines_cons, Ec in N. lia.
Qed.
(** two ways of writing the same string as text, break, rest *)
Lemma app_cases {A} (a b c d : list A) : a ++ b = c ++ d ->
  (exists x, c = a ++ x /\ b = x ++ d) \/ (exists x, a = c ++ x /\ d = x ++ b).
Proof.
  revert c. induction a as [|y a IH]; intros c H.
  - left. exists c. now split.
  - destruct c as [|z c].
    + right. exists (y :: a). now split.
    + cbn [app] in H. injection H as -> H. destruct (IH c H) as [(x & -> & ->)|(x & -> & ->)]; [left|right]; exists x; now split.
Qed.
Lemma split_text_unique t b r t' b' r' :
  ~ has_break (t ++ [c_newline]) -> is_break b -> (forall c k, r = c :: k -> is_whitespace c = false) ->
  ~ has_break (t' ++ [c_newline]) -> is_break b' -> (forall c k, r' = c :: k -> is_whitespace c = false) ->
  t ++ b ++ r = t' ++ b' ++ r' -> t = t' /\ b = b' /\ r = r'.
Proof.
  assert (T : forall t b r t' b' r', ~ has_break (t ++ [c_newline]) -> is_break b -> 
    ~ has_break (t' ++ [c_newline]) -> is_break b' -> (forall c k, r = c :: k -> is_whitespace c = false) ->
    t ++ b ++ r = t' ++ b' ++ r' -> forall x, t' = t ++ x -> x = []).
  { clear. intros t b r t' b' r' Ht Hb Ht' Hb' Hr E x ->. rewrite <- app_assoc in E. apply app_inv_head in E.
    destruct x as [|c x]; [reflexivity|]. exfalso.
    apply scan_nl in Ht, Ht'. rewrite scan_app, Ht in Ht'.
    destruct (app_cases _ _ _ _ E) as [(y & Ey & Ey')|(y & Ey & Ey')].
    - (* the whole break lies in the text *)
      rewrite Ey, scan_app, (break_scan _ Hb), scan_none in Ht'. discriminate.
    - (* a proper prefix of the break lies in the text: it starts with a newline and is blank *)
      destruct Hb as ((w & Eb) & Hw & N). rewrite Eb in Ey. cbn [app] in Ey. injection Ey as <- Ew.
      rewrite Eb, Ew in Hw. cbn [forallb] in Hw. apply andb_true_iff in Hw as [_ Hw]. rewrite forallb_app in Hw. apply andb_true_iff in Hw as [Hx _].
      change (scan (Some false) (c_newline :: x)) with (scan (Some true) x) in Ht'.
      destruct (N.eq_dec (count_newlines x) 0) as [Z|Z].
      + rewrite scan_blank in Ht' by assumption. discriminate.
      + pose proof (blank_prefix_newline x [] Hx ltac:(lia)) as K. rewrite app_nil_r in K. congruence. }
  intros Ht Hb Hr Ht' Hb' Hr' E.
  assert (Et : t = t').
  { destruct (app_cases _ _ _ _ E) as [(x & Ex & _)|(x & Ex & _)].
    - rewrite (T t b r t' b' r' Ht Hb Ht' Hb' Hr E x Ex) in Ex. now rewrite app_nil_r in Ex.
    - symmetry in E. rewrite (T t' b' r' t b r Ht' Hb' Ht Hb Hr' E x Ex) in Ex. now rewrite app_nil_r in Ex. }
  subst t'. split; [reflexivity|]. apply app_inv_head in E.
  assert (B : forall b r b' r' x, is_break b -> is_break b' -> (forall c k, r = c :: k -> is_whitespace c = false) -> b' = b ++ x -> r = x ++ r' -> x = []).
  { clear. intros b r b' r' x _ Hb' Hr -> ->. destruct x as [|c x]; [reflexivity|]. exfalso.
    specialize (Hr c (x ++ r') eq_refl). destruct Hb' as (_ & Hw & _). rewrite forallb_app in Hw. cbn [forallb] in Hw. rewrite Hr, andb_false_r in Hw. discriminate. }
  destruct (app_cases _ _ _ _ E) as [(x & Ex & Ex')|(x & Ex & Ex')].
  - assert (x = []) by exact (B b r b' r' x Hb Hb' Hr Ex Ex'). subst x. rewrite app_nil_r in Ex. now subst.
  - assert (x = []) by exact (B b' r' b r x Hb' Hb Hr' Ex Ex'). subst x. rewrite app_nil_r in Ex. now subst.
Qed.
Lemma no_break_no_split s t b r : ~ has_break s -> is_break b -> s = t ++ b ++ r -> False.
Proof.
  intros H ((w & ->) & Hw & N) ->. apply H. cbn [forallb] in Hw. apply andb_true_iff in Hw as [_ Hw].
  rewrite count_newlines_cons, N.eqb_refl in N.
  assert (exists a w', w = a ++ c_newline :: w') as (a & w' & ->).
  { clear - N. induction w as [|c w IH]; [rewrite count_newlines_nil in N; lia|]. rewrite count_newlines_cons in N.
    destruct (N.eqb_spec c c_newline) as [->|]; [exists [], w; reflexivity|]. destruct IH as (a & w' & ->); [lia|]. exists (c :: a), w'. reflexivity. }
  rewrite forallb_app in Hw. apply andb_true_iff in Hw as [Hw _]. exists t, a, (w' ++ r). split; [|exact Hw].
  cbn [app]. now rewrite <- app_assoc.
Qed.
Theorem paragraphs_unique L s cs : paragraphs L s cs -> forall cs', paragraphs L s cs' -> cs = cs'.
Proof.
  induction 1 as [L s H|L t b rest cs Ht Hb Hr P IH]; intros cs' H'.
  - inversion H' as [? ? H1|? t b rest cs Ht Hb Hr P]; subst; [reflexivity|]. exfalso. now apply (no_break_no_split _ t b rest H).
  - inversion H' as [? ? H1|? t' b' rest' cs'' Ht' Hb' Hr' P']; subst; [exfalso; now apply (no_break_no_split _ t b rest H1)|].
    destruct (split_text_unique _ _ _ _ _ _ Ht Hb Hr Ht' Hb' Hr' ltac:(symmetry; assumption)) as (-> & -> & ->). now rewrite (IH _ P').
Qed.
Theorem split_all_unique cs a : split_all cs a -> forall b, split_all cs b -> a = b.
Proof.
  induction 1 as [|L s pieces cs cs' P H IH|c cs cs' Hv H IH]; intros b Hb; inversion Hb; subst; try reflexivity.
  - f_equal; [eapply paragraphs_unique; eassumption|auto].
  - exfalso. cbn in *. match goal with H : forall s', Text3 _ <> _ |- _ => now eapply H end.
  - exfalso. cbn in Hv. now eapply Hv.
  - f_equal. auto.
Qed.
Theorem paragraph_iff {E} p cs cs' : Forall text_in_range cs ->
  (@paragraph_from_chunks E p cs = Ok cs' <-> split_all cs cs').
Proof.
  intros H. destruct (@paragraph_split E p cs H) as (x & Hx & Sx). split.
  - intros K. assert (cs' = x) by congruence. now subst.
  - intros K. now rewrite (split_all_unique _ _ K _ Sx).
Qed.

(** ** Consequences *)
Lemma show_text_chunk L s : show_chunks3 (text_chunk3 L s) = s.
Proof. destruct s as [|c s]; [reflexivity|]. unfold show_chunks3. cbn. now rewrite app_nil_r. Qed.
Lemma paragraphs_show L s cs : paragraphs L s cs -> show_chunks3 cs = s.
Proof.
  induction 1 as [L s H|L t b rest cs Ht Hb Hr P IH]; [apply show_text_chunk|].
  rewrite show_chunks3_app, show_text_chunk, show_chunks3_cons, IH. reflexivity.
Qed.
Theorem split_all_show cs cs' : split_all cs cs' -> show_chunks3 cs' = show_chunks3 cs.
Proof.
  induction 1 as [|L s pieces cs cs' P H IH|c cs cs' Hv H IH]; [reflexivity| |].
  - now rewrite show_chunks3_app, show_chunks3_cons, IH, (paragraphs_show _ _ _ P).
  - now rewrite !show_chunks3_cons, IH.
Qed.
Definition piece_ok (c : chunk3) : Prop :=
  match variant_of3 c with
  | Text3 s => s <> [] /\ ~ has_break s
  | ParagraphBreak3 b => is_break b
  | _ => False
  end.
Lemma text_chunk_in c L s : In c (text_chunk3 L s) -> c = mkChunk3 L (Text3 s) /\ s <> [].
Proof. destruct s as [|x s]; cbn; [tauto|]. intros [<-|[]]. split; [reflexivity|discriminate]. Qed.
Lemma paragraphs_pieces L s cs : paragraphs L s cs -> Forall piece_ok cs.
Proof.
  induction 1 as [L s H|L t b rest cs Ht Hb Hr P IH].
  - apply Forall_forall. intros c Hc. apply text_chunk_in in Hc as [-> Hs]. split; assumption.
  - apply Forall_app. split.
    + apply Forall_forall. intros c Hc. apply text_chunk_in in Hc as [-> Hs]. split; [exact Hs|].
      apply scan_nl in Ht. apply scan_some. eauto.
    + constructor; [exact Hb|exact IH].
Qed.
Theorem split_all_pieces cs cs' : split_all cs cs' -> forall c, In c cs' ->
  (In c cs /\ forall s, variant_of3 c <> Text3 s) \/ piece_ok c.
Proof.
  induction 1 as [|L s pieces cs cs' P H IH|c cs cs' Hv H IH]; intros x Hx; [destruct Hx| |].
  - apply in_app_or in Hx as [Hx|Hx].
    + right. pose proof (paragraphs_pieces _ _ _ P) as F. rewrite Forall_forall in F. auto.
    + destruct (IH x Hx) as [[K1 K2]|K]; [left; split; [now right|exact K2]|now right].
  - destruct Hx as [<-|Hx]; [left; split; [now left|exact Hv]|].
    destruct (IH x Hx) as [[K1 K2]|K]; [left; split; [now right|exact K2]|now right].
Qed.
Theorem split_all_idem cs cs' : split_all cs cs' -> split_all cs' cs'.
Proof.
  intros H. assert (F : Forall (fun c => forall s, variant_of3 c = Text3 s -> s <> [] /\ ~ has_break s) cs').
  { apply Forall_forall. intros c Hc s Es. destruct (split_all_pieces _ _ H c Hc) as [[_ K]|K]; [now apply K in Es|].
    unfold piece_ok in K. now rewrite Es in K. }
  clear H. induction F as [|[L v] cs' Hc _ IH]; [constructor|]. cbn [variant_of3] in Hc.
  destruct v; try (apply sa_other; [discriminate|exact IH]).
  destruct (Hc s eq_refl) as [H1 H2]. change (mkChunk3 L (Text3 s) :: cs') with ([mkChunk3 L (Text3 s)] ++ cs') at 2.
  apply sa_text; [|exact IH]. rewrite <- (text_chunk_app L s H1). now constructor.
Qed.
(** line numbers of the pieces *)
Definition piece_line (c : chunk3) (l : N) : Prop :=
  match c with
  | mkChunk3 L (ParagraphBreak3 b) => L = break_line l b
  | mkChunk3 L _ => L = l
  end.
Theorem paragraphs_lines L s cs : paragraphs L s cs -> forall pre c post, cs = pre ++ c :: post ->
  piece_line c (L + count_newlines (show_chunks3 pre)).
Proof.
  assert (T : forall L t pre c post X, (forall pre c post, X = pre ++ c :: post -> piece_line c (L + count_newlines t + count_newlines (show_chunks3 pre))) ->
    text_chunk3 L t ++ X = pre ++ c :: post -> piece_line c (L + count_newlines (show_chunks3 pre))).
  { intros L0 t pre c post X HX E. destruct t as [|x t].
    - cbn [text_chunk3 app] in E. specialize (HX _ _ _ E). now rewrite count_newlines_nil, N.add_0_r in HX.
    - cbn [text_chunk3 app] in E. destruct pre as [|y pre]; cbn [app] in E; injection E as <- E.
      + cbn [piece_line]. change (show_chunks3 []) with (@nil N). rewrite count_newlines_nil. lia.
      + specialize (HX _ _ _ E). rewrite show_chunks3_cons, count_newlines_app. cbn [show_chunk3 show_variant3]. now rewrite N.add_assoc. }
  induction 1 as [L s H|L t b rest cs Ht Hb Hr P IH]; intros pre c post E.
  - apply (T L s pre c post []); [|now rewrite app_nil_r]. intros pre' c' post' K. now destruct pre'.
  - apply (T L t pre c post _) in E; [exact E|]. clear E pre c post. intros pre c post E.
    destruct pre as [|y pre]; cbn [app] in E; injection E as <- E.
    + cbn [piece_line]. change (show_chunks3 []) with (@nil N). now rewrite count_newlines_nil, N.add_0_r.
    + specialize (IH _ _ _ E). rewrite show_chunks3_cons, count_newlines_app. cbn [show_chunk3 show_variant3]. now rewrite N.add_assoc.
Qed.
(** pieces stay in range *)
Lemma paragraphs_range L s cs : paragraphs L s cs -> count_newlines s < 2147483648 -> L + count_newlines s < two32 -> Forall text_in_range cs.
Proof.
  induction 1 as [L s H|L t b rest cs Ht Hb Hr P IH]; intros B1 B2.
  - apply Forall_forall. intros c Hc. apply text_chunk_in in Hc as [-> Hs]. now split.
  - rewrite !count_newlines_app in *. apply Forall_app. split.
    + apply Forall_forall. intros c Hc. apply text_chunk_in in Hc as [-> Hs]. split; lia.
    + constructor; [exact I|]. apply IH; lia.
Qed.
Lemma split_all_range cs cs' : split_all cs cs' -> Forall text_in_range cs -> Forall text_in_range cs'.
Proof.
  induction 1 as [|L s pieces cs cs' P H IH|c cs cs' Hv H IH]; intros F; [constructor| |]; inversion F as [|? ? F1 F2]; subst.
  - apply Forall_app. split; [|auto]. destruct F1. eapply paragraphs_range; eassumption.
  - constructor; auto.
Qed.
Theorem paragraph_idem {E} p cs cs' : Forall text_in_range cs -> @paragraph_from_chunks E p cs = Ok cs' ->
  @paragraph_from_chunks E p cs' = Ok cs'.
Proof.
  intros F H. apply (paragraph_iff p cs cs' F) in H. apply paragraph_iff; [eapply split_all_range; eassumption|eapply split_all_idem; eassumption].
Qed.
Theorem paragraph_lines {E} p L s cs' : text_in_range (mkChunk3 L (Text3 s)) ->
  @paragraph_from_chunks E p [mkChunk3 L (Text3 s)] = Ok cs' ->
  forall pre c post, cs' = pre ++ c :: post -> piece_line c (L + count_newlines (show_chunks3 pre)).
Proof.
  intros F H pre c post Es. apply (paragraph_iff p [mkChunk3 L (Text3 s)] cs') in H; [|constructor; [exact F|constructor]].
  inversion H as [|? ? pieces ? cs'' P H0|? ? ? Hv]; subst.
  - inversion H0; subst. rewrite app_nil_r in *. eapply paragraphs_lines; eauto.
  - exfalso. cbn in Hv. now eapply Hv.
Qed.
Theorem paragraph_show_total {E} p cs : Forall text_in_range cs ->
  exists cs', @paragraph_from_chunks E p cs = Ok cs' /\ show_chunks3 cs' = show_chunks3 cs.
Proof.
  intros H. destruct (@paragraph_split E p cs H) as (x & Hx & Sx). exists x. split; [exact Hx|]. now apply split_all_show.
Qed.
Theorem paragraph_pieces {E} p cs cs' c : Forall text_in_range cs -> @paragraph_from_chunks E p cs = Ok cs' -> In c cs' ->
  (In c cs /\ forall s, variant_of3 c <> Text3 s) \/
  (exists l s, c = mkChunk3 l (Text3 s) /\ s <> [] /\ ~ has_break s) \/
  (exists l b, c = mkChunk3 l (ParagraphBreak3 b) /\ is_break b).
Proof.
  intros F H Hc. apply (paragraph_iff p cs cs' F) in H. destruct (split_all_pieces _ _ H c Hc) as [K|K]; [now left|right].
  destruct c as [l [s|b|m|cm|sc|e]]; cbn in K; try contradiction; [left|right]; eauto.
Qed.
Theorem paragraph_piece_lines {E} p L s cs' : text_in_range (mkChunk3 L (Text3 s)) ->
  @paragraph_from_chunks E p [mkChunk3 L (Text3 s)] = Ok cs' ->
  forall pre c post, cs' = pre ++ c :: post ->
  line_no3 c = match variant_of3 c with
               | ParagraphBreak3 b => break_line (L + count_newlines (show_chunks3 pre)) b
               | _ => L + count_newlines (show_chunks3 pre)
               end.
Proof.
  intros F H pre c post Es. pose proof (paragraph_lines p L s cs' F H pre c post Es) as K.
  destruct c as [l [x|b|m|cm|sc|e]]; exact K.
Qed.

(** ** Display is preserved whatever the line numbers *)
Lemma par_step_any {E} p st c st' : @par_step E p st c = Ok st' -> pa_consec st = Z.of_N (count_newlines (pa_buf st)) ->
  (pa_consec st = 0%Z -> pa_buf st = []) -> ((2 <= pa_consec st)%Z -> pa_text st = []) -> count_newlines (pa_buf st) + count_newlines [c] < 2147483648 ->
  show_chunks3 (pa_new st') ++ pa_text st' ++ pa_buf st' = show_chunks3 (pa_new st) ++ pa_text st ++ pa_buf st ++ [c] /\
  pa_consec st' = Z.of_N (count_newlines (pa_buf st')) /\ (pa_consec st' = 0%Z -> pa_buf st' = []) /\ ((2 <= pa_consec st')%Z -> pa_text st' = []) /\
  count_newlines (pa_buf st') <= count_newlines (pa_buf st) + count_newlines [c].
Proof.
  destruct st as [new line text tline buf bline consec]. cbn [pa_new pa_text pa_buf pa_consec par_step]. intros H Ec E0 E2 B.
  assert (S1 : forall x, text = x -> show_chunks3 (if negb (is_empty x) then new ++ [mkChunk3 tline (Text3 x)] else new) = show_chunks3 new ++ text).
  { intros x ->. destruct x as [|y x]; cbn [is_empty negb]; [now rewrite app_nil_r|]. rewrite show_chunks3_app, show_chunks3_one. reflexivity. }
  destruct (N.eqb_spec c c_newline) as [->|Hc].
  - rewrite nlnl in *. destruct (Z.eqb_spec consec 1) as [->|H1].
    + cbn [andb] in H. rewrite inc_i32_ok in H by lia. cbn [bind] in H. destruct (add32 p line 1); cbn [bind] in H; try discriminate. injection H as <-.
      cbn [pa_new pa_text pa_buf pa_consec]. rewrite S1, count_newlines_app, nlnl by reflexivity. cbn [app]. rewrite <- app_assoc.
      repeat split; try lia; auto.
    + cbn [andb] in H. rewrite inc_i32_ok in H by lia. cbn [bind] in H. destruct (add32 p line 1); cbn [bind] in H; try discriminate. injection H as <-.
      cbn [pa_new pa_text pa_buf pa_consec]. rewrite count_newlines_app, nlnl. repeat split; try lia.
      intros K. apply E2. lia.
  - rewrite nl1 in * by exact Hc. cbn [andb] in H. destruct (is_whitespace c) eqn:Wc.
    + destruct (Z.eqb_spec consec 0) as [->|Hz]; cbn [andb] in H; injection H as <-; cbn [pa_new pa_text pa_buf pa_consec].
      * rewrite (E0 eq_refl) in *. cbn [app]. rewrite app_nil_r. repeat split; auto; lia.
      * rewrite count_newlines_app, nl1 by exact Hc. repeat split; auto; try lia.
    + cbn [andb] in H. destruct (Z.eqb_spec consec 0) as [->|Hz].
      * injection H as <-; cbn [pa_new pa_text pa_buf pa_consec]. rewrite (E0 eq_refl) in *. cbn [app]. rewrite app_nil_r. repeat split; auto; lia.
      * destruct (Z.eqb_spec consec 1) as [->|Hz1]; injection H as <-; cbn [pa_new pa_text pa_buf pa_consec]; rewrite count_newlines_nil.
        -- rewrite app_nil_r. repeat split; auto; lia.
        -- rewrite show_chunks3_app, show_chunks3_one. cbn [show_chunk3 show_variant3]. rewrite (E2 ltac:(lia)). cbn [app].
           rewrite <- app_assoc. repeat split; auto; lia.
Qed.
Lemma par_text_any {E} p new L s out : count_newlines s < 2147483648 -> @par_chunk E p new (mkChunk3 L (Text3 s)) = Ok out ->
  show_chunks3 out = show_chunks3 new ++ s.
Proof.
  intros B. cbn [par_chunk]. destruct (foldM (par_step p) _ s) as [st'|e| |] eqn:Ef; cbn [bind]; try discriminate. intros E'. injection E' as <-.
  assert (G : forall s st st', @foldM E _ _ (par_step p) st s = Ok st' -> pa_consec st = Z.of_N (count_newlines (pa_buf st)) ->
    (pa_consec st = 0%Z -> pa_buf st = []) -> ((2 <= pa_consec st)%Z -> pa_text st = []) -> count_newlines (pa_buf st) + count_newlines s < 2147483648 ->
    show_chunks3 (pa_new st') ++ pa_text st' ++ pa_buf st' = show_chunks3 (pa_new st) ++ pa_text st ++ pa_buf st ++ s /\
    ((2 <= pa_consec st')%Z -> pa_text st' = []) /\ (pa_consec st' = 0%Z -> pa_buf st' = []) /\ pa_consec st' = Z.of_N (count_newlines (pa_buf st'))).
  { clear. induction s as [|c s IH]; intros st st' H Ec E0 E2 B; cbn [foldM] in H.
    - injection H as <-. rewrite app_nil_r. auto.
    - destruct (par_step p st c) as [st1|e| |] eqn:E1; cbn [bind] in H; try discriminate. rewrite count_newlines_cons in B.
      assert (Hn : count_newlines [c] = (if c =? c_newline then 1 else 0)) by (rewrite count_newlines_cons, count_newlines_nil; lia).
      destruct (@par_step_any E p st c st1 E1 Ec E0 E2) as (S1 & C1 & Z1 & T1 & N1); [lia|].
      destruct (IH st1 st' H C1 Z1 T1) as (S2 & T2); [lia|]. split; [|exact T2].
      rewrite S2. rewrite !app_assoc. rewrite <- (app_assoc (show_chunks3 (pa_new st1))), S1. rewrite <- !app_assoc. reflexivity. }
  destruct (G s _ _ Ef) as (S & T & Z & C); cbn [pa_consec pa_buf pa_text]; auto.
  cbn [pa_new pa_text pa_buf app] in S. rewrite <- S. clear - T Z C.
  destruct st' as [new line text tline buf bline consec]. cbn [pa_new pa_text pa_buf pa_consec par_finish] in *.
  assert (S1 : forall x, show_chunks3 (if negb (is_empty x) then new ++ [mkChunk3 tline (Text3 x)] else new) = show_chunks3 new ++ x).
  { intros x. destruct x as [|y x]; cbn [is_empty negb]; [now rewrite app_nil_r|]. rewrite show_chunks3_app, show_chunks3_one. reflexivity. }
  destruct buf as [|b buf]; cbn [is_empty negb].
  - destruct text as [|y text]; cbn [is_empty negb app]; rewrite ?app_nil_r; [reflexivity|]. rewrite show_chunks3_app, show_chunks3_one. reflexivity.
  - destruct (Z.gtb_spec consec 1) as [K|K].
    + rewrite (T ltac:(lia)), show_chunks3_app, show_chunks3_one. reflexivity.
    + now rewrite S1.
Qed.
Lemma paragraph_show_any {E} p cs out : count_newlines (show_chunks3 cs) < 2147483648 -> @paragraph_from_chunks E p cs = Ok out ->
  show_chunks3 out = show_chunks3 cs.
Proof.
  unfold paragraph_from_chunks.
  assert (G : forall new, count_newlines (show_chunks3 cs) < 2147483648 -> @foldM E _ _ (par_chunk p) new cs = Ok out -> show_chunks3 out = show_chunks3 new ++ show_chunks3 cs).
  { induction cs as [|[L v] cs IH]; intros new B H; cbn [foldM] in H.
    - injection H as <-. now rewrite app_nil_r.
    - rewrite show_chunks3_cons, count_newlines_app in *. destruct (par_chunk p new (mkChunk3 L v)) as [n1|e| |] eqn:E1; cbn [bind] in H; try discriminate.
      rewrite (IH n1 ltac:(lia) H), app_assoc. f_equal. destruct v; try (cbn [par_chunk] in E1; injection E1 as <-; now rewrite show_chunks3_app, show_chunks3_one).
      apply (par_text_any p new L s n1) in E1; [exact E1|]. cbn [show_chunk3 show_variant3] in B. lia. }
  intros B H. exact (G [] B H).
Qed.
(** without overflow checks the split always returns *)
Lemma paragraph_release {E} cs : exists out, @paragraph_from_chunks E Release cs = Ok out.
Proof.
  unfold paragraph_from_chunks. generalize (@nil chunk3). induction cs as [|[L v] cs IH]; intros new; cbn [foldM]; [eauto|].
  assert (K : exists n1, @par_chunk E Release new (mkChunk3 L v) = Ok n1); [|destruct K as [n1 ->]; cbn [bind]; apply IH].
  destruct v; try (eexists; reflexivity). cbn [par_chunk]. generalize (mkPar new L [] L [] L 0%Z).
  assert (G : forall s st, exists st', @foldM E _ _ (par_step Release) st s = Ok st').
  { clear. induction s as [|c s IH]; intros st; cbn [foldM]; [eauto|].
    assert (K : exists st1, @par_step E Release st c = Ok st1); [|destruct K as [st1 ->]; cbn [bind]; apply IH].
    assert (A : forall a b, exists x, @add32 E Release a b = Ok x) by (intros a b; unfold add32; destruct (a + b <? two32); eexists; reflexivity).
    assert (I : forall z, exists x, @inc_i32 E Release z = Ok x) by (intros z; unfold inc_i32; destruct (z + 1 <? 2147483648)%Z; eexists; reflexivity).
    destruct st as [n line text tline buf bline consec]. unfold par_step.
    destruct (A line 1) as [a ->], (I consec) as [i ->]. cbn [bind].
    repeat match goal with |- context [if ?b then _ else _] => destruct b end; eauto. }
  intros st. destruct (G s st) as [st' ->]. cbn [bind]. eauto.
Qed.
