(** * Prefix5: what stage 3 keeps, section by section *)
From Coq Require Import Lia.
From Verif Require Import Base Ast1 Parse1 Ast2 Ast3 Valid1 Valid2 SpecPar3 Par3 MathsRun MathsRec SpecPrefix Prefix3 Prefix4.
From Verif Require Tok.
Local Open Scope N_scope.

Definition textc (c : chunk2) : Prop := match c with mkChunk2 l (Text2 s) => count_newlines s < 2147483648 /\ l + count_newlines s < two32 | _ => True end.
Section Prefix5.
  Context (p : profile).
  Notation rec := (maths_from_chunks p).
  Lemma mt_grows m c m' : mt_step p rec m c = Ok m' -> exists x, ms_out (mt_st m') = ms_out (mt_st m) ++ x.
  Proof.
    unfold mt_step. intros H.
    match type of H with bind ?f _ = _ => destruct f as [m0| | |] eqn:F; cbn [bind] in H; try discriminate end.
    assert (E : mt_st m0 = mt_st m). { destruct (c =? c_newline); [|now injection F as <-]. destruct (add32 p (mt_cursor m) 1); cbn [bind] in F; try discriminate. now injection F as <-. }
    rewrite <- E. clear E F m. assert (Z : exists x, ms_out (mt_st m0) = ms_out (mt_st m0) ++ x) by (exists []; now rewrite app_nil_r).
    assert (Cl : forall t, mt_close p rec m0 t = Ok m' -> exists x, ms_out (mt_st m') = ms_out (mt_st m0) ++ x).
    { intros t K. unfold mt_close in K. match type of K with bind ?f _ = _ => destruct f; cbn [bind] in K; try discriminate end.
      destruct (maths_from_chunks p a); cbn [bind] in K; try discriminate. injection K as <-. eexists. reflexivity. }
    destruct (c =? c_dollar); [|injection H as <-; exact Z]. destruct (ms_mode (mt_st m0)) as [[|]|[|]| |]; try (injection H as <-; exact Z).
    - destruct (is_empty (mt_text m0) && is_empty (ms_buffer (mt_st m0))); [injection H as <-; exact Z|exact (Cl _ H)].
    - exact (Cl _ H).
    - injection H as <-. unfold mt_set_mode, mt_push_str. destruct (negb (is_empty (mt_text m0))); cbn; [eexists; reflexivity|exact Z].
  Qed.
  Lemma mts_grow s : forall m m', foldM (mt_step p rec) m s = Ok m' -> exists x, ms_out (mt_st m') = ms_out (mt_st m) ++ x.
  Proof.
    induction s as [|c s IH]; intros m m'; cbn [foldM]; [intros H; injection H as <-; exists []; now rewrite app_nil_r|].
    destruct (mt_step p rec m c) as [m1| | |] eqn:E; cbn [bind]; try discriminate. intros H. destruct (mt_grows _ _ _ E) as (x & Ex). destruct (IH _ _ H) as (y & ->). rewrite Ex, <- app_assoc. eauto.
  Qed.
  Lemma push_out m : ms_out (mt_st (mt_push_str m)) = ms_out (mt_st m) ++ text_chunk3 (mt_line m) (mt_text m).
  Proof. unfold mt_push_str. destruct (mt_text m); cbn; [now rewrite app_nil_r|reflexivity]. Qed.
  Lemma m_grows st c st' : m_step p rec st c = Ok st' -> exists x, ms_out st' = ms_out st ++ x.
  Proof.
    destruct c as [l v]. assert (Z : exists x, ms_out st = ms_out st ++ x) by (exists []; now rewrite app_nil_r).
    assert (B : forall t, m_close_brackets rec st t = Ok st' -> exists x, ms_out st' = ms_out st ++ x).
    { intros t. unfold m_close_brackets. destruct (maths_from_chunks p (ms_buffer st)); cbn [bind]; try discriminate. intros H. injection H as <-. eexists. reflexivity. }
    destruct v as [s|[lab args]|sc|env]; cbn [m_step label2]; intros H.
    - destruct (negb (is_single_br (ms_mode st) || is_double_br (ms_mode st))); [|injection H as <-; exact Z]. unfold m_text in H.
      destruct (foldM (mt_step p rec) (mkMT st l [] l) s) as [m| | |] eqn:F; cbn [bind] in H; try discriminate. injection H as <-. rewrite push_out.
      destruct (mts_grow _ _ _ F) as (x & ->). rewrite <- app_assoc. eexists. reflexivity.
    - repeat match type of H with (if ?b then _ else _) = _ => destruct b end; try discriminate; try (injection H as <-; exact Z); try exact (B _ H).
      all: match type of H with bind ?f _ = _ => destruct f; cbn [bind] in H; try discriminate end; injection H as <-; try exact Z; eexists; reflexivity.
    - destruct (is_none (ms_mode st)); [|injection H as <-; exact Z]. match type of H with bind ?f _ = _ => destruct f; cbn [bind] in H; try discriminate end; injection H as <-; eexists; reflexivity.
    - destruct (is_none (ms_mode st)); [|injection H as <-; exact Z]. match type of H with bind ?f _ = _ => destruct f; cbn [bind] in H; try discriminate end; injection H as <-; eexists; reflexivity.
  Qed.
  Lemma ms_grow r : forall st st', foldM (m_step p rec) st r = Ok st' -> exists x, ms_out st' = ms_out st ++ x.
  Proof.
    induction r as [|c s IH]; intros m m'; cbn [foldM]; [intros H; injection H as <-; exists []; now rewrite app_nil_r|].
    destruct (m_step p rec m c) as [m1| | |] eqn:E; cbn [bind]; try discriminate. intros H. destruct (m_grows _ _ _ E) as (x & Ex). destruct (IH _ _ H) as (y & ->). rewrite Ex, <- app_assoc. eauto.
  Qed.

  (** *** The text that is being read *)
  Definition at_line (l n : N) (m : mtext) : Prop := mt_cursor m = l + n /\ l <= mt_line m /\ mt_line m + count_newlines (mt_text m) = mt_cursor m.
  Lemma at_step l n m c m' : mt_step p rec m c = Ok m' -> at_line l n m -> l + n + count_newlines [c] < two32 -> at_line l (n + count_newlines [c]) m'.
  Proof.
    unfold mt_step. intros H (A & B & C) R.
    match type of H with bind ?f _ = _ => destruct f as [m0| | |] eqn:F; cbn [bind] in H; try discriminate end.
    assert (E : mt_st m0 = mt_st m /\ mt_text m0 = mt_text m /\ mt_line m0 = mt_line m /\ mt_cursor m0 = l + (n + count_newlines [c])).
    { destruct (c =? c_newline) eqn:Ec.
      - apply N.eqb_eq in Ec. subst c. change (count_newlines [c_newline]) with 1 in *. unfold add32 in F. rewrite A in F. replace (l + n + 1 <? two32) with true in F by (symmetry; now apply N.ltb_lt). cbn [bind] in F. injection F as <-. cbn. repeat split; lia.
      - injection F as <-. unfold count_newlines in *. cbn [filter]. rewrite Ec. cbn. repeat split; lia. }
    destruct E as (_ & Et & El & Ec).
    assert (Cl : forall t, mt_close p rec m0 t = Ok m' -> at_line l (n + count_newlines [c]) m').
    { intros t K. unfold mt_close in K. match type of K with bind ?f _ = _ => destruct f; cbn [bind] in K; try discriminate end.
      destruct (maths_from_chunks p a); cbn [bind] in K; try discriminate. injection K as <-. unfold at_line. cbn. rewrite Ec. change (count_newlines []) with 0. lia. }
    destruct (c =? c_dollar) eqn:Ed.
    - assert (Z : count_newlines [c] = 0) by (apply N.eqb_eq in Ed; subst c; reflexivity).
      assert (K : at_line l (n + count_newlines [c]) m0) by (unfold at_line; rewrite Ec, Et, El; lia).
      destruct (ms_mode (mt_st m0)) as [[|]|[|]| |]; try (injection H as <-; exact K).
      + destruct (is_empty (mt_text m0) && is_empty (ms_buffer (mt_st m0))); [injection H as <-; exact K|exact (Cl _ H)].
      + exact (Cl _ H).
      + injection H as <-. unfold at_line, mt_set_mode, mt_push_str. destruct (mt_text m0) eqn:Tx; cbn; rewrite ?Tx; change (count_newlines []) with 0; lia.
    - injection H as <-. unfold at_line. cbn. rewrite Ec, Et, El, Tok.count_newlines_app. lia.
  Qed.
  Lemma at_steps l s : forall n m m', foldM (mt_step p rec) m s = Ok m' -> at_line l n m -> l + n + count_newlines s < two32 -> at_line l (n + count_newlines s) m'.
  Proof.
    induction s as [|c s IH]; intros n m m'; cbn [foldM].
    - intros H K _. injection H as <-. change (count_newlines []) with 0. now rewrite N.add_0_r.
    - destruct (mt_step p rec m c) as [m1| | |] eqn:E; cbn [bind]; try discriminate. intros H K R.
      change (c :: s) with ([c] ++ s) in *. rewrite Tok.count_newlines_app in *. rewrite N.add_assoc. apply (IH _ m1 m' H); [|lia]. apply (at_step _ _ _ _ _ E K). lia.
  Qed.
  (** the text that is pending comes out with more behind it *)
  Definition pending (m m' : mtext) : Prop :=
    (ms_mode (mt_st m') = MNone /\ ms_out (mt_st m') = ms_out (mt_st m) /\ mt_line m' = mt_line m /\ exists u, mt_text m' = mt_text m ++ u) \/
    (exists u more, ms_out (mt_st m') = ms_out (mt_st m) ++ text_chunk3 (mt_line m) (mt_text m ++ u) ++ more).
  Lemma pending_steps s : forall m m1 m', foldM (mt_step p rec) m1 s = Ok m' -> pending m m1 -> pending m m'.
  Proof.
    induction s as [|c s IH]; intros m m1 m'; cbn [foldM]; [intros H; now injection H as <-|].
    destruct (mt_step p rec m1 c) as [m2| | |] eqn:E; cbn [bind]; try discriminate. intros H K. apply (IH m m2 m' H). clear H IH m'.
    destruct K as [(M & O & L & u & T)|(u & more & O)].
    - unfold mt_step in E. match type of E with bind ?f _ = _ => destruct f as [m0| | |] eqn:F; cbn [bind] in E; try discriminate end.
      assert (X : mt_st m0 = mt_st m1 /\ mt_text m0 = mt_text m1 /\ mt_line m0 = mt_line m1).
      { destruct (c =? c_newline); [|now injection F as <-]. destruct (add32 p (mt_cursor m1) 1); cbn [bind] in F; try discriminate. now injection F as <-. }
      destruct X as (X1 & X2 & X3). rewrite X1, M in E. destruct (c =? c_dollar); injection E as <-.
      + right. exists u, []. rewrite app_nil_r. unfold mt_set_mode. cbn [mt_st ms_out]. rewrite push_out, X1, X2, X3, O, L, T. reflexivity.
      + left. cbn. rewrite X2, X3, T. repeat split; auto. exists (u ++ [c]). now rewrite app_assoc.
    - right. destruct (mt_grows _ _ _ E) as (x & ->). rewrite O. exists u, (more ++ x). now rewrite <- !app_assoc.
  Qed.
  Lemma text_split st l s s1 : m_step p rec st (mkChunk2 l (Text2 s)) = Ok s1 -> ms_mode s1 = MNone -> textc (mkChunk2 l (Text2 s)) ->
    exists o k tx, ms_out s1 = o ++ text_chunk3 k tx /\ text_in_range (mkChunk3 k (Text3 tx)) /\
      forall u s2, m_step p rec st (mkChunk2 l (Text2 (s ++ u))) = Ok s2 -> exists v more, ms_out s2 = o ++ text_chunk3 k (tx ++ v) ++ more.
  Proof.
    cbn [m_step]. intros H M R. destruct (negb (is_single_br (ms_mode st) || is_double_br (ms_mode st))) eqn:Q.
    2:{ injection H as <-. cbn in M. rewrite M in Q. discriminate. }
    unfold m_text in *. destruct (foldM (mt_step p rec) (mkMT st l [] l) s) as [m| | |] eqn:F; cbn [bind] in H; try discriminate. injection H as <-. rewrite push_out.
    exists (ms_out (mt_st m)), (mt_line m), (mt_text m). split; [reflexivity|]. split.
    - cbn in R. destruct (at_steps l s 0 _ _ F) as (A & B & C); [unfold at_line; cbn; lia|lia|]. cbn. lia.
    - intros u s2. rewrite foldM_app', F. cbn [bind]. destruct (foldM (mt_step p rec) m u) as [m2| | |] eqn:F2; cbn [bind]; try discriminate. intros H. injection H as <-.
      destruct (pending_steps u m m m2 F2) as [(M2 & O & L & v & T)|(v & more & O)].
      + left. repeat split; auto; [|exists []; now rewrite app_nil_r]. unfold mt_push_str in M. destruct (negb (is_empty (mt_text m))); exact M.
      + exists v, []. rewrite push_out, O, L, T, app_nil_r. reflexivity.
      + exists v. rewrite push_out, O. eexists. rewrite <- !app_assoc. reflexivity.
  Qed.
  Lemma blank_steps w : blank w -> forall m m', foldM (mt_step p rec) m w = Ok m' -> mt_st m' = mt_st m /\ mt_text m' = mt_text m ++ w /\ mt_line m' = mt_line m.
  Proof.
    induction 1 as [|c w C _ IH]; intros m m'; cbn [foldM]; [intros H; injection H as <-; now rewrite app_nil_r|].
    destruct (mt_step p rec m c) as [m1| | |] eqn:E; cbn [bind]; try discriminate. intros H. destruct (IH _ _ H) as (A & B & D). clear IH H.
    unfold mt_step in E. match type of E with bind ?f _ = _ => destruct f as [m0| | |] eqn:F; cbn [bind] in E; try discriminate end.
    assert (X : mt_st m0 = mt_st m /\ mt_text m0 = mt_text m /\ mt_line m0 = mt_line m).
    { destruct (c =? c_newline); [|now injection F as <-]. destruct (add32 p (mt_cursor m) 1); cbn [bind] in F; try discriminate. now injection F as <-. }
    destruct X as (X1 & X2 & X3). assert (N : (c =? c_dollar) = false). { destruct (N.eqb_spec c c_dollar) as [->|]; [discriminate C|reflexivity]. }
    rewrite N in E. injection E as <-. cbn in A, B, D. rewrite A, B, D, X1, X2, X3. repeat split. now rewrite <- app_assoc.
  Qed.
  Lemma blank_out st l w s1 : blank w -> m_step p rec st (mkChunk2 l (Text2 w)) = Ok s1 -> ms_mode s1 = MNone ->
    ms_mode st = MNone /\ ms_out s1 = ms_out st ++ text_chunk3 l w.
  Proof.
    intros B. cbn [m_step]. destruct (negb (is_single_br (ms_mode st) || is_double_br (ms_mode st))) eqn:Q.
    - unfold m_text. destruct (foldM (mt_step p rec) (mkMT st l [] l) w) as [m| | |] eqn:F; cbn [bind]; try discriminate. intros H M. injection H as <-.
      destruct (blank_steps w B _ _ F) as (X & Y & Z). cbn in X, Y, Z. rewrite push_out, X, Y, Z. split; [|reflexivity].
      unfold mt_push_str in M. rewrite X in M. destruct (negb (is_empty (mt_text m))); [|rewrite X in M]; exact M.
    - intros H M. injection H as <-. cbn in M. rewrite M in Q. discriminate.
  Qed.
End Prefix5.

Section Sections.
  Context (p : profile).
  Notation rec := (maths_from_chunks p).
  (** all but [n] chunks at the end are kept *)
  Definition keeps (n : nat) (x y : list chunk3) : Prop := exists keep last next, x = keep ++ last /\ y = keep ++ next /\ (length last <= n)%nat.
  Lemma keeps_pre n a x y : keeps n x y -> keeps n (a ++ x) (a ++ y).
  Proof. intros (k & l & z & -> & -> & L). exists (a ++ k), l, z. now rewrite <- !app_assoc. Qed.
  Lemma keeps_le n m x y : (n <= m)%nat -> keeps n x y -> keeps m x y.
  Proof. intros H (k & l & z & -> & -> & L). exists k, l, z. repeat split; lia. Qed.
  Lemma keeps_any n x y : (length x <= n)%nat -> keeps n x y.
  Proof. intros L. exists [], x, y. now repeat split. Qed.
  Lemma keeps_all n x y : keeps n x (x ++ y).
  Proof. exists x, [], y. rewrite app_nil_r. repeat split. cbn. lia. Qed.
  Lemma out_keeps n o a b x y : par2 p (o ++ a) = Ok x -> par2 p (o ++ b) = Ok y ->
    (forall z z', par2 p a = Ok z -> par2 p b = Ok z' -> keeps n z z') -> keeps n x y.
  Proof.
    intros H H' K. apply par2_split in H as (u & v & U & V & ->). apply par2_split in H' as (u' & v' & U' & V' & ->). rewrite U in U'. injection U' as <-. apply keeps_pre. now apply K.
  Qed.
  Lemma text_keeps k tx v more z z' : text_in_range (mkChunk3 k (Text3 tx)) -> par2 p (text_chunk3 k tx) = Ok z -> par2 p (text_chunk3 k (tx ++ v) ++ more) = Ok z' -> keeps 1 z z'.
  Proof.
    intros R H H'. destruct tx as [|c tx].
    - cbn in H. injection H as <-. apply (keeps_all 1 []).
    - cbn [text_chunk3 app] in H, H'. destruct (text_grows2 p k (c :: tx) v z z' more R H H') as (n & x & y & -> & -> & L). now exists n, x, y.
  Qed.
  (** a command outside of maths gives one chunk that is no text *)
  Lemma cmd_out st l lab args s1 : m_step p rec st (cmd2 l lab args) = Ok s1 -> ms_mode s1 = MNone ->
    (exists c, ms_out s1 = ms_out st ++ [c] /\ (forall s, variant_of3 c <> Text3 s) /\
      forall more s2, m_step p rec st (cmd2 l lab (args ++ more)) = Ok s2 -> exists c', ms_out s2 = ms_out st ++ [c'] /\ ms_mode s2 = MNone).
  Proof.
    unfold cmd2. cbn [m_step label2].
    destruct (is_none (ms_mode st) && (str_eqb lab [c_rround] || str_eqb lab [c_rsquare])); [discriminate|].
    destruct (str_eqb lab [c_lround] && is_none (ms_mode st)); [intros H M; injection H as <-; discriminate M|].
    destruct (str_eqb lab [c_lsquare] && is_none (ms_mode st)); [intros H M; injection H as <-; discriminate M|].
    assert (D : forall (b : bool) (f : outcome error N), b = true -> (b = true -> is_none (ms_mode st) = false) -> (let* d := f in Ok (m_set_depth st d)) = Ok s1 -> ms_mode s1 = MNone -> False).
    { intros b f Hb Hn H M. destruct f; cbn [bind] in H; try discriminate. injection H as <-. cbn in M. rewrite M in Hn. now specialize (Hn Hb). }
    destruct (str_eqb lab [c_lround] && is_single_br (ms_mode st)) eqn:Q1.
    { intros H M. exfalso. apply (D _ _ Q1) in H; auto. rewrite andb_true_iff. intros [_ K]. destruct (ms_mode st) as [[|]|[|]| |]; try discriminate K; reflexivity. }
    destruct (str_eqb lab [c_lsquare] && is_double_br (ms_mode st)) eqn:Q2.
    { intros H M. exfalso. apply (D _ _ Q2) in H; auto. rewrite andb_true_iff. intros [_ K]. destruct (ms_mode st) as [[|]|[|]| |]; try discriminate K; reflexivity. }
    assert (B : forall t, m_close_brackets rec st t = Ok s1 -> exists c, ms_out s1 = ms_out st ++ [c] /\ (forall s, variant_of3 c <> Text3 s) /\ forall s2, m_close_brackets rec st t = Ok s2 -> exists c', ms_out s2 = ms_out st ++ [c'] /\ ms_mode s2 = MNone).
    { intros t. unfold m_close_brackets. destruct (maths_from_chunks p (ms_buffer st)) as [co| | |]; cbn [bind]; try discriminate. intros H. injection H as <-. eexists. split; [reflexivity|]. split; [discriminate|].
      intros s2 H. injection H as <-. eexists. split; reflexivity. }
    destruct (str_eqb lab [c_rround] && is_single_br (ms_mode st) && (ms_depth st =? 1)); [intros H _; destruct (B _ H) as (c & X & Y & Z); exists c; auto|].
    destruct (str_eqb lab [c_rsquare] && is_double_br (ms_mode st) && (ms_depth st =? 1)); [intros H _; destruct (B _ H) as (c & X & Y & Z); exists c; auto|].
    destruct (str_eqb lab [c_rround] && is_single_br (ms_mode st)) eqn:Q3.
    { intros H M. exfalso. apply (D _ _ Q3) in H; auto. rewrite andb_true_iff. intros [_ K]. destruct (ms_mode st) as [[|]|[|]| |]; try discriminate K; reflexivity. }
    destruct (str_eqb lab [c_rsquare] && is_double_br (ms_mode st)) eqn:Q4.
    { intros H M. exfalso. apply (D _ _ Q4) in H; auto. rewrite andb_true_iff. intros [_ K]. destruct (ms_mode st) as [[|]|[|]| |]; try discriminate K; reflexivity. }
    destruct (is_none (ms_mode st)) eqn:N.
    - assert (M0 : ms_mode st = MNone) by (destruct (ms_mode st) as [| | |]; try discriminate N; reflexivity).
      intros H _. destruct (command3_try_from p rec (mkCommand2 lab args)) as [c3| | |]; cbn [bind] in H; try discriminate. injection H as <-. eexists. split; [reflexivity|]. split; [discriminate|].
      intros more s2 H. destruct (command3_try_from p rec (mkCommand2 lab (args ++ more))) as [c4| | |]; cbn [bind] in H; try discriminate. injection H as <-. eexists. split; [reflexivity|exact M0].
    - intros H M. injection H as <-. cbn in M. rewrite M in N. discriminate.
  Qed.
  Lemma fold1 st c s : foldM (m_step p rec) st [c] = Ok s -> m_step p rec st c = Ok s.
  Proof. cbn [foldM]. destruct (m_step p rec st c); cbn [bind]; auto. Qed.
  Lemma fold_head st c r s : foldM (m_step p rec) st (c :: r) = Ok s -> exists s1, m_step p rec st c = Ok s1 /\ exists x, ms_out s = ms_out s1 ++ x.
  Proof. cbn [foldM]. destruct (m_step p rec st c) as [s1| | |] eqn:E; cbn [bind]; try discriminate. intros H. exists s1. split; [reflexivity|]. exact (ms_grow p _ _ _ H). Qed.
  Lemma one_other o c x : (forall s, variant_of3 c <> Text3 s) -> forall b y, par2 p (o ++ [c]) = Ok x -> par2 p (o ++ b) = Ok y -> keeps 1 x y.
  Proof.
    intros N b y H H'. apply (out_keeps 1 o [c] b x y H H'). intros z z' Z _. apply (par2_other p c z N) in Z. subst z. apply keeps_any. cbn. lia.
  Qed.

  Lemma blank_len l w z : blank w -> textc (mkChunk2 l (Text2 w)) -> par2 p (text_chunk3 l w) = Ok z -> (length z <= 2)%nat.
  Proof.
    intros B R H. destruct w as [|c w]; [injection H as <-; cbn; lia|]. cbn [text_chunk3] in H. apply (blank_two p l (c :: w) z); auto.
  Qed.
  Lemma section_kept a t1 r y0 y y0' y' : Forall textc t1 ->
    rec (a ++ t1) = Ok y0 -> par p y0 = Ok y -> rec (a ++ r) = Ok y0' -> par p y0' = Ok y' ->
    continues2 t1 r \/ (exists l lab, t1 = [cmd2 l lab []] /\ word lab) -> keeps 3 y y'.
  Proof.
    intros R H Y H' Y' C. rewrite maths_unfold, foldM_app' in H, H'. destruct (foldM (m_step p rec) minit a) as [st| | |]; cbn [bind] in *; try discriminate.
    destruct (foldM (m_step p rec) st t1) as [s1| | |] eqn:F; cbn [bind] in H; try discriminate. destruct (foldM (m_step p rec) st r) as [s2| | |] eqn:F'; cbn [bind] in H'; try discriminate.
    unfold m_finish in H, H'. destruct (is_none (ms_mode s1)) eqn:N1; cbn [negb] in H; [|discriminate]. destruct (is_none (ms_mode s2)) eqn:N2; cbn [negb] in H'; [|discriminate].
    assert (M1 : ms_mode s1 = MNone) by (destruct (ms_mode s1); try discriminate N1; reflexivity).
    assert (P1 : par2 p (ms_out s1) = Ok y) by (unfold par2; unfold par at 1; now rewrite H).
    assert (P2 : par2 p (ms_out s2) = Ok y') by (unfold par2; unfold par at 1; now rewrite H').
    clear H H' Y Y' N1 N2 y0 y0'.
    assert (W : forall l lab, t1 = [cmd2 l lab []] -> keeps 3 y y').
    { intros l lab ->. apply fold1 in F. destruct (cmd_out _ _ _ _ _ F M1) as (c & O & Nc & _). rewrite O in P1. destruct (ms_grow p _ _ _ F') as (x & Ox). rewrite Ox in P2.
      apply (keeps_le 1); [lia|]. exact (one_other _ _ _ Nc _ _ P1 P2). }
    destruct C as [C|(l & lab & E & _)]; [|exact (W l lab E)].
    destruct C as [r|l s u r|l lab args more r|l lab u args r Wd|l lab u l' env r Wd E U L|l' l'' w u r Wb|l lab args l' w u sc more r Wb].
    - cbn [foldM] in F. injection F as <-. destruct (ms_grow p _ _ _ F') as (x & Ox). rewrite Ox in P2. apply par2_split in P2 as (z & z' & Z & _ & ->). rewrite P1 in Z. injection Z as <-. apply keeps_all.
    - apply fold1 in F. inversion R; subst. destruct (text_split p _ _ _ _ F M1 ltac:(assumption)) as (o & k & tx & O & Rt & K).
      destruct (fold_head _ _ _ _ F') as (s3 & F3 & x & Ox). destruct (K u s3 F3) as (v & mo & O3). rewrite O in P1. rewrite Ox, O3, <- !app_assoc in P2.
      apply (keeps_le 1); [lia|]. apply (out_keeps 1 _ _ _ _ _ P1 P2). intros z z'. now apply text_keeps.
    - apply fold1 in F. destruct (cmd_out _ _ _ _ _ F M1) as (c & O & Nc & _). destruct (ms_grow p _ _ _ F') as (x & Ox). rewrite O in P1. rewrite Ox in P2.
      apply (keeps_le 1); [lia|]. exact (one_other _ _ _ Nc _ _ P1 P2).
    - exact (W l lab eq_refl).
    - exact (W l lab eq_refl).
    - apply fold1 in F. inversion R; subst. destruct (blank_out p _ _ _ _ Wb F M1) as (_ & O). rewrite O in P1. destruct (ms_grow p _ _ _ F') as (x & Ox). rewrite Ox in P2.
      apply (keeps_le 2); [lia|]. apply (out_keeps 2 _ _ _ _ _ P1 P2). intros z z' Z _. apply keeps_any. apply (blank_len l' w z); auto.
    - change ([mkChunk2 l (Command2 (mkCommand2 lab args)); mkChunk2 l' (Text2 w)]) with ([cmd2 l lab args] ++ [mkChunk2 l' (Text2 w)]) in F. rewrite foldM_app' in F.
      destruct (foldM (m_step p rec) st [cmd2 l lab args]) as [s0| | |] eqn:F0; cbn [bind] in F; try discriminate. apply fold1 in F, F0.
      destruct (blank_out p _ _ _ _ Wb F M1) as (M0 & O). destruct (cmd_out _ _ _ _ _ F0 M0) as (c & O0 & Nc & _). rewrite O, O0, <- app_assoc in P1. destruct (ms_grow p _ _ _ F') as (x & Ox). rewrite Ox in P2.
      apply (out_keeps 3 _ _ _ _ _ P1 P2). intros z z' Z _. apply par2_split in Z as (z1 & z2 & Z1 & Z2 & ->). apply (par2_other p c z1 Nc) in Z1. subst z1. apply keeps_any.
      inversion R as [|? ? _ R2]; subst. inversion R2 as [|? ? R3 _]; subst. pose proof (blank_len l' w z2 Wb R3 Z2). rewrite app_length. cbn. lia.
  Qed.
End Sections.
