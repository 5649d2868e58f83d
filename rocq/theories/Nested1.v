(** * Nested1: sources whose brackets nest are accepted *)
From Verif Require Import Base Ast1 Parse1 Spec1 SpecDoc1 SpecCanon1 SpecFail1 SpecNested Tok Pure1 Refine1 Gram1 Fail1 Ind Facts1 Canon1.

Lemma open_bracket v : is_bracket_tok (Plain (open1 v)) = true. Proof. now destruct v. Qed.
Lemma close_bracket v : is_bracket_tok (Plain (close1 v)) = true. Proof. now destruct v. Qed.
Lemma open1_inj v w : open1 v = open1 w -> v = w. Proof. destruct v, w; try reflexivity; discriminate. Qed.
Lemma close1_inj v w : close1 v = close1 w -> v = w. Proof. destruct v, w; try reflexivity; discriminate. Qed.
Lemma open_close v w : open1 v <> close1 w. Proof. destruct v, w; discriminate. Qed.
Lemma bracket_cases c : is_bracket_tok (Plain c) = true -> (exists v, c = open1 v) \/ (exists v, c = close1 v).
Proof.
  cbn. unfold is_opening, is_closing. rewrite !orb_true_iff, !N.eqb_eq. intuition subst.
  all: first [left; first [exists Curly1; reflexivity|exists Round1; reflexivity|exists Square1; reflexivity]|right; first [exists Curly1; reflexivity|exists Round1; reflexivity|exists Square1; reflexivity]].
Qed.

(** ** Inversions *)
Lemma nested_tok t ts : is_bracket_tok t = false -> nested (t :: ts) -> nested ts.
Proof. intros H K. inversion K as [|t' ts' F K' E|v a b Ka Kb E]; subst; [assumption|]. rewrite open_bracket in H. discriminate. Qed.
Lemma nested_close v ts : ~ nested (Plain (close1 v) :: ts).
Proof. intros K. inversion K as [|t' ts' F K' E|w a b Ka Kb [E E']]; subst; [rewrite close_bracket in F; discriminate|exact (open_close _ _ E)]. Qed.
Lemma nested_open v ts : nested (Plain (open1 v) :: ts) -> exists a b, ts = a ++ Plain (close1 v) :: b /\ nested a /\ nested b.
Proof.
  intros K. inversion K as [|t' ts' F K' E|w a b Ka Kb [E E']]; subst; [rewrite open_bracket in F; discriminate|]. apply open1_inj in E. subst w. eauto.
Qed.
Lemma nested_skip a b : forallb (fun t => negb (is_bracket_tok t)) a = true -> nested (a ++ b) -> nested b.
Proof.
  induction a as [|t a IH]; intros H K; [exact K|]. cbn in H. apply andb_true_iff in H. destruct H as [Ht Ha]. apply negb_true_iff in Ht.
  apply IH; [exact Ha|]. exact (nested_tok _ _ Ht K).
Qed.
Lemma nested_app a b : nested a -> nested b -> nested (a ++ b).
Proof.
  intros Ha Hb. induction Ha as [|t ts H _ IH|v ts us H1 _ H2 IH]; [exact Hb|constructor; assumption|].
  cbn [app]. rewrite <- app_assoc. cbn [app]. constructor; assumption.
Qed.
Lemma nested_run v ts : nested ts -> forall d, run_depth v d ts = Some d.
Proof.
  induction 1 as [|t ts H _ IH|w ts us _ IH1 _ IH2]; intros d; [reflexivity| |].
  - cbn [run_depth]. assert (O : is_open_tok v t = false). { destruct t as [c|c]; [|reflexivity]. cbn. apply N.eqb_neq. intros ->. rewrite open_bracket in H. discriminate. }
    assert (C : is_close_tok v t = false). { destruct t as [c|c]; [|reflexivity]. cbn. apply N.eqb_neq. intros ->. rewrite close_bracket in H. discriminate. }
    rewrite O, C. apply IH.
  - change (Plain (open1 w) :: ts ++ Plain (close1 w) :: us) with ([Plain (open1 w)] ++ ts ++ [Plain (close1 w)] ++ us).
    assert (D : exists d', run_depth v d [Plain (open1 w)] = Some d' /\ run_depth v d' [Plain (close1 w)] = Some d).
    { destruct v, w; first [exists d; split; reflexivity|exists (S d); split; reflexivity]. }
    destruct D as (d' & D1 & D2). rewrite run_depth_app, D1, run_depth_app, IH1, run_depth_app, D2. apply IH2.
Qed.
Lemma nested_balanced v ts : nested ts -> balanced v ts.
Proof. intros H. apply run_depth_balanced. now apply nested_run. Qed.
Lemma split_same v a : forall a' r r', balanced v a -> balanced v a' -> a ++ Plain (close1 v) :: r = a' ++ Plain (close1 v) :: r' -> a = a' /\ r = r'.
Proof.
  assert (K : forall a m, balanced v a -> balanced v (a ++ Plain (close1 v) :: m) -> False).
  { intros b m H1 H2. apply run_depth_balanced in H1, H2. rewrite run_depth_app, H1 in H2. cbn [run_depth] in H2. rewrite close_not_open, close_close in H2. discriminate. }
  intros a' r r' H1 H2 E. apply app_eq_app in E. destruct E as (l & [[-> E]|[-> E]]).
  - destruct l as [|t l]; cbn in E; injection E; intros; subst; [rewrite app_nil_r in *; auto|]. exfalso. exact (K _ _ H2 H1).
  - destruct l as [|t l]; cbn in E; injection E; intros; subst; [rewrite app_nil_r in *; auto|]. exfalso. exact (K _ _ H1 H2).
Qed.
Lemma nested_group v body rest : balanced v body -> nested (Plain (open1 v) :: body ++ Plain (close1 v) :: rest) -> nested body /\ nested rest.
Proof.
  intros B K. apply nested_open in K. destruct K as (a & b & E & Ha & Hb).
  destruct (split_same v body a rest b B (nested_balanced v a Ha) E) as [-> ->]. auto.
Qed.
Lemma nested_drop v ts : nested ts -> nested (drop_own v ts).
Proof.
  induction 1 as [|t ts H _ IH|w ts us _ IH1 _ IH2]; [constructor| |].
  - change (drop_own v (t :: ts)) with (drop_own v ([t] ++ ts)). rewrite drop_own_app. apply nested_app; [|exact IH].
    unfold drop_own. cbn [filter]. destruct (negb _); [|constructor]. constructor; [exact H|constructor].
  - change (Plain (open1 w) :: ts ++ Plain (close1 w) :: us) with ([Plain (open1 w)] ++ ts ++ [Plain (close1 w)] ++ us). rewrite !drop_own_app.
    assert (D : (drop_own v [Plain (open1 w)] = [] /\ drop_own v [Plain (close1 w)] = []) \/ (drop_own v [Plain (open1 w)] = [Plain (open1 w)] /\ drop_own v [Plain (close1 w)] = [Plain (close1 w)])).
    { destruct v, w; cbn; auto. }
    destruct D as [[-> ->]|[-> ->]]; cbn [app]; [now apply nested_app|]. now constructor.
Qed.

(** ** Escaped opening brackets *)
Lemma existsb_app_false {A} (f : A -> bool) a b : existsb f (a ++ b) = false <-> existsb f a = false /\ existsb f b = false.
Proof. rewrite existsb_app, orb_false_iff. reflexivity. Qed.
Lemma harmless_suffix a pre : harmless (a ++ pre) -> harmless pre.
Proof.
  intros [H|(x & b & y & m & E & Hb & Hy & Hy' & Hl & Hc)]; [left; now apply existsb_app_false in H|].
  apply app_eq_app in E. destruct E as (l & [[-> E]|[-> E]]).
  - destruct l as [|t l]; [right; exists [], b, y, m; auto 10|]. cbn [app] in E. apply (f_equal (@tl token)) in E. cbn [tl] in E.
    destruct l as [|t' l]; [left; cbn in E; subst pre; cbn; exact Hl|]. cbn [app] in E. apply (f_equal (@tl token)) in E. cbn [tl] in E. subst m. left. now apply existsb_app_false in Hl.
  - right. exists l, b, y, m. auto 10.
Qed.
Lemma safe_suffix a b : harmless_escapes (a ++ b) -> harmless_escapes b.
Proof. intros H pre o post -> Ho. apply (harmless_suffix a). apply (H (a ++ pre) o post); [now rewrite <- app_assoc|exact Ho]. Qed.
Lemma safe_prefix a b : harmless_escapes (a ++ b) -> harmless_escapes a.
Proof. intros H pre o post -> Ho. apply (H pre o (post ++ b)); [now rewrite <- app_assoc|exact Ho]. Qed.
Lemma filter_split {A} (f : A -> bool) l : forall a x b, filter f l = a ++ x :: b -> exists a' b', l = a' ++ x :: b' /\ filter f a' = a.
Proof.
  induction l as [|y l IH]; intros a x b E; [destruct a; discriminate|]. cbn [filter] in E. destruct (f y) eqn:F.
  - destruct a as [|z a]; cbn [app] in E; injection E as -> E.
    + exists [], l. auto.
    + destruct (IH _ _ _ E) as (a' & b' & -> & Ha). exists (z :: a'), b'. split; [reflexivity|]. cbn [filter]. now rewrite F, Ha.
  - destruct (IH _ _ _ E) as (a' & b' & -> & Ha). exists (y :: a'), b'. split; [reflexivity|]. cbn [filter]. now rewrite F.
Qed.
Lemma existsb_filter {A} (f g : A -> bool) l : existsb g l = false -> existsb g (filter f l) = false.
Proof.
  intros H. induction l as [|x l IH]; [reflexivity|]. cbn in H. apply orb_false_iff in H. destruct H as [Hx Hl]. cbn [filter]. destruct (f x); [cbn; now rewrite Hx, IH|now apply IH].
Qed.
Lemma keep_plain v c : is_bracket_tok (Plain c) = false -> negb (is_open_tok v (Plain c) || is_close_tok v (Plain c)) = true.
Proof.
  intros H. apply negb_true_iff, orb_false_iff. split; apply N.eqb_neq; intros ->; [rewrite open_bracket in H|rewrite close_bracket in H]; discriminate.
Qed.
Lemma ws_not_bracket c : is_whitespace c = true -> is_bracket_tok (Plain c) = false.
Proof.
  intros H. destruct (is_bracket_tok (Plain c)) eqn:E; [|reflexivity]. apply bracket_cases in E. destruct E as [[v ->]|[v ->]]; destruct v; discriminate H.
Qed.
Lemma harmless_drop v pre : harmless pre -> harmless (drop_own v pre).
Proof.
  intros [H|(x & b & y & m & E & Hb & Hy & Hy' & Hl & Hc)]; [left; now apply existsb_filter|].
  right. exists (drop_own v x), b, y, (drop_own v m). subst pre. rewrite !drop_own_app. split.
  - unfold drop_own at 2. cbn [filter]. rewrite !keep_plain; [reflexivity|exact Hy'|now apply ws_not_bracket].
  - repeat split; try assumption; now apply existsb_filter.
Qed.
Lemma safe_drop v ts : harmless_escapes ts -> harmless_escapes (drop_own v ts).
Proof.
  intros H pre o post E Ho. apply filter_split in E. destruct E as (a & b & -> & <-). apply harmless_drop. exact (H a o b eq_refl Ho).
Qed.
(** blanks after a command lose their backslash *)
Definition loses (t t' : token) : Prop := t = t' \/ exists c, t = Esc c /\ t' = Plain c /\ is_whitespace c = true.
Lemma loses_letters ts ts' : Forall2 loses ts ts' -> existsb is_letter_tok ts = false -> existsb is_letter_tok ts' = false.
Proof.
  induction 1 as [|t t' ts ts' H _ IH]; [auto|]. cbn. rewrite !orb_false_iff. intros [H1 H2]. split; [|auto]. destruct H as [<-|(c & -> & -> & _)]; [exact H1|reflexivity].
Qed.
Lemma loses_closing ts ts' : Forall2 loses ts ts' -> existsb is_closing_tok ts = false -> existsb is_closing_tok ts' = false.
Proof.
  induction 1 as [|t t' ts ts' H _ IH]; [auto|]. cbn. rewrite !orb_false_iff. intros [H1 H2]. split; [|auto]. destruct H as [<-|(c & -> & -> & W)]; [exact H1|].
  cbn. pose proof (ws_not_bracket c W) as K. cbn in K. apply orb_false_iff in K. apply K.
Qed.
Lemma loses_plain c t : loses (Plain c) t -> t = Plain c.
Proof. intros [<-|(x & E & _)]; [reflexivity|discriminate]. Qed.
Lemma harmless_loses pre pre' : Forall2 loses pre pre' -> harmless pre -> harmless pre'.
Proof.
  intros F [H|(x & b & y & m & E & Hb & Hy & Hy' & Hl & Hc)]; [left; eapply loses_letters; eauto|]. subst pre.
  apply Forall2_app_inv_l in F. destruct F as (x' & r' & _ & F & ->). cbn [app] in F. inversion F as [|? t' ? r2 Hb' F' E1 E2]; subst. inversion F' as [|? t'' ? m' Hy'' Fm E1 E2]; subst.
  apply loses_plain in Hb', Hy''. subst. right. exists x', b, y, m'. repeat split; try assumption; [eapply loses_letters; eauto|eapply loses_closing; eauto].
Qed.
Lemma loses_refl ts : Forall2 loses ts ts. Proof. induction ts; constructor; [now left|assumption]. Qed.
Lemma loses_ws ws : forallb (fun t => is_whitespace (tchar t)) ws = true -> Forall2 loses ws (map Plain (chars ws)).
Proof.
  induction ws as [|t ws IH]; intros H; [constructor|]. cbn in H. apply andb_true_iff in H. destruct H as [Ht Hw]. constructor; [|apply IH, Hw].
  destruct t as [c|c]; [now left|right; exists c; auto].
Qed.
Lemma safe_loses ts ts' : Forall2 loses ts ts' -> harmless_escapes ts -> harmless_escapes ts'.
Proof.
  intros F H pre o post -> Ho. apply Forall2_app_inv_r in F. destruct F as (a & r & Fa & Fr & ->). inversion Fr as [|t ? b ? Ht Fb E1 E2]; subst.
  destruct Ht as [-> |(c & _ & E & _)]; [|discriminate]. eapply harmless_loses; [exact Fa|]. exact (H a o b eq_refl Ho).
Qed.
(** ** A command's arguments *)
Lemma after_closing l1 : forall v l2 x b y m, l1 ++ Plain (close1 v) :: l2 = x ++ [Plain b; Plain y] ++ m -> is_whitespace b = true -> is_bracket_tok (Plain y) = false ->
  existsb is_closing_tok m = false -> exists x2, l2 = x2 ++ [Plain b; Plain y] ++ m.
Proof.
  intros v l2 x b y m E Hb Hy Hm. apply app_eq_app in E. destruct E as (l & [[-> E]|[-> E]]).
  - exfalso. assert (K : existsb is_closing_tok ([Plain b; Plain y] ++ m) = false).
    { cbn [app existsb]. rewrite Hm. pose proof (ws_not_bracket b Hb) as Kb. cbn in Kb, Hy |- *. apply orb_false_iff in Kb, Hy. destruct Kb as [_ ->], Hy as [_ ->]. reflexivity. }
    rewrite E in K. apply existsb_app_false in K. destruct K as [_ K]. cbn [existsb] in K. apply orb_false_iff in K. destruct K as [K _]. now destruct v.
  - destruct l as [|t l]; cbn [app] in E.
    + injection E as E _. exfalso. pose proof (ws_not_bracket b Hb) as Kb. rewrite <- E, close_bracket in Kb. discriminate.
    + injection E as _ ->. exists l. reflexivity.
Qed.
Lemma reached a lab argtoks bodies pre : is_ascii_alphabetic a = true -> forallb is_label_char lab = true -> bracketed argtoks bodies ->
  forallb (fun t => is_whitespace (tchar t)) pre = true -> ~ harmless (Esc a :: map Plain lab ++ argtoks ++ pre).
Proof.
  intros Ha Hlab Hb Hpre [H|(x & b & y & m & E & Wb & Wy & By & Hl & Hc)].
  - cbn in H. now rewrite Ha in H.
  - destruct x as [|t x]; cbn [app] in E; [discriminate E|]. injection E as _ E.
    assert (P : exists x2, argtoks ++ pre = x2 ++ [Plain b; Plain y] ++ m).
    { clear - E Hlab Wb. revert x E. induction lab as [|c lab IH]; intros x E; [exists x; exact E|]. cbn in Hlab. apply andb_true_iff in Hlab. destruct Hlab as [Hc Hlab].
      destruct x as [|t x]; cbn [map app] in E; injection E as E1 E2.
      - subst c. unfold is_label_char in Hc. rewrite Wb in Hc. discriminate.
      - eapply IH; eassumption. }
    clear E. destruct P as (x2 & P). revert x2 P. induction Hb as [|pre0 o v body rest bodies Hpre0 Ho Hbal Hbr IH]; intros x2 P.
    + cbn [app] in P. rewrite P in Hpre. rewrite !forallb_app in Hpre. cbn in Hpre. rewrite Wy in Hpre. rewrite !andb_false_r in Hpre. discriminate.
    + replace ((pre0 ++ o :: body ++ Plain (close1 v) :: rest) ++ pre) with ((pre0 ++ o :: body) ++ Plain (close1 v) :: rest ++ pre) in P by (rewrite <- !app_assoc; cbn; now rewrite <- !app_assoc).
      apply after_closing in P; try assumption. destruct P as (x3 & P). exact (IH _ P).
Qed.
Lemma label_tok lab : forallb is_label_char lab = true -> forallb (fun t => negb (is_bracket_tok t)) (map Plain lab) = true.
Proof.
  induction lab as [|c lab IH]; intros H; [reflexivity|]. cbn in H |- *. apply andb_true_iff in H. destruct H as [Hc H]. rewrite IH by exact H. rewrite andb_true_r.
  unfold is_label_char in Hc. apply andb_true_iff in Hc. destruct Hc as [Hc H2]. apply andb_true_iff in Hc. destruct Hc as [_ H1]. apply negb_true_iff in H1, H2. now rewrite H1, H2.
Qed.
Lemma ws_tok ws : forallb (fun t => is_whitespace (tchar t)) ws = true -> forallb (fun t => negb (is_bracket_tok t)) ws = true.
Proof.
  induction ws as [|t ws IH]; intros H; [reflexivity|]. cbn in H. apply andb_true_iff in H. destruct H as [Hc H]. cbn [forallb]. rewrite IH by exact H. rewrite andb_true_r.
  destruct t as [c|c]; [|reflexivity]. apply negb_true_iff. now apply ws_not_bracket.
Qed.
Lemma esc_tok c ts : nested (Esc c :: ts) -> nested ts. Proof. apply nested_tok. reflexivity. Qed.
(** the arguments of a command are groups *)
Lemma args_nested a lab argtoks bodies : is_ascii_alphabetic a = true -> forallb is_label_char lab = true -> bracketed argtoks bodies -> forall done dbs rest,
  bracketed done dbs -> harmless_escapes (Esc a :: map Plain lab ++ done ++ argtoks ++ rest) -> nested (argtoks ++ rest) ->
  nested rest /\ (forall v body, In (v, body) bodies -> nested body /\ harmless_escapes body).
Proof.
  intros Ha Hlab Hb. induction Hb as [|pre o v body more bodies Hpre Ho Hbal Hbr IH]; intros done dbs rest Hd S K; [split; [exact K|intros ? ? []]|].
  assert (Bapp : forall a1 b1, bracketed a1 b1 -> bracketed (a1 ++ pre ++ o :: body ++ [Plain (close1 v)]) (b1 ++ [(v, body)])).
  { intros a1 b1 B. induction B as [|p1 o1 v1 bd1 r1 bs1 ? ? ? ? IHB].
    - cbn [app]. apply (B_cons pre o v body [] []); try assumption. constructor.
    - replace ((p1 ++ o1 :: bd1 ++ Plain (close1 v1) :: r1) ++ pre ++ o :: body ++ [Plain (close1 v)]) with (p1 ++ o1 :: bd1 ++ Plain (close1 v1) :: (r1 ++ pre ++ o :: body ++ [Plain (close1 v)]))
        by (rewrite <- !app_assoc; cbn; now rewrite <- !app_assoc). now apply B_cons. }
  assert (Oe : o = Plain (open1 v)).
  { destruct o as [c|c]; cbn in Ho; subst c; [reflexivity|]. exfalso. apply (reached a lab done dbs pre Ha Hlab Hd Hpre).
    apply (S (Esc a :: map Plain lab ++ done ++ pre) (open1 v) (body ++ Plain (close1 v) :: more ++ rest)); [|now destruct v].
    cbn [app]. rewrite <- !app_assoc. cbn. now rewrite <- !app_assoc. }
  subst o.
  assert (K1 : nested (Plain (open1 v) :: body ++ Plain (close1 v) :: more ++ rest)).
  { apply (nested_skip pre); [now apply ws_tok|]. revert K. rewrite <- !app_assoc. cbn. now rewrite <- !app_assoc. }
  apply nested_group in K1; [|exact Hbal]. destruct K1 as [Kb Kr].
  destruct (IH (done ++ pre ++ Plain (open1 v) :: body ++ [Plain (close1 v)]) (dbs ++ [(v, body)]) rest) as [I1 I2]; [now apply Bapp| |exact Kr|].
  { revert S. rewrite <- !app_assoc. cbn [app]. rewrite <- !app_assoc. cbn [app]. auto. }
  split; [exact I1|]. intros w bd [E|Hin]; [|exact (I2 w bd Hin)]. injection E as <- <-. split; [exact Kb|].
  apply (safe_prefix body (Plain (close1 v) :: more ++ rest)). apply (safe_suffix (Esc a :: map Plain lab ++ done ++ pre ++ [Plain (open1 v)])).
  revert S. cbn [app]. rewrite <- !app_assoc. cbn [app]. rewrite <- !app_assoc. cbn [app]. auto.
Qed.
Lemma parses_bracketed argtoks args : parses_args argtoks args -> exists bodies, bracketed argtoks bodies.
Proof.
  induction 1 as [|pre o v body inner rest args Hpre Ho Hbal Hp Hr [bodies IH]]; [eexists; constructor|]. eexists. apply B_cons; try eassumption.
Qed.
Theorem nested_no_failure L ts e : fails L ts e -> nested ts -> harmless_escapes ts -> False.
Proof.
  induction 1 as [L run rest e Hne Hrun Hend _ IH|L v ts Hnc|L v body rest e Hbal _ IH|L v body rest inner e Hbal Hp _ IH|L c rest e Hc _ IH
    |L a lab argtoks bodies pre o v ts Ha Hlab Hb Hpre Ho Hnc|L a lab argtoks bodies v rest Ha Hlab Hb
    |L a lab argtoks bodies before v body after inners ws rest e Ha Hlab Hb Ebs Hbef _ IH Hws Hfol|L a lab argtoks args ws rest e Ha Hlab Hargs Hws Hfol Hne _ IH]; intros K S.
  - apply IH; [|now apply safe_suffix in S]. clear - Hrun K. induction run as [|t run IH]; [exact K|]. cbn in Hrun. apply andb_true_iff in Hrun. destruct Hrun as [Ht Hrun].
    destruct t as [c|c]; [|discriminate]. cbn in Ht. apply negb_true_iff in Ht. apply IH; [exact Hrun|]. cbn [app] in K.
    destruct (is_bracket_tok (Plain c)) eqn:B; [|now apply nested_tok in K]. exfalso. apply bracket_cases in B. destruct B as [[v ->]|[v ->]]; [now destruct v|]. exact (nested_close _ _ K).
  - apply nested_open in K. destruct K as (x & y & -> & Hx & _). apply (Hnc x y eq_refl). now apply nested_balanced.
  - apply nested_group in K; [|exact Hbal]. apply IH; [apply K|]. apply (safe_prefix body (Plain (close1 v) :: rest)). exact (safe_suffix [Plain (open1 v)] _ S).
  - apply nested_group in K; [|exact Hbal]. apply IH; [apply K|]. apply (safe_suffix (Plain (open1 v) :: body ++ [Plain (close1 v)])). cbn [app]. rewrite <- app_assoc. exact S.
  - apply IH; [now apply esc_tok in K|exact (safe_suffix [Esc c] _ S)].
  - apply esc_tok in K. apply nested_skip in K; [|now apply label_tok].
    destruct (args_nested a lab argtoks bodies Ha Hlab Hb [] [] (pre ++ o :: ts) B_nil S K) as [K' _]. apply nested_skip in K'; [|now apply ws_tok].
    assert (Oe : o = Plain (open1 v)).
    { destruct o as [c|c]; cbn in Ho; subst c; [reflexivity|]. exfalso. apply (reached a lab argtoks bodies pre Ha Hlab Hb Hpre).
      apply (S (Esc a :: map Plain lab ++ argtoks ++ pre) (open1 v) ts); [|now destruct v]. cbn [app]. now rewrite <- !app_assoc. }
    subst o. apply nested_open in K'. destruct K' as (x & y & -> & Hx & _). apply (Hnc x y eq_refl). now apply nested_balanced.
  - apply esc_tok in K. apply nested_skip in K; [|now apply label_tok].
    destruct (args_nested a lab argtoks bodies Ha Hlab Hb [] [] (Plain (close1 v) :: rest) B_nil S K) as [K' _]. exact (nested_close _ _ K').
  - apply esc_tok in K. apply nested_skip in K; [|now apply label_tok].
    destruct (args_nested a lab argtoks bodies Ha Hlab Hb [] [] (ws ++ rest) B_nil S K) as [_ G]. destruct (G v body) as [G1 G2]; [subst bodies; apply in_elt|].
    apply IH; [now apply nested_drop|now apply safe_drop].
  - destruct (parses_bracketed _ _ Hargs) as [bodies Hb]. apply esc_tok in K. apply nested_skip in K; [|now apply label_tok].
    destruct (args_nested a lab argtoks bodies Ha Hlab Hb [] [] (ws ++ rest) B_nil S K) as [K' _]. apply nested_skip in K'; [|now apply ws_tok].
    apply IH.
    + clear - K' Hws. induction ws as [|t ws IH]; [exact K'|]. cbn in Hws. apply andb_true_iff in Hws. destruct Hws as [Ht Hws]. cbn [chars map app]. constructor; [now apply ws_not_bracket|now apply IH].
    + apply (safe_loses (ws ++ rest)); [apply Forall2_app; [now apply loses_ws|apply loses_refl]|].
      apply (safe_suffix (Esc a :: map Plain lab ++ argtoks)). cbn [app]. rewrite <- !app_assoc. exact S.
Qed.
Theorem nested_parses L ts : nested ts -> harmless_escapes ts -> exists d, parses L ts d.
Proof.
  intros K S. destruct (decide (Datatypes.S (length ts)) L ts) as [H|[e H]]; [lia|exact H|]. exfalso. exact (nested_no_failure L ts e H K S).
Qed.
Theorem nested_accepted p s : source_fits s -> nested (tokens s) -> harmless_escapes (tokens s) -> exists d, from_str1 p s = Ok d.
Proof.
  intros B K S. destruct (nested_parses 1 _ K S) as [d H]. exists d. now apply from_str1_iff.
Qed.

(** ** The Display of a validated document *)
Definition esc_opening (t : token) : bool := match t with Esc c => is_opening c | Plain _ => false end.
Definition fine (ts : list token) (s : str) : Prop := Forall wf_token ts /\ untoks ts = s /\ nested ts /\ existsb esc_opening ts = false.
Lemma fine_app ts us s t : fine ts s -> fine us t -> fine (ts ++ us) (s ++ t).
Proof.
  intros (A1 & A2 & A3 & A4) (B1 & B2 & B3 & B4). repeat split.
  - apply Forall_app. auto.
  - rewrite untoks_app. congruence.
  - now apply nested_app.
  - apply existsb_app_false. auto.
Qed.
Lemma fine_nil : fine [] []. Proof. repeat split; constructor. Qed.
Lemma fine_group v ts s : fine ts s -> fine (Plain (open1 v) :: ts ++ [Plain (close1 v)]) (open1 v :: s ++ [close1 v]).
Proof.
  intros (A1 & A2 & A3 & A4). repeat split.
  - constructor; [apply wf_open|]. apply Forall_app. split; [exact A1|]. constructor; [apply wf_close|constructor].
  - rewrite untoks_cons, untoks_app, A2. reflexivity.
  - apply N_group; [exact A3|constructor].
  - cbn [existsb esc_opening orb]. apply existsb_app_false. auto.
Qed.
Lemma special_cases c : special c = false -> wf_token (Plain c) /\ is_bracket_tok (Plain c) = false.
Proof.
  intros H. unfold special in H. cbn in H. rewrite !orb_false_iff, !N.eqb_neq in H.
  split; [split; intros ->; unfold c_bslash, c_percent in *; intuition|]. cbn. unfold is_opening, is_closing. rewrite !orb_false_iff, !N.eqb_neq.
  unfold c_lcurly, c_lsquare, c_lround, c_rcurly, c_rsquare, c_rround. intuition.
Qed.
Lemma fine_plain s : existsb special s = false -> fine (map Plain s) s.
Proof.
  induction s as [|c s IH]; intros H; [apply fine_nil|]. cbn in H. apply orb_false_iff in H. destruct H as [Hc H]. destruct (special_cases c Hc) as [W B].
  apply (fine_app [Plain c] (map Plain s) [c] s); [|now apply IH]. repeat split; [constructor; [exact W|constructor]|constructor; [exact B|constructor]].
Qed.
Lemma fine_esc c : is_opening c = false -> fine [Esc c] [c_bslash; c].
Proof. intros H. repeat split; [repeat constructor|constructor; [reflexivity|constructor]|cbn; now rewrite H]. Qed.
Lemma special_opening c : special c = false -> is_opening c = false.
Proof. intros H. apply special_cases in H. destruct H as [_ H]. cbn in H. now apply orb_false_iff in H. Qed.
Lemma one_byte lab : str_len lab = 1 -> exists c, lab = [c].
Proof.
  destruct lab as [|c [|d lab]]; cbn; [discriminate|eauto|]. intros H. exfalso.
  assert (K : forall x, 1 <= len_utf8 x). { intros x. unfold len_utf8. repeat destruct (_ <? _); lia. }
  pose proof (K c). pose proof (K d). unfold str_len in *. lia.
Qed.
Lemma fine_label lab : lab <> [] -> (forall o, lab = [o] -> is_opening o = false) -> clean_label lab = true ->
  fine (match lab with [] => [] | x :: lab => Esc x :: map Plain lab end) (c_bslash :: lab).
Proof.
  intros Hne Ho Hc. destruct lab as [|x lab]; [contradiction|]. unfold clean_label in Hc. apply orb_true_iff in Hc. destruct Hc as [Hc|Hc].
  - apply N.eqb_eq in Hc. destruct (one_byte _ Hc) as [c E]. injection E as -> ->. apply fine_esc. now apply Ho.
  - apply negb_true_iff in Hc. cbn [existsb] in Hc. apply orb_false_iff in Hc. destruct Hc as [Hx Hl].
    apply (fine_app [Esc x] (map Plain lab) [c_bslash; x] lab); [apply fine_esc; now apply special_opening|now apply fine_plain].
Qed.
Lemma fine_args args : Forall (fun a => existsb special (fst a) = false) args ->
  Forall (fun a => fine (dtoks (chunks1 (snd a))) (show1 (chunks1 (snd a)))) args -> fine (atoks args) (show_args1 args).
Proof.
  intros H1 H2. induction args as [|[pre [cs v]] args IH]; [apply fine_nil|]. inversion H1 as [|? ? Hp H1']; inversion H2 as [|? ? Hf H2']; subst. cbn [fst snd chunks1] in *.
  change (atoks ((pre, mkScope1 cs v) :: args)) with ((map Plain pre ++ Plain (open1 v) :: dtoks cs ++ [Plain (close1 v)]) ++ atoks args).
  change (show_args1 ((pre, mkScope1 cs v) :: args)) with ((pre ++ open1 v :: show1 cs ++ [close1 v]) ++ show_args1 args).
  apply fine_app; [|now apply IH]. apply fine_app; [now apply fine_plain|now apply fine_group].
Qed.
Definition part_ok (c : chunk1) : Prop := clean1 c /\ plain_parts c.
Lemma fine_chunks cs : Forall (fun c => part_ok c /\ kids (everywhere part_ok) c -> fine (ctoks c) (show_chunk1 c)) cs -> everywhere part_ok cs -> fine (dtoks cs) (show1 cs).
Proof.
  induction 1 as [|c cs Hc _ IH]; intros H; [apply fine_nil|]. apply everywhere_cons in H. destruct H as (H1 & H2 & H3). rewrite dtoks_cons.
  change (show1 (c :: cs)) with (show_chunk1 c ++ show1 cs). apply fine_app; [apply Hc; auto|apply IH, H3].
Qed.
Lemma fine_chunk c : part_ok c /\ kids (everywhere part_ok) c -> fine (ctoks c) (show_chunk1 c).
Proof.
  induction c as [l s|l lab args IH|l cs v IH] using chunk1_ind'; intros [[C P] K].
  - apply fine_plain. exact C.
  - cbn in C, P, K. destruct P as (P1 & P2 & P3).
    change (ctoks (mkChunk1 l (Command1 (mkCommand1 lab args)))) with (match lab with [] => [] | x :: lab => Esc x :: map Plain lab end ++ atoks args).
    change (show_chunk1 (mkChunk1 l (Command1 (mkCommand1 lab args)))) with ((c_bslash :: lab) ++ show_args1 args).
    apply fine_app; [now apply fine_label|]. apply fine_args; [exact P3|]. clear - IH K. induction IH as [|a args Ha _ IHa]; [constructor|]. inversion K; subst. constructor; [now apply fine_chunks|now apply IHa].
  - rewrite ctoks_scope. change (show_chunk1 (mkChunk1 l (Scope1 (mkScope1 cs v)))) with (open1 v :: show1 cs ++ [close1 v]). apply fine_group. apply fine_chunks; [exact IH|exact K].
Qed.
Theorem display_accepted p d : source_fits (show1 d) -> everywhere clean1 d -> everywhere plain_parts d -> exists d', from_str1 p (show1 d) = Ok d'.
Proof.
  intros B C P. assert (Q : everywhere part_ok d).
  { intros cs Hw. specialize (C cs Hw). specialize (P cs Hw). rewrite Forall_forall in *. intros c Hc. split; auto. }
  assert (F : fine (dtoks d) (show1 d)). { apply fine_chunks; [|exact Q]. apply Forall_forall. intros c _. apply fine_chunk. }
  destruct F as (W & E & N & X). assert (T : tokens (show1 d) = dtoks d) by (rewrite <- E; now apply tokens_untoks).
  apply nested_accepted; [exact B|rewrite T; exact N|]. rewrite T. intros pre o post Et Ho. exfalso. rewrite Et in X. apply existsb_app_false in X. destruct X as [_ X]. cbn in X. now rewrite Ho in X.
Qed.

(** ** A test, for examples *)
Fixpoint run_stack (st : list sv1) (ts : list token) : option (list sv1) :=
  match ts with
  | [] => Some st
  | Plain c :: ts =>
      if is_opening c then match @from_opening error c with Ok v => run_stack (v :: st) ts | _ => None end
      else if is_closing c then match st with v :: st => if c =? close1 v then run_stack st ts else None | [] => None end
      else run_stack st ts
  | Esc _ :: ts => run_stack st ts
  end.
Lemma run_stack_nested n : forall ts st, (length ts < n)%nat -> run_stack st ts = Some [] ->
  match st with [] => nested ts | v :: st' => exists a b, ts = a ++ Plain (close1 v) :: b /\ nested a /\ run_stack st' b = Some [] end.
Proof.
  induction n as [|n IH]; intros ts st Hn H; [lia|]. destruct ts as [|t ts].
  - cbn in H. injection H as ->. constructor.
  - cbn [length] in Hn.
    assert (Skip : is_bracket_tok t = false -> run_stack st ts = Some [] ->
      match st with [] => nested (t :: ts) | v :: st' => exists a b, t :: ts = a ++ Plain (close1 v) :: b /\ nested a /\ run_stack st' b = Some [] end).
    { intros B K. specialize (IH ts st ltac:(lia) K). destruct st as [|v st]; [now constructor|]. destruct IH as (a & b & -> & Ha & Hb). exists (t :: a), b. split; [reflexivity|]. split; [now constructor|exact Hb]. }
    destruct t as [c|c]; cbn [run_stack] in H; [|now apply Skip].
    destruct (is_opening c) eqn:O.
    + assert (X : exists w, @from_opening error c = Ok w /\ c = open1 w).
      { unfold is_opening in O. unfold from_opening. destruct (N.eqb_spec c c_lcurly); [exists Curly1; auto|]. destruct (N.eqb_spec c c_lsquare); [exists Square1; auto|]. destruct (N.eqb_spec c c_lround); [exists Round1; auto|discriminate]. }
      destruct X as (w & Ew & ->). rewrite Ew in H. destruct (IH ts (w :: st) ltac:(lia) H) as (a & b & -> & Ha & Hb).
      specialize (IH b st ltac:(rewrite app_length in Hn; cbn in Hn; lia) Hb). destruct st as [|v st]; [now constructor|].
      destruct IH as (a2 & b2 & -> & Ha2 & Hb2). exists (Plain (open1 w) :: a ++ Plain (close1 w) :: a2), b2. split; [cbn [app]; rewrite <- app_assoc; reflexivity|]. split; [now constructor|exact Hb2].
    + destruct (is_closing c) eqn:C; [|apply Skip; [cbn; now rewrite O, C|exact H]].
      destruct st as [|v st]; [discriminate|]. destruct (N.eqb_spec c (close1 v)) as [-> |]; [|discriminate]. exists [], ts. split; [reflexivity|]. split; [constructor|exact H].
Qed.
Lemma stack_nested ts : run_stack [] ts = Some [] -> nested ts.
Proof. exact (run_stack_nested (S (length ts)) ts [] (Nat.lt_succ_diag_r _)). Qed.
