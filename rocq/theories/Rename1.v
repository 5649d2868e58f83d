(** * Rename1: replacing characters before stage-1 parsing *)
From Verif Require Import Base Ast1 Parse1 Ast2 Ast3 Spec1 SpecDoc1 SpecFail1 SpecRename Tok Refine1 Gram1 Fail1.

Section Respects.
  Variable f : char -> char.
  Hypothesis Hf : respects f.
  Definition ftok (t : token) : token := match t with Plain c => Plain (f c) | Esc c => Esc (f c) end.
  Definition ftoks := map ftok.
  Lemma f_mark c m : In m marks -> (f c =? m) = (c =? m).
  Proof.
    intros H. destruct (Hf c) as (_ & _ & K). destruct (N.eq_dec c m) as [->|E].
    - rewrite K by (left; exact H). reflexivity.
    - destruct (N.eq_dec (f c) m) as [E'|E'].
      + exfalso. rewrite K in E' by (right; rewrite E'; exact H). congruence.
      + apply N.eqb_neq in E, E'. now rewrite E, E'.
  Qed.
  Lemma f_fix m : In m marks -> f m = m.
  Proof. intros H. destruct (Hf m) as (_ & _ & K). apply K. now left. Qed.
  Lemma f_eq c m : In m marks -> f c = m -> c = m.
  Proof. intros H E. apply N.eqb_eq in E. rewrite f_mark in E by exact H. now apply N.eqb_eq in E. Qed.
  Lemma open_mark v : In (open1 v) marks. Proof. destruct v; vm_compute; tauto. Qed.
  Lemma close_mark v : In (close1 v) marks. Proof. destruct v; vm_compute; tauto. Qed.
  Lemma f_ws c : is_whitespace (f c) = is_whitespace c. Proof. apply Hf. Qed.
  Lemma f_alpha c : is_ascii_alphabetic (f c) = is_ascii_alphabetic c. Proof. apply Hf. Qed.
  Lemma f_opening c : is_opening (f c) = is_opening c.
  Proof. unfold is_opening. rewrite !f_mark by (vm_compute; tauto). reflexivity. Qed.
  Lemma f_closing c : is_closing (f c) = is_closing c.
  Proof. unfold is_closing. rewrite !f_mark by (vm_compute; tauto). reflexivity. Qed.
  Lemma f_label c : is_label_char (f c) = is_label_char c.
  Proof. unfold is_label_char. now rewrite f_ws, f_opening, f_closing. Qed.
  Lemma newlines_map s : count_newlines (map f s) = count_newlines s.
  Proof. induction s as [|c s IH]; [reflexivity|]. cbn [map]. rewrite !count_newlines_cons, IH, f_mark by (vm_compute; tauto). reflexivity. Qed.
  Lemma lex_map s : forall e m, lex e m (map f s) = ftoks (lex e m s).
  Proof.
    induction s as [|c s IH]; intros e m; [reflexivity|]. cbn [map lex]. rewrite !f_mark by (vm_compute; tauto). rewrite !IH.
    destruct (c =? c_newline); [destruct e; reflexivity|]. destruct ((c =? c_percent) && negb e); [reflexivity|].
    destruct ((c =? c_bslash) && negb e); [reflexivity|]. destruct m; [reflexivity|]. destruct e; reflexivity.
  Qed.
  Lemma tokens_map s : tokens (map f s) = ftoks (tokens s). Proof. apply lex_map. Qed.
  Lemma chars_map ts : chars (ftoks ts) = map f (chars ts).
  Proof. unfold chars, ftoks. rewrite !map_map. apply map_ext. intros [c|c]; reflexivity. Qed.
  Lemma plain_map s : map Plain (map f s) = ftoks (map Plain s).
  Proof. unfold ftoks. now rewrite !map_map. Qed.
  Lemma nl_map ts : nl (ftoks ts) = nl ts.
  Proof. unfold nl. now rewrite chars_map, newlines_map. Qed.
  Lemma open_map v t : is_open_tok v (ftok t) = is_open_tok v t.
  Proof. destruct t; [|reflexivity]. apply f_mark, open_mark. Qed.
  Lemma close_map v t : is_close_tok v (ftok t) = is_close_tok v t.
  Proof. destruct t; [|reflexivity]. apply f_mark, close_mark. Qed.
  Lemma ftok_open v : ftok (Plain (open1 v)) = Plain (open1 v). Proof. cbn. now rewrite (f_fix _ (open_mark v)). Qed.
  Lemma ftok_close v : ftok (Plain (close1 v)) = Plain (close1 v). Proof. cbn. now rewrite (f_fix _ (close_mark v)). Qed.
  Lemma run_map v ts : forall d, run_depth v d (ftoks ts) = run_depth v d ts.
  Proof.
    induction ts as [|t ts IH]; intros d; [reflexivity|]. cbn [ftoks map run_depth]. fold (ftoks ts). rewrite open_map, close_map.
    destruct (is_open_tok v t); [apply IH|]. destruct (is_close_tok v t); [destruct d; [reflexivity|apply IH]|apply IH].
  Qed.
  Lemma balanced_map v ts : balanced v (ftoks ts) <-> balanced v ts.
  Proof. rewrite <- !run_depth_balanced, run_map. reflexivity. Qed.
  Lemma drop_map v ts : drop_own v (ftoks ts) = ftoks (drop_own v ts).
  Proof.
    unfold drop_own, ftoks. induction ts as [|t ts IH]; [reflexivity|]. cbn [map filter]. rewrite open_map, close_map.
    destruct (negb (is_open_tok v t || is_close_tok v t)); cbn [map]; rewrite IH; reflexivity.
  Qed.
  Lemma never_map v ts : never_closed v ts -> never_closed v (ftoks ts).
  Proof.
    intros H body rest E Hb. unfold ftoks in E. apply map_eq_app in E as (b & r & -> & <- & E2). apply map_eq_cons in E2 as (t & r' & -> & Et & _).
    destruct t as [c|c]; [|discriminate]. injection Et as Ec. apply f_eq in Ec; [|apply close_mark]. subst c.
    apply (H b r' eq_refl). now apply balanced_map.
  Qed.
  Lemma text_map t : is_text_tok (ftok t) = is_text_tok t.
  Proof. destruct t; [|reflexivity]. cbn. now rewrite f_opening. Qed.
  Lemma texts_map run : forallb is_text_tok (ftoks run) = forallb is_text_tok run.
  Proof. induction run as [|t run IH]; [reflexivity|]. cbn [ftoks map forallb]. fold (ftoks run). now rewrite text_map, IH. Qed.
  Lemma next_map rest : match rest with [] => True | t :: _ => is_text_tok t = false end ->
    match ftoks rest with [] => True | t :: _ => is_text_tok t = false end.
  Proof. destruct rest as [|t rest]; [auto|]. cbn. now rewrite text_map. Qed.
  Lemma tchar_map t : tchar (ftok t) = f (tchar t). Proof. now destruct t. Qed.
  Lemma ws_map ws : forallb (fun t => is_whitespace (tchar t)) (ftoks ws) = forallb (fun t => is_whitespace (tchar t)) ws.
  Proof. induction ws as [|t ws IH]; [reflexivity|]. cbn [ftoks map forallb]. fold (ftoks ws). now rewrite tchar_map, f_ws, IH. Qed.
  Lemma labels_map lab : forallb is_label_char (map f lab) = forallb is_label_char lab.
  Proof. induction lab as [|c lab IH]; [reflexivity|]. cbn [map forallb]. now rewrite f_label, IH. Qed.
  Lemma follow_map b ws rest : follow_ok b (ftoks ws) (ftoks rest) = follow_ok b ws rest.
  Proof.
    destruct rest as [|t rest]; [reflexivity|]. cbn [ftoks map follow_ok]. rewrite !tchar_map, f_ws, f_opening. unfold ftoks. rewrite is_empty_map.
    destruct t; cbn [ftok]; [now rewrite f_closing|reflexivity].
  Qed.
  Lemma opened_map o v : tchar o = open1 v -> tchar (ftok o) = open1 v.
  Proof. intros H. rewrite tchar_map, H. apply f_fix, open_mark. Qed.
  Lemma ftoks_app a b : ftoks (a ++ b) = ftoks a ++ ftoks b. Proof. apply map_app. Qed.
  Lemma ftoks_nil_iff ws : ws <> [] -> ftoks ws <> []. Proof. now destruct ws. Qed.
  Lemma args_empty_map args : is_empty (rename_args1 f args) = is_empty args. Proof. now destruct args. Qed.
  Lemma rename_command lab args : rename_command1 f (mkCommand1 lab args) = mkCommand1 (map f lab) (rename_args1 f args). Proof. reflexivity. Qed.

  Lemma ftoks_plain c ts : ftoks (Plain c :: ts) = Plain (f c) :: ftoks ts. Proof. reflexivity. Qed.
  Lemma ftoks_close v body rest : ftoks (body ++ Plain (close1 v) :: rest) = ftoks body ++ Plain (close1 v) :: ftoks rest.
  Proof. rewrite ftoks_app, ftoks_plain. now rewrite (f_fix _ (close_mark v)). Qed.
  Lemma ftoks_scope v body rest : ftoks (Plain (open1 v) :: body ++ Plain (close1 v) :: rest) = Plain (open1 v) :: ftoks body ++ Plain (close1 v) :: ftoks rest.
  Proof. rewrite ftoks_plain, ftoks_close. now rewrite (f_fix _ (open_mark v)). Qed.
  Lemma ftoks_arg pre o v body rest : ftoks (pre ++ o :: body ++ Plain (close1 v) :: rest) = ftoks pre ++ ftok o :: ftoks body ++ Plain (close1 v) :: ftoks rest.
  Proof. rewrite ftoks_app. f_equal. change (ftoks (o :: body ++ Plain (close1 v) :: rest)) with (ftok o :: ftoks (body ++ Plain (close1 v) :: rest)). now rewrite ftoks_close. Qed.

  Lemma parses_map_both :
    (forall L ts d, parses L ts d -> parses L (ftoks ts) (rename1 f d)) /\
    (forall ts args, parses_args ts args -> parses_args (ftoks ts) (rename_args1 f args)).
  Proof.
    apply parses_parses_args_ind.
    - constructor.
    - intros L run rest cs Hne Ht Hn Hp IH. rewrite ftoks_app.
      change (rename1 f (mkChunk1 L (Text1 (chars run)) :: cs)) with (mkChunk1 L (Text1 (map f (chars run))) :: rename1 f cs).
      rewrite <- chars_map. apply P_text; [now apply ftoks_nil_iff|now rewrite texts_map|now apply next_map|now rewrite nl_map].
    - intros L v body rest inner cs Hb Hi IHi Hr IHr. rewrite ftoks_scope.
      change (rename1 f (mkChunk1 L (Scope1 (mkScope1 inner Curly1)) :: cs)) with (mkChunk1 L (Scope1 (mkScope1 (rename1 f inner) Curly1)) :: rename1 f cs).
      apply P_scope; [now apply balanced_map|exact IHi|now rewrite nl_map].
    - intros L c rest cs Ha Hr IH. cbn [ftoks map ftok]. fold (ftoks rest).
      assert (En : nl [Esc (f c)] = nl [Esc c]) by exact (nl_map [Esc c]).
      change (rename1 f (mkChunk1 (L + nl [Esc c]) (Command1 (mkCommand1 [c] [])) :: cs)) with (mkChunk1 (L + nl [Esc c]) (Command1 (mkCommand1 [f c] [])) :: rename1 f cs).
      rewrite <- En in *. apply P_symbol; [now rewrite f_alpha|exact IH].
    - intros L a lab argtoks args ws rest cs Ha Hl Hargs IHa Hw Hfo Hd Hr IHr.
      change (ftoks (Esc a :: map Plain lab ++ argtoks ++ ws ++ rest)) with (Esc (f a) :: ftoks (map Plain lab ++ argtoks ++ ws ++ rest)).
      rewrite !ftoks_app, <- plain_map.
      change (rename1 f (mkChunk1 L (Command1 (mkCommand1 (a :: lab) args)) :: cs)) with (mkChunk1 L (Command1 (mkCommand1 (f a :: map f lab) (rename_args1 f args))) :: rename1 f cs).
      apply P_command; [now rewrite f_alpha|now rewrite labels_map|exact IHa|now rewrite ws_map|now rewrite args_empty_map, follow_map| |].
      + destruct Hd as [->|Hd]; [now left|right; now apply ftoks_nil_iff].
      + rewrite nl_map, chars_map, plain_map, <- ftoks_app. exact IHr.
    - intros L a lab argtoks args ws Ha Hl Hargs IHa Hw Hne.
      change (ftoks (Esc a :: map Plain lab ++ argtoks ++ ws)) with (Esc (f a) :: ftoks (map Plain lab ++ argtoks ++ ws)).
      rewrite !ftoks_app, <- plain_map.
      change (rename1 f [mkChunk1 L (Command1 (mkCommand1 (a :: lab) args)); mkChunk1 (L + nl argtoks + nl ws) (Text1 (chars ws))])
        with [mkChunk1 L (Command1 (mkCommand1 (f a :: map f lab) (rename_args1 f args))); mkChunk1 (L + nl argtoks + nl ws) (Text1 (map f (chars ws)))].
      rewrite <- chars_map. rewrite <- (nl_map argtoks), <- (nl_map ws).
      apply P_command_eof; [now rewrite f_alpha|now rewrite labels_map|exact IHa|now rewrite ws_map|now apply ftoks_nil_iff].
    - constructor.
    - intros pre o v body inner rest args Hw Ho Hb Hi IHi Hr IHr. rewrite ftoks_arg. change (rename_args1 f ((chars pre, mkScope1 inner v) :: args)) with ((map f (chars pre), mkScope1 (rename1 f inner) v) :: rename_args1 f args).
      rewrite <- chars_map.
      apply PA_cons; [now rewrite ws_map|now apply opened_map|now apply balanced_map|now rewrite drop_map|exact IHr].
  Qed.

  Definition fbodies (bodies : list (sv1 * list token)) := map (fun x : sv1 * list token => (fst x, ftoks (snd x))) bodies.
  Lemma bracketed_map ts bodies : bracketed ts bodies -> bracketed (ftoks ts) (fbodies bodies).
  Proof.
    induction 1 as [|pre o v body rest bodies Hw Ho Hb Hr IH]; [constructor|]. rewrite ftoks_arg.
    change (fbodies ((v, body) :: bodies)) with ((v, ftoks body) :: fbodies bodies).
    apply B_cons; [now rewrite ws_map|now apply opened_map|now apply balanced_map|exact IH].
  Qed.
  Lemma fails_map L ts e : fails L ts e -> fails L (ftoks ts) (rename_error f e).
  Proof.
    destruct parses_map_both as [PM PA].
    induction 1 as [L run rest e Hne Ht Hn Hf' IH|L v ts Hnc|L v body rest e Hb Hi IH|L v body rest inner e Hb Hi Hr IH|L c rest e Ha Hr IH
      |L a lab argtoks bodies pre o v ts Ha Hl Hbr Hw Ho Hnc|L a lab argtoks bodies v rest Ha Hl Hbr
      |L a lab argtoks bodies before v body after inners ws rest e Ha Hl Hbr Eb Hin Hi IH Hw Hfo|L a lab argtoks args ws rest e Ha Hl Hargs Hw Hfo Hne Hr IH].
    - rewrite ftoks_app. apply F_text; [now apply ftoks_nil_iff|now rewrite texts_map|now apply next_map|now rewrite nl_map].
    - cbn [ftoks map]. rewrite ftok_open. apply F_scope_open. now apply never_map.
    - rewrite ftoks_scope. apply (F_scope_inside L v (ftoks body) (ftoks rest) (rename_error f e)); [now apply balanced_map|exact IH].
    - rewrite ftoks_scope.
      apply (F_scope_after L v (ftoks body) (ftoks rest) (rename1 f inner)); [now apply balanced_map|now apply PM|now rewrite nl_map].
    - cbn [ftoks map ftok]. apply F_symbol; [now rewrite f_alpha|]. change (nl [Esc (f c)]) with (nl (ftoks [Esc c])). now rewrite nl_map.
    - change (ftoks (Esc a :: map Plain lab ++ argtoks ++ pre ++ o :: ts)) with (Esc (f a) :: ftoks (map Plain lab ++ argtoks ++ pre ++ o :: ts)).
      rewrite !ftoks_app, <- plain_map. change (ftoks (o :: ts)) with (ftok o :: ftoks ts).
      apply (F_command_open L (f a) (map f lab) (ftoks argtoks) (fbodies bodies) (ftoks pre) (ftok o) v (ftoks ts));
        [now rewrite f_alpha|now rewrite labels_map|now apply bracketed_map|now rewrite ws_map|now apply opened_map|now apply never_map].
    - change (ftoks (Esc a :: map Plain lab ++ argtoks ++ Plain (close1 v) :: rest)) with (Esc (f a) :: ftoks (map Plain lab ++ argtoks ++ Plain (close1 v) :: rest)).
      rewrite !ftoks_app, ftoks_plain, (f_fix _ (close_mark v)), <- plain_map. change (rename_error f (mkError (L + nl argtoks) (UnexpectedClosing v))) with (mkError (L + nl argtoks) (UnexpectedClosing v)).
      rewrite <- (nl_map argtoks). apply (F_command_closing L (f a) (map f lab) (ftoks argtoks) (fbodies bodies) v (ftoks rest)); [now rewrite f_alpha|now rewrite labels_map|now apply bracketed_map].
    - change (ftoks (Esc a :: map Plain lab ++ argtoks ++ ws ++ rest)) with (Esc (f a) :: ftoks (map Plain lab ++ argtoks ++ ws ++ rest)).
      rewrite !ftoks_app, <- plain_map.
      apply (F_command_inside L (f a) (map f lab) (ftoks argtoks) (fbodies bodies) (fbodies before) v (ftoks body) (fbodies after) (map (rename1 f) inners) (ftoks ws) (ftoks rest) (rename_error f e));
        [now rewrite f_alpha|now rewrite labels_map|now apply bracketed_map|subst bodies; unfold fbodies; now rewrite map_app| |rewrite drop_map; exact IH|now rewrite ws_map|now rewrite follow_map].
      clear - Hin PM Hf. induction Hin as [|[v b] inner before inners Hp _ IH]; [constructor|]. constructor; [|exact IH]. cbn [fst snd] in *. rewrite drop_map. now apply PM.
    - change (ftoks (Esc a :: map Plain lab ++ argtoks ++ ws ++ rest)) with (Esc (f a) :: ftoks (map Plain lab ++ argtoks ++ ws ++ rest)).
      rewrite !ftoks_app, <- plain_map.
      apply (F_command_after L (f a) (map f lab) (ftoks argtoks) (rename_args1 f args) (ftoks ws) (ftoks rest) (rename_error f e));
        [now rewrite f_alpha|now rewrite labels_map|now apply PA|now rewrite ws_map|now rewrite args_empty_map, follow_map|now apply ftoks_nil_iff|].
      rewrite nl_map, chars_map, plain_map, <- ftoks_app. exact IH.
  Qed.

  Theorem from_str1_map p q s : source_fits s -> from_str1 q (map f s) = rename_outcome f (rename1 f) (from_str1 p s).
  Proof.
    intros B. assert (B' : source_fits (map f s)) by (unfold source_fits in *; now rewrite map_length).
    destruct (decide (S (length (tokens s))) 1 (tokens s) (Nat.lt_succ_diag_r _)) as [(d & H)|(e & H)].
    - rewrite (proj2 (from_str1_iff p s d B) H). cbn [rename_outcome]. apply (from_str1_iff q _ _ B'). rewrite tokens_map. now apply parses_map_both.
    - rewrite (proj2 (from_str1_fails p s e B) H). cbn [rename_outcome]. apply (from_str1_fails q _ _ B'). rewrite tokens_map. now apply fails_map.
  Qed.
End Respects.
