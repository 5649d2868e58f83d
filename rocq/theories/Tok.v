(** * Tok: facts about the lexer of Spec1.v *)
From Verif Require Import Base Ast1 Parse1 Spec1.

Arguments N.add : simpl never.
Arguments N.sub : simpl never.
Arguments N.mul : simpl never.
Arguments N.eqb : simpl never.

Lemma count_newlines_nil : count_newlines [] = 0.
Proof. reflexivity. Qed.
Lemma count_newlines_cons c s :
  count_newlines (c :: s) = (if c =? c_newline then 1 else 0) + count_newlines s.
Proof. unfold count_newlines. cbn [filter]. destruct (c =? c_newline); cbn [length]; lia. Qed.
Lemma count_newlines_app a b : count_newlines (a ++ b) = count_newlines a + count_newlines b.
Proof. unfold count_newlines. rewrite filter_app, app_length. lia. Qed.
Lemma count_newlines_le s : count_newlines s <= N.of_nat (length s).
Proof. induction s as [|c s IH]; [cbn; lia|]. rewrite count_newlines_cons. cbn [length]. destruct (_ =? _); lia. Qed.

Lemma nl_nil : nl [] = 0. Proof. reflexivity. Qed.
Lemma nl_cons t ts : nl (t :: ts) = nl [t] + nl ts.
Proof. unfold nl, chars. cbn [map]. rewrite !count_newlines_cons, count_newlines_nil. lia. Qed.
Lemma nl_app a b : nl (a ++ b) = nl a + nl b.
Proof. unfold nl, chars. rewrite map_app. apply count_newlines_app. Qed.
Lemma nl_single t : nl [t] = if tchar t =? c_newline then 1 else 0.
Proof. unfold nl, chars. cbn [map]. rewrite count_newlines_cons, count_newlines_nil. destruct (_ =? _); lia. Qed.

Lemma chars_app a b : chars (a ++ b) = chars a ++ chars b.
Proof. apply map_app. Qed.
Lemma untoks_app a b : untoks (a ++ b) = untoks a ++ untoks b.
Proof. unfold untoks. rewrite map_app. apply concat_app. Qed.
Lemma untoks_cons t b : untoks (t :: b) = untok t ++ untoks b.
Proof. reflexivity. Qed.
Lemma chars_map_plain s : chars (map Plain s) = s.
Proof. unfold chars. rewrite map_map. cbn. apply map_id. Qed.
Lemma untoks_map_plain s : untoks (map Plain s) = s.
Proof. induction s as [|c s IH]; [reflexivity|]. cbn [map]. rewrite untoks_cons, IH. reflexivity. Qed.
Lemma nl_map_plain s : nl (map Plain s) = count_newlines s.
Proof. unfold nl. now rewrite chars_map_plain. Qed.

Lemma count_newlines_untoks ts : count_newlines (untoks ts) = nl ts.
Proof.
  induction ts as [|t ts IH]; [reflexivity|].
  rewrite untoks_cons, count_newlines_app, IH, (nl_cons t), nl_single.
  destruct t as [c|c]; cbn [untok tchar]; rewrite !count_newlines_cons, count_newlines_nil.
  - destruct (c =? c_newline); lia.
  - change (c_bslash =? c_newline) with false. destruct (c =? c_newline); lia.
Qed.

Lemma length_untoks_le ts : (length ts <= length (untoks ts))%nat.
Proof.
  induction ts as [|t ts IH]; [cbn; lia|].
  rewrite untoks_cons, app_length. destruct t; cbn [untok length] in *; lia.
Qed.
Lemma length_chars ts : length (chars ts) = length ts.
Proof. apply map_length. Qed.

(** Lexing yields well-formed tokens, keeps newlines, never lengthens *)
Lemma lex_wf e m s : Forall wf_token (lex e m s).
Proof.
  revert e m; induction s as [|c s IH]; intros e m; cbn [lex]; [constructor|].
  destruct (c =? c_newline) eqn:E1.
  { constructor; [|apply IH]. apply N.eqb_eq in E1; subst c. destruct e; cbn; [exact I|split; discriminate]. }
  destruct ((c =? c_percent) && negb e) eqn:E2; [apply IH|].
  destruct ((c =? c_bslash) && negb e) eqn:E3; [apply IH|].
  destruct m; [apply IH|].
  constructor; [|apply IH].
  destruct e; cbn; [exact I|].
  rewrite andb_true_r in E2, E3. apply N.eqb_neq in E2, E3. auto.
Qed.
Lemma tokens_wf s : Forall wf_token (tokens s).
Proof. apply lex_wf. Qed.

Lemma lex_nl e m s : nl (lex e m s) = count_newlines s.
Proof.
  revert e m; induction s as [|c s IH]; intros e m; cbn [lex]; [reflexivity|].
  rewrite count_newlines_cons.
  destruct (c =? c_newline) eqn:E1.
  { rewrite nl_cons, nl_single, IH. destruct e; cbn [tchar]; rewrite E1; reflexivity. }
  destruct ((c =? c_percent) && negb e) eqn:E2; [rewrite IH; lia|].
  destruct ((c =? c_bslash) && negb e) eqn:E3; [rewrite IH; lia|].
  destruct m; [rewrite IH; lia|].
  rewrite nl_cons, nl_single, IH. destruct e; cbn [tchar]; rewrite E1; reflexivity.
Qed.
Lemma tokens_nl s : nl (tokens s) = count_newlines s.
Proof. apply lex_nl. Qed.

Lemma lex_length e m s :
  (length (untoks (lex e m s)) <= (if e then 1 else 0) + length s)%nat.
Proof.
  revert e m; induction s as [|c s IH]; intros e m; cbn [lex]; [cbn; lia|].
  destruct (c =? c_newline) eqn:E1.
  { rewrite untoks_cons, app_length. specialize (IH false false). destruct e; cbn [untok length] in *; lia. }
  destruct ((c =? c_percent) && negb e) eqn:E2.
  { specialize (IH e true). destruct e; cbn [length] in *; lia. }
  destruct ((c =? c_bslash) && negb e) eqn:E3.
  { apply andb_prop in E3 as [_ E3]. destruct e; [discriminate|].
    specialize (IH true m). cbn [length] in *. lia. }
  destruct m. { specialize (IH e true). destruct e; cbn [length] in *; lia. }
  rewrite untoks_cons, app_length. specialize (IH false false). destruct e; cbn [untok length] in *; lia.
Qed.
Lemma tokens_length s : (length (untoks (tokens s)) <= length s)%nat.
Proof. apply (lex_length false false). Qed.

(** The source text of well-formed tokens lexes back to them *)
Lemma lex_untoks ts : Forall wf_token ts -> forall rest,
  lex false false (untoks ts ++ rest) = ts ++ lex false false rest.
Proof.
  induction 1 as [|t ts Ht Hts IH]; intros rest; [reflexivity|].
  rewrite untoks_cons, <- app_assoc.
  destruct t as [c|c]; cbn [untok app lex].
  - destruct Ht as [H1 H2]. apply N.eqb_neq in H1, H2. rewrite H1, H2, IH.
    destruct (c =? c_newline); reflexivity.
  - change (c_bslash =? c_newline) with false. change (c_bslash =? c_percent) with false.
    change (c_bslash =? c_bslash) with true. cbn [andb negb].
    rewrite !andb_false_r, IH. destruct (c =? c_newline); reflexivity.
Qed.
Lemma tokens_untoks ts : Forall wf_token ts -> tokens (untoks ts) = ts.
Proof.
  intros H. unfold tokens. rewrite <- (app_nil_r (untoks ts)), lex_untoks by exact H.
  cbn. apply app_nil_r.
Qed.
