(** * Inside4: the frame of a plain name (C89) *)
From Coq Require Import Lia.
From Verif Require Import Base Ast1 Parse1 Ast2 Spec1 SpecDoc1 SpecCanon1 Canon1 SpecConcat Spec2 SpecClass3 SpecInside Gram1 Concat1 Facts1 Tok Properties1 Properties2 Inside Inside2.
Local Open Scope N_scope.

Lemma special_split c e : existsb special (c :: e) = false -> (c =? c_bslash) = false /\ (c =? c_percent) = false /\ is_opening c = false /\ is_closing c = false /\ existsb special e = false.
Proof.
  cbn [existsb]. intros H. apply orb_false_iff in H as [H1 H2]. unfold special in H1. cbn in H1. rewrite !orb_false_iff, !N.eqb_neq in H1. unfold is_opening, is_closing.
  rewrite !orb_false_iff, !N.eqb_neq. cbn. intuition.
Qed.
Lemma lex_plain e : forall r, existsb special e = false -> lex false false (e ++ r) = map Plain e ++ lex false false r.
Proof.
  induction e as [|c e IH]; intros r H; [reflexivity|]. destruct (special_split _ _ H) as (A & B & _ & _ & H'). cbn [app lex map]. rewrite A, B. cbn [andb negb]. rewrite (IH r H'). now destruct (c =? c_newline).
Qed.
Lemma plain_body e : existsb special e = false -> balanced Curly1 (map Plain e) /\ forallb is_text_tok (map Plain e) = true.
Proof.
  induction e as [|c e IH]; [split; [constructor|reflexivity]|]. intros H. destruct (special_split _ _ H) as (_ & _ & O & C & H'). destruct (IH H') as [I1 I2]. split.
  - cbn [map]. apply bal_tok; [| |exact I1]; cbn; unfold is_opening, is_closing in *; rewrite !orb_false_iff in *; tauto.
  - cbn. now rewrite O, I2.
Qed.
Lemma plain_drop e : existsb special e = false -> drop_own Curly1 (map Plain e) = map Plain e.
Proof.
  induction e as [|c e IH]; [reflexivity|]. intros H. destruct (special_split _ _ H) as (_ & _ & O & C & H'). unfold drop_own in *. cbn [map filter]. rewrite (IH H').
  assert (X : is_open_tok Curly1 (Plain c) || is_close_tok Curly1 (Plain c) = false). { cbn. unfold is_opening, is_closing in *; rewrite !orb_false_iff in *; tauto. }
  now rewrite X.
Qed.
Lemma chars_plain e : chars (map Plain e) = e.
Proof. unfold chars. rewrite map_map. apply map_id. Qed.
Lemma inner_plain e : plain_name e -> parses 1 (map Plain e) [mkChunk1 1 (Text1 e)].
Proof.
  intros [N H]. destruct (plain_body e H) as [_ T]. rewrite <- (app_nil_r (map Plain e)). rewrite <- (chars_plain e) at 2. apply P_text; [|exact T|exact I|constructor].
  destruct e; [congruence|discriminate].
Qed.
Lemma word_plain p a w e : source_fits (c_bslash :: a :: w ++ S! "{" ++ e ++ S! "}") -> plain_name e -> is_ascii_alphabetic a = true -> existsb special (a :: w) = false ->
  forallb is_label_char w = true ->
  from_str1 p (c_bslash :: a :: w ++ S! "{" ++ e ++ S! "}") = Ok [mkChunk1 1 (Command1 (mkCommand1 (a :: w) [([], mkScope1 [mkChunk1 1 (Text1 e)] Curly1)]))].
Proof.
  intros B P A S L. apply (from_str1_iff p _ _ B). destruct (special_split _ _ S) as (A1 & A2 & _ & _ & S'). destruct P as [N H]. destruct (plain_body e H) as [Bl _].
  assert (T : tokens (c_bslash :: a :: w ++ S! "{" ++ e ++ S! "}") = Esc a :: map Plain w ++ ([] ++ Plain c_lcurly :: map Plain e ++ Plain (close1 Curly1) :: []) ++ [] ++ []).
  { unfold tokens. cbn [lex]. change (c_bslash =? c_newline) with false. change (c_bslash =? c_percent) with false. change (c_bslash =? c_bslash) with true. cbn [andb negb lex].
    assert (Nn : (a =? c_newline) = false). { apply N.eqb_neq. intros ->. discriminate A. }
    rewrite Nn, A1, A2. cbn [andb negb]. rewrite (lex_plain w _ S'). rewrite !app_nil_r. cbn [app]. f_equal. f_equal. cbn [lex c_lcurly]. change (S! "{" ++ e ++ S! "}") with (c_lcurly :: e ++ S! "}"). cbn [lex]. change (c_lcurly =? c_newline) with false. change (c_lcurly =? c_percent) with false. change (c_lcurly =? c_bslash) with false. cbn [andb negb].
    rewrite (lex_plain e _ H). reflexivity. }
  rewrite T. apply P_command; auto.
  - apply PA_cons with (o := Plain c_lcurly) (v := Curly1) (args := []); [reflexivity|reflexivity|exact Bl| |constructor]. rewrite (plain_drop e H). apply inner_plain. now split.
  - constructor.
Qed.
Lemma scan_plain e : forall r, existsb special e = false -> scan false false (e ++ r) = scan false false r.
Proof.
  induction e as [|c e IH]; intros r H; [reflexivity|]. destruct (special_split _ _ H) as (A & B & _ & _ & H'). cbn [app scan]. rewrite A, B, (IH r H'). now destruct (c =? c_newline).
Qed.
Theorem named_frame e : plain_name e -> source_fits ((S! "\begin{" ++ e ++ S! "}") ++ (S! "\end{" ++ e ++ S! "}")) ->
  environment_frame (S! "\begin{" ++ e ++ S! "}") (S! "\end{" ++ e ++ S! "}") (1 + count_newlines e) (mkEnv2 e [] [] [] []).
Proof.
  intros P B. set (b := S! "\begin{" ++ e ++ S! "}") in *. set (t := S! "\end{" ++ e ++ S! "}") in *. destruct (fits_app _ _ B) as [Bb Bt].
  assert (Hb : from_str1 Debug b = Ok [begin_cmd 1 [] [mkChunk1 1 (Text1 e)] []]) by exact (word_plain Debug 98 (S! "egin") e Bb P eq_refl eq_refl eq_refl).
  assert (Ht : from_str1 Debug t = Ok [end_cmd 1 [] [mkChunk1 1 (Text1 e)]]) by exact (word_plain Debug 101 (S! "nd") e Bt P eq_refl eq_refl eq_refl).
  assert (Cb : clean_end b). { unfold clean_end, b. change (scan false false (S! "\begin{" ++ e ++ S! "}")) with (scan false false (e ++ S! "}")). rewrite (scan_plain e _ (proj2 P)). reflexivity. }
  split; [exact Cb|]. split; [|exists 1, [], [mkChunk1 1 (Text1 e)], [], 1, []; split; [exact Hb|exact Ht]].
  assert (X : from_str1 Debug (b ++ t) = Ok [begin_cmd 1 [] [mkChunk1 1 (Text1 e)] []; end_cmd (1 + count_newlines b) [] [mkChunk1 1 (Text1 e)]]).
  { apply (then_end Debug Debug Debug b t [begin_cmd 1 [] [mkChunk1 1 (Text1 e)] []] 1 101 (S! "nd") _ B Cb eq_refl Hb Ht). intros d0 w l u E. destruct d0 as [|? [|? ?]]; discriminate. }
  unfold from_str2. rewrite X. cbn [bind].
  match type of X with _ = Ok ?x => assert (Px : parsed x) by (exists Debug, (b ++ t); split; [exact B|exact X]); apply (C42_conversion Debug x _ Px) end.
  rewrite <- (app_nil_r e) at 4. change (e ++ []) with (show1 [mkChunk1 1 (Text1 e)]).
  apply cs_env with (body := []) (d := []) (args := []); [|constructor|constructor|constructor].
  cbn. rewrite !app_nil_r. change (c_lcurly :: e ++ [c_rcurly]) with ([c_lcurly] ++ e ++ [c_rcurly]). rewrite !count_newlines_app. change (count_newlines [c_lcurly]) with 0. change (count_newlines [c_rcurly]) with 0. lia.
Qed.
