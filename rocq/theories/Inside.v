(** * Inside: a source written into an environment (C89) *)
From Coq Require Import Lia.
From Verif Require Import Base Ast1 Parse1 Ast2 Ast3 Spec1 SpecDoc1 Tok Pure1 Refine1 Gram1 Facts1 Rules SpecCanon1 Canon1 SpecConcat Concat1 Spec2 SpecInside Properties1 Properties2.
Local Open Scope N_scope.

Lemma ends_tail c d : ends_plainly (c :: d) -> ends_plainly d.
Proof. intros H d0 w l t ->. apply (H (c :: d0) w l t). reflexivity. Qed.
Lemma text_nl_plain ws : nl (map Plain (chars ws)) = nl ws.
Proof. apply nl_plain. Qed.
Lemma then_esc_both c us e : is_whitespace c = false -> is_opening c = false ->
  (forall L ts d, parses L ts d -> ends_plainly d -> parses (L + nl ts) (Esc c :: us) e -> parses L (ts ++ Esc c :: us) (d ++ e)) /\
  (forall ts args, parses_args ts args -> True).
Proof.
  intros Hc Ho. apply parses_parses_args_ind; try (intros; exact I).
  - intros L _ H. change (nl []) with 0 in H. rewrite N.add_0_r in H. exact H.
  - intros L run rest cs Hne Hrun Hrest Hp IH Hs He. rewrite nl_app, N.add_assoc in He. specialize (IH (ends_tail _ _ Hs) He).
    cbn [app]. rewrite <- app_assoc. apply P_text; auto. destruct rest; [reflexivity|exact Hrest].
  - intros L v body rest inner cs Hb Hi _ Hp IH Hs He.
    rewrite nl_cons_plain, nl_app, nl_cons_plain, nl_open, nl_close in He. rewrite !N.add_0_l, N.add_assoc in He.
    specialize (IH (ends_tail _ _ Hs) He). cbn [app]. rewrite <- app_assoc. cbn [app]. now apply P_scope.
  - intros L c0 rest cs Ha Hp IH Hs He. change (Esc c0 :: rest) with ([Esc c0] ++ rest) in He. rewrite nl_app, N.add_assoc in He.
    specialize (IH (ends_tail _ _ Hs) He). cbn [app]. now apply P_symbol.
  - intros L a lab argtoks args ws rest cs Ha Hl Hargs _ Hws Hf Hor Hp IH Hs He.
    rewrite nl_cons_esc, (nl_alpha a Ha), !nl_app, nl_label, !N.add_0_l in He by exact Hl.
    specialize (IH (ends_tail _ _ Hs)). rewrite nl_app, nl_plain in IH. rewrite <- !N.add_assoc in IH. specialize (IH He).
    cbn [app]. rewrite <- !app_assoc. cbn [app]. apply P_command; auto.
    + destruct rest as [|r rest]; [|exact Hf]. cbn. now rewrite Hc, Ho.
    + right. destruct rest; discriminate.
    + rewrite <- app_assoc in IH. exact IH.
  - intros L a lab argtoks args ws Ha Hl Hargs _ Hws Hne Hs He.
    rewrite nl_cons_esc, (nl_alpha a Ha), !nl_app, nl_label, !N.add_0_l in He by exact Hl.
    assert (Z : nl ws = 0).
    { destruct (N.eq_dec (nl ws) 0) as [Z|Z]; [exact Z|exfalso]. specialize (Hs [] _ _ _ eq_refl). cbn in Hs. rewrite Ha in Hs.
      assert (true = false) by (apply Hs; [now apply ws_chars|exact Z]). discriminate. }
    rewrite Z, N.add_0_r in *. cbn [app]. rewrite <- !app_assoc. cbn [app]. apply P_command; auto.
    + cbn. now rewrite Hc, Ho.
    + right; discriminate.
    + assert (X : chars (map Plain (chars ws)) = chars ws) by (unfold chars; rewrite map_map; apply map_id).
      rewrite <- X at 2. apply P_text.
      * destruct ws; [congruence|discriminate].
      * clear - Hws. induction ws as [|z ws IHw]; [reflexivity|]. cbn [forallb] in Hws. apply andb_true_iff in Hws as [H1 H2]. unfold chars in *. cbn [map forallb]. rewrite (IHw H2), andb_true_r.
        cbn [is_text_tok]. destruct (is_opening (tchar z)) eqn:E; [|reflexivity].
        exfalso. unfold is_opening in E. rewrite !orb_true_iff, !N.eqb_eq in E. destruct E as [[E|E]|E]; rewrite E in H1; discriminate H1.
      * reflexivity.
      * rewrite nl_plain, Z, N.add_0_r. exact He.
Qed.
