(** * Edit: replacing the contents of one chunk, at any depth *)
From Verif Require Import Base Ast1 Parse1 Ast2 Ast3 Api Spec1 SpecDoc1 SpecDoc2 SpecDoc3 SpecEdit Tok Pure1 Refine1 Gram1 Ind Lines Facts1 Valid1 Valid2 Valid3.

Lemma iterM_mid {E A} (f : A -> outcome E unit) a x b : Forall (fun z => f z = Ok tt) a -> Forall (fun z => f z = Ok tt) b ->
  iterM f (a ++ x :: b) = f x.
Proof.
  intros Ha Hb. induction Ha as [|z a Hz _ IH]; cbn [app iterM].
  - apply iterM_ok in Hb. destruct (f x) as [[]|e| |]; cbn [bind]; congruence.
  - rewrite Hz. exact IH.
Qed.
Lemma bind_unit {E} (r : outcome E unit) : (let* _ := r in Ok tt) = r.
Proof. now destruct r as [[]|e| |]. Qed.

(** ** Stage 1 *)
Lemma changed1_show v w x y : changed1 v w x y ->
  exists A B, show_variant1 x = A ++ show_variant1 v ++ B /\ show_variant1 y = A ++ show_variant1 w ++ B.
Proof.
  induction 1 as [|x y a l l' b k H (A & B & E1 & E2)|x y lab s prec t a l l' b k H (A & B & E1 & E2)].
  - exists [], []. now rewrite !app_nil_r.
  - exists (open1 k :: concat (map show_chunk1 a) ++ A), (B ++ concat (map show_chunk1 b) ++ [close1 k]).
    cbn [show_variant1 show_scope1]. rewrite !map_app, !concat_app. cbn [map concat show_chunk1]. rewrite E1, E2.
    split; cbn [app]; rewrite <- !app_assoc; reflexivity.
  - exists (c_bslash :: lab ++ concat (map (fun a => match a with (pre, sc) => pre ++ show_scope1 sc end) s) ++ prec ++ open1 k :: concat (map show_chunk1 a) ++ A),
      (B ++ concat (map show_chunk1 b) ++ [close1 k] ++ concat (map (fun a => match a with (pre, sc) => pre ++ show_scope1 sc end) t)).
    cbn [show_variant1 show_command1]. rewrite !map_app, !concat_app. cbn [map concat show_scope1]. rewrite !map_app, !concat_app. cbn [map concat show_chunk1]. rewrite E1, E2.
    split; repeat (cbn [app]; rewrite <- ?app_assoc); reflexivity.
Qed.
Lemma changed1_validate v w x y : changed1 v w x y -> validate_variant1 x = Ok tt ->
  validate_variant1 v = Ok tt /\ validate_variant1 y = validate_variant1 w.
Proof.
  induction 1 as [|x y a l l' b k H IH|x y lab s prec t a l l' b k H IH]; intros V.
  - now split.
  - change (iterM validate_chunk1 (a ++ mkChunk1 l x :: b) = Ok tt) in V. apply iterM_ok, Forall_app in V as [Va V]. inversion_clear V as [|? ? Vx Vb].
    destruct (IH Vx) as [V1 V2]. split; [exact V1|]. rewrite <- V2.
    change (iterM validate_chunk1 (a ++ mkChunk1 l' y :: b) = validate_variant1 y). now rewrite iterM_mid.
  - cbn [validate_variant1 validate_command1] in V |- *. 
    destruct (if str_len lab =? 1 then Ok tt else check_chars lab) as [[]|e| |]; cbn [bind] in V |- *; try discriminate.
    apply iterM_ok, Forall_app in V as [Va V]. inversion_clear V as [|? ? Vx Vb].
    change (iterM validate_chunk1 (a ++ mkChunk1 l x :: b) = Ok tt) in Vx. apply iterM_ok, Forall_app in Vx as [Xa X]. inversion_clear X as [|? ? Xx Xb].
    destruct (IH Xx) as [V1 V2]. split; [exact V1|]. rewrite <- V2. rewrite iterM_mid by assumption.
    change (iterM validate_chunk1 (a ++ mkChunk1 l' y :: b) = validate_variant1 y). now rewrite iterM_mid.
Qed.
Lemma from1_app p a : forall L b, L + count_newlines (show1 a) < two32 -> 1 <= L -> lines_from1 L a -> Forall ok1 a ->
  validate_from1 p L (a ++ b) = validate_from1 p (L + count_newlines (show1 a)) b.
Proof.
  induction a as [|c a IH]; intros L b B H1 HL HO; cbn [app validate_from1].
  - change (count_newlines (show1 [])) with 0. now rewrite N.add_0_r.
  - apply lines_from1_cons in HL as [E HL]. inversion_clear HO as [|? ? Oc Oa]. rewrite show1_cons, count_newlines_app in B |- *.
    rewrite E, N.eqb_refl. cbn [negb]. unfold ok1 in Oc. rewrite Oc. cbn [bind].
    rewrite lines_ok1 by lia. cbn [bind]. rewrite sub32_ok by lia. cbn [bind]. rewrite add32_ok by lia. cbn [bind].
    replace (L + (1 + count_newlines (show_chunk1 c) - 1)) with (L + count_newlines (show_chunk1 c)) by lia.
    rewrite IH by (assumption || lia). f_equal. lia.
Qed.
Lemma lines_from1_app L a b : lines_from1 L (a ++ b) <-> lines_from1 L a /\ lines_from1 (L + count_newlines (show1 a)) b.
Proof.
  revert L. induction a as [|c a IH]; intros L; cbn [app].
  - change (count_newlines (show1 [])) with 0. rewrite N.add_0_r. split; [intros H; split; [|exact H]|now intros []].
    intros pre c post E. now destruct pre.
  - rewrite !lines_from1_cons, IH, show1_cons, count_newlines_app, N.add_assoc. tauto.
Qed.
(** numbering from elsewhere *)
Lemma lines_from1_eq L L' b : b <> [] -> lines_from1 L b -> lines_from1 L' b -> L = L'.
Proof. destruct b as [|c b]; [congruence|]. intros _ A B. apply lines_from1_cons in A as [A _]. apply lines_from1_cons in B as [B _]. congruence. Qed.

Lemma edit1 p a l x b v w y : changed1 v w x y ->
  1 + count_newlines (show1 (a ++ mkChunk1 l x :: b)) < two32 -> 1 + count_newlines (show1 (a ++ mkChunk1 l y :: b)) < two32 ->
  validate_from1 p 1 (a ++ mkChunk1 l x :: b) = Ok tt ->
  validate_from1 p 1 (a ++ mkChunk1 l y :: b) =
  match validate_variant1 w with
  | Ok _ => match b with
            | [] => Ok tt
            | c :: _ => if count_newlines (show_variant1 w) =? count_newlines (show_variant1 v) then Ok tt
                        else Err (IncorrectChunkLineNumber (line_no1 c + count_newlines (show_variant1 w) - count_newlines (show_variant1 v)) (line_no1 c))
            end
  | r => r
  end.
Proof.
  intros C B1 B2 V. apply validate_from1_ok in V as [HL HO]; [|lia|lia].
  apply lines_from1_app in HL as [La HL]. apply lines_from1_cons in HL as [El Lb]. apply Forall_app in HO as [Oa HO]. inversion_clear HO as [|? ? Ox Ob].
  cbn [line_no1] in El. rewrite show1_app, show1_cons, !count_newlines_app in B1, B2.
  change (validate_variant1 x = Ok tt) in Ox. destruct (changed1_validate v w x y C Ox) as [Vv Vy]. destruct (changed1_show _ _ _ _ C) as (A & Z & E1 & E2).
  assert (N1 : count_newlines (show_variant1 x) + count_newlines (show_variant1 w) = count_newlines (show_variant1 y) + count_newlines (show_variant1 v)) by (rewrite E1, E2, !count_newlines_app; lia).
  assert (N2 : count_newlines (show_variant1 v) <= count_newlines (show_variant1 x)) by (rewrite E1, !count_newlines_app; lia).
  change (show_chunk1 (mkChunk1 l x)) with (show_variant1 x) in *. change (show_chunk1 (mkChunk1 l y)) with (show_variant1 y) in *.
  rewrite from1_app by (assumption || lia). cbn [validate_from1 line_no1]. rewrite El, N.eqb_refl. cbn [negb].
  change (validate_chunk1 (mkChunk1 (1 + count_newlines (show1 a)) y)) with (validate_variant1 y). rewrite Vy. destruct (validate_variant1 w) as [[]|e| |]; cbn [bind]; try reflexivity.
  change (show_chunk1 (mkChunk1 (1 + count_newlines (show1 a)) y)) with (show_variant1 y).
  rewrite lines_ok1 by (change (show_chunk1 (mkChunk1 (1 + count_newlines (show1 a)) y)) with (show_variant1 y); lia).
  change (show_chunk1 (mkChunk1 (1 + count_newlines (show1 a)) y)) with (show_variant1 y). cbn [bind]. rewrite sub32_ok by lia. cbn [bind]. rewrite add32_ok by lia. cbn [bind].
  replace (1 + count_newlines (show1 a) + (1 + count_newlines (show_variant1 y) - 1)) with (1 + count_newlines (show1 a) + count_newlines (show_variant1 y)) by lia.
  destruct b as [|c b]; [reflexivity|].
  destruct (N.eqb_spec (count_newlines (show_variant1 w)) (count_newlines (show_variant1 v))) as [EN|EN].
  - apply validate_from1_ok; [lia|lia|]. split; [|exact Ob]. replace (count_newlines (show_variant1 y)) with (count_newlines (show_variant1 x)) by lia. exact Lb.
  - apply lines_from1_cons in Lb as [Ec _]. cbn [validate_from1]. rewrite Ec.
    destruct (N.eqb_spec (1 + count_newlines (show1 a) + count_newlines (show_variant1 x)) (1 + count_newlines (show1 a) + count_newlines (show_variant1 y))); [lia|]. cbn [negb].
    f_equal. f_equal. lia.
Qed.
(** a wrong number on one of the chunks themselves *)
Lemma renumber1 p a l n x b : 1 + count_newlines (show1 (a ++ mkChunk1 l x :: b)) < two32 ->
  validate_from1 p 1 (a ++ mkChunk1 l x :: b) = Ok tt ->
  validate_from1 p 1 (a ++ mkChunk1 n x :: b) = if n =? l then Ok tt else Err (IncorrectChunkLineNumber l n).
Proof.
  intros B V. destruct (N.eqb_spec n l) as [->|NE]; [exact V|]. apply validate_from1_ok in V as [HL HO]; [|lia|lia].
  apply lines_from1_app in HL as [La HL]. apply lines_from1_cons in HL as [El Lb]. apply Forall_app in HO as [Oa HO].
  rewrite show1_app, show1_cons, !count_newlines_app in B. rewrite from1_app by (assumption || lia). cbn [validate_from1 line_no1] in *. rewrite <- El.
  destruct (N.eqb_spec n l); [contradiction|reflexivity].
Qed.

(** ** Stage 2 *)
Lemma changed2_show v w x y : changed2 v w x y ->
  exists A B, show_variant2 x = A ++ show_variant2 v ++ B /\ show_variant2 y = A ++ show_variant2 w ++ B.
Proof.
  induction 1 as [|x y a l l' b k H (A & B & E1 & E2)|x y lab s prec t a l l' b k H (A & B & E1 & E2)|x y lab s prec t a l l' b k cs pb pe H (A & B & E1 & E2)|x y lab args a l l' b pb pe H (A & B & E1 & E2)].
  - exists [], []. now rewrite !app_nil_r.
  - exists (open2 k :: concat (map show_chunk2 a) ++ A), (B ++ concat (map show_chunk2 b) ++ [close2 k]).
    cbn [show_variant2 show_scope2]. rewrite !map_app, !concat_app. cbn [map concat show_chunk2]. rewrite E1, E2.
    split; cbn [app]; rewrite <- !app_assoc; reflexivity.
  - exists (c_bslash :: lab ++ concat (map (fun a => match a with (pre, sc) => pre ++ show_scope2 sc end) s) ++ prec ++ open2 k :: concat (map show_chunk2 a) ++ A),
      (B ++ concat (map show_chunk2 b) ++ [close2 k] ++ concat (map (fun a => match a with (pre, sc) => pre ++ show_scope2 sc end) t)).
    cbn [show_variant2 show_command2]. rewrite !map_app, !concat_app. cbn [map concat show_scope2]. rewrite !map_app, !concat_app. cbn [map concat show_chunk2]. rewrite E1, E2.
    split; repeat (cbn [app]; rewrite <- ?app_assoc); reflexivity.
  - exists ((c_bslash :: s_begin) ++ pb ++ [c_lcurly] ++ lab ++ [c_rcurly] ++ concat (map (fun a => match a with (pre, sc) => pre ++ show_scope2 sc end) s) ++ prec ++ open2 k :: concat (map show_chunk2 a) ++ A),
      (B ++ concat (map show_chunk2 b) ++ [close2 k] ++ concat (map (fun a => match a with (pre, sc) => pre ++ show_scope2 sc end) t) ++ concat (map show_chunk2 cs) ++ (c_bslash :: s_end) ++ pe ++ [c_lcurly] ++ lab ++ [c_rcurly]).
    cbn [show_variant2 show_env2]. rewrite !map_app, !concat_app. cbn [map concat show_scope2]. rewrite !map_app, !concat_app. cbn [map concat show_chunk2]. rewrite E1, E2.
    split; repeat (cbn [app]; rewrite <- ?app_assoc); reflexivity.
  - exists ((c_bslash :: s_begin) ++ pb ++ [c_lcurly] ++ lab ++ [c_rcurly] ++ concat (map (fun a => match a with (pre, sc) => pre ++ show_scope2 sc end) args) ++ concat (map show_chunk2 a) ++ A),
      (B ++ concat (map show_chunk2 b) ++ (c_bslash :: s_end) ++ pe ++ [c_lcurly] ++ lab ++ [c_rcurly]).
    cbn [show_variant2 show_env2]. rewrite !map_app, !concat_app. cbn [map concat show_chunk2]. rewrite E1, E2.
    split; repeat (cbn [app]; rewrite <- ?app_assoc); reflexivity.
Qed.
Lemma changed2_validate v w x y : changed2 v w x y -> validate_variant2 x = Ok tt ->
  validate_variant2 v = Ok tt /\ validate_variant2 y = validate_variant2 w.
Proof.
  induction 1 as [|x y a l l' b k H IH|x y lab s prec t a l l' b k H IH|x y lab s prec t a l l' b k cs pb pe H IH|x y lab args a l l' b pb pe H IH]; intros V.
  - now split.
  - change (iterM validate_chunk2 (a ++ mkChunk2 l x :: b) = Ok tt) in V. apply iterM_ok, Forall_app in V as [Va V]. inversion_clear V as [|? ? Vx Vb].
    destruct (IH Vx) as [V1 V2]. split; [exact V1|]. rewrite <- V2.
    change (iterM validate_chunk2 (a ++ mkChunk2 l' y :: b) = validate_variant2 y). now rewrite iterM_mid.
  - cbn [validate_variant2 validate_command2] in V |- *. destruct (str_eqb lab s_begin); [discriminate|]. destruct (str_eqb lab s_end); [discriminate|].
    destruct (if str_len lab =? 1 then Ok tt else check_chars lab) as [[]|e| |]; cbn [bind] in V |- *; try discriminate.
    apply iterM_ok, Forall_app in V as [Va V]. inversion_clear V as [|? ? Vx Vb].
    change (iterM validate_chunk2 (a ++ mkChunk2 l x :: b) = Ok tt) in Vx. apply iterM_ok, Forall_app in Vx as [Xa X]. inversion_clear X as [|? ? Xx Xb].
    destruct (IH Xx) as [V1 V2]. split; [exact V1|]. rewrite <- V2. rewrite iterM_mid by assumption.
    change (iterM validate_chunk2 (a ++ mkChunk2 l' y :: b) = validate_variant2 y). now rewrite iterM_mid.
  - cbn [validate_variant2 validate_env2] in V |- *.
    destruct (check_chars lab) as [[]|e| |]; cbn [bind] in V |- *; try discriminate.
    apply seq_bind in V as [V Vc]. rewrite Vc, bind_unit.
    apply iterM_ok, Forall_app in V as [Va V]. inversion_clear V as [|? ? Vx Vb].
    change (iterM validate_chunk2 (a ++ mkChunk2 l x :: b) = Ok tt) in Vx. apply iterM_ok, Forall_app in Vx as [Xa X]. inversion_clear X as [|? ? Xx Xb].
    destruct (IH Xx) as [V1 V2]. split; [exact V1|]. rewrite <- V2. rewrite iterM_mid by assumption.
    change (iterM validate_chunk2 (a ++ mkChunk2 l' y :: b) = validate_variant2 y). now rewrite iterM_mid.
  - cbn [validate_variant2 validate_env2] in V |- *.
    destruct (check_chars lab) as [[]|e| |]; cbn [bind] in V |- *; try discriminate.
    apply seq_bind in V as [V Vc]. rewrite V. cbn [bind].
    apply iterM_ok, Forall_app in Vc as [Xa X]. inversion_clear X as [|? ? Xx Xb].
    destruct (IH Xx) as [V1 V2]. split; [exact V1|]. rewrite <- V2. now rewrite iterM_mid.
Qed.
Lemma from2_app p a : forall L b, L + count_newlines (show2 a) < two32 -> 1 <= L -> lines_from2 L a -> Forall ok2 a ->
  validate_from2 p L (a ++ b) = validate_from2 p (L + count_newlines (show2 a)) b.
Proof.
  induction a as [|c a IH]; intros L b B H1 HL HO; cbn [app validate_from2].
  - change (count_newlines (show2 [])) with 0. now rewrite N.add_0_r.
  - apply lines_from2_cons in HL as [E HL]. inversion_clear HO as [|? ? Oc Oa]. rewrite show2_cons, count_newlines_app in B |- *.
    rewrite E, N.eqb_refl. cbn [negb]. unfold ok2 in Oc. rewrite Oc. cbn [bind].
    rewrite lines_ok2 by lia. cbn [bind]. rewrite sub32_ok by lia. cbn [bind]. rewrite add32_ok by lia. cbn [bind].
    replace (L + (1 + count_newlines (show_chunk2 c) - 1)) with (L + count_newlines (show_chunk2 c)) by lia.
    rewrite IH by (assumption || lia). f_equal. lia.
Qed.
Lemma lines_from2_app L a b : lines_from2 L (a ++ b) <-> lines_from2 L a /\ lines_from2 (L + count_newlines (show2 a)) b.
Proof.
  revert L. induction a as [|c a IH]; intros L; cbn [app].
  - change (count_newlines (show2 [])) with 0. rewrite N.add_0_r. split; [intros H; split; [|exact H]|now intros []].
    intros pre c post E. now destruct pre.
  - rewrite !lines_from2_cons, IH, show2_cons, count_newlines_app, N.add_assoc. tauto.
Qed.
(** numbering from elsewhere *)
Lemma lines_from2_eq L L' b : b <> [] -> lines_from2 L b -> lines_from2 L' b -> L = L'.
Proof. destruct b as [|c b]; [congruence|]. intros _ A B. apply lines_from2_cons in A as [A _]. apply lines_from2_cons in B as [B _]. congruence. Qed.

Lemma edit2 p a l x b v w y : changed2 v w x y ->
  1 + count_newlines (show2 (a ++ mkChunk2 l x :: b)) < two32 -> 1 + count_newlines (show2 (a ++ mkChunk2 l y :: b)) < two32 ->
  validate_from2 p 1 (a ++ mkChunk2 l x :: b) = Ok tt ->
  validate_from2 p 1 (a ++ mkChunk2 l y :: b) =
  match validate_variant2 w with
  | Ok _ => match b with
            | [] => Ok tt
            | c :: _ => if count_newlines (show_variant2 w) =? count_newlines (show_variant2 v) then Ok tt
                        else Err (IncorrectChunkLineNumber (line_no2 c + count_newlines (show_variant2 w) - count_newlines (show_variant2 v)) (line_no2 c))
            end
  | r => r
  end.
Proof.
  intros C B1 B2 V. apply validate_from2_ok in V as [HL HO]; [|lia|lia].
  apply lines_from2_app in HL as [La HL]. apply lines_from2_cons in HL as [El Lb]. apply Forall_app in HO as [Oa HO]. inversion_clear HO as [|? ? Ox Ob].
  cbn [line_no2] in El. rewrite show2_app, show2_cons, !count_newlines_app in B1, B2.
  change (validate_variant2 x = Ok tt) in Ox. destruct (changed2_validate v w x y C Ox) as [Vv Vy]. destruct (changed2_show _ _ _ _ C) as (A & Z & E1 & E2).
  assert (N1 : count_newlines (show_variant2 x) + count_newlines (show_variant2 w) = count_newlines (show_variant2 y) + count_newlines (show_variant2 v)) by (rewrite E1, E2, !count_newlines_app; lia).
  assert (N2 : count_newlines (show_variant2 v) <= count_newlines (show_variant2 x)) by (rewrite E1, !count_newlines_app; lia).
  change (show_chunk2 (mkChunk2 l x)) with (show_variant2 x) in *. change (show_chunk2 (mkChunk2 l y)) with (show_variant2 y) in *.
  rewrite from2_app by (assumption || lia). cbn [validate_from2 line_no2]. rewrite El, N.eqb_refl. cbn [negb].
  change (validate_chunk2 (mkChunk2 (1 + count_newlines (show2 a)) y)) with (validate_variant2 y). rewrite Vy. destruct (validate_variant2 w) as [[]|e| |]; cbn [bind]; try reflexivity.
  change (show_chunk2 (mkChunk2 (1 + count_newlines (show2 a)) y)) with (show_variant2 y).
  rewrite lines_ok2 by (change (show_chunk2 (mkChunk2 (1 + count_newlines (show2 a)) y)) with (show_variant2 y); lia).
  change (show_chunk2 (mkChunk2 (1 + count_newlines (show2 a)) y)) with (show_variant2 y). cbn [bind]. rewrite sub32_ok by lia. cbn [bind]. rewrite add32_ok by lia. cbn [bind].
  replace (1 + count_newlines (show2 a) + (1 + count_newlines (show_variant2 y) - 1)) with (1 + count_newlines (show2 a) + count_newlines (show_variant2 y)) by lia.
  destruct b as [|c b]; [reflexivity|].
  destruct (N.eqb_spec (count_newlines (show_variant2 w)) (count_newlines (show_variant2 v))) as [EN|EN].
  - apply validate_from2_ok; [lia|lia|]. split; [|exact Ob]. replace (count_newlines (show_variant2 y)) with (count_newlines (show_variant2 x)) by lia. exact Lb.
  - apply lines_from2_cons in Lb as [Ec _]. cbn [validate_from2]. rewrite Ec.
    destruct (N.eqb_spec (1 + count_newlines (show2 a) + count_newlines (show_variant2 x)) (1 + count_newlines (show2 a) + count_newlines (show_variant2 y))); [lia|]. cbn [negb].
    f_equal. f_equal. lia.
Qed.
(** a wrong number on one of the chunks themselves *)
Lemma renumber2 p a l n x b : 1 + count_newlines (show2 (a ++ mkChunk2 l x :: b)) < two32 ->
  validate_from2 p 1 (a ++ mkChunk2 l x :: b) = Ok tt ->
  validate_from2 p 1 (a ++ mkChunk2 n x :: b) = if n =? l then Ok tt else Err (IncorrectChunkLineNumber l n).
Proof.
  intros B V. destruct (N.eqb_spec n l) as [->|NE]; [exact V|]. apply validate_from2_ok in V as [HL HO]; [|lia|lia].
  apply lines_from2_app in HL as [La HL]. apply lines_from2_cons in HL as [El Lb]. apply Forall_app in HO as [Oa HO].
  rewrite show2_app, show2_cons, !count_newlines_app in B. rewrite from2_app by (assumption || lia). cbn [validate_from2 line_no2] in *. rewrite <- El.
  destruct (N.eqb_spec n l); [contradiction|reflexivity].
Qed.

(** ** Stage 3 *)
Lemma changed3_show v w x y : changed3 v w x y ->
  exists A B, show_variant3 x = A ++ show_variant3 v ++ B /\ show_variant3 y = A ++ show_variant3 w ++ B.
Proof.
  induction 1 as [|x y a l l' b k H (A & B & E1 & E2)|x y lab s prec t a l l' b k H (A & B & E1 & E2)|x y lab s prec t a l l' b k cs pb pe H (A & B & E1 & E2)|x y lab args a l l' b pb pe H (A & B & E1 & E2)|x y mv mt a l l' b H (A & B & E1 & E2)].
  - exists [], []. now rewrite !app_nil_r.
  - exists (open3 k :: concat (map show_chunk3 a) ++ A), (B ++ concat (map show_chunk3 b) ++ [close3 k]).
    cbn [show_variant3 show_scope3]. rewrite !map_app, !concat_app. cbn [map concat show_chunk3]. rewrite E1, E2.
    split; cbn [app]; rewrite <- !app_assoc; reflexivity.
  - exists (c_bslash :: lab ++ concat (map (fun a => match a with (pre, sc) => pre ++ show_scope3 sc end) s) ++ prec ++ open3 k :: concat (map show_chunk3 a) ++ A),
      (B ++ concat (map show_chunk3 b) ++ [close3 k] ++ concat (map (fun a => match a with (pre, sc) => pre ++ show_scope3 sc end) t)).
    cbn [show_variant3 show_command3]. rewrite !map_app, !concat_app. cbn [map concat show_scope3]. rewrite !map_app, !concat_app. cbn [map concat show_chunk3]. rewrite E1, E2.
    split; repeat (cbn [app]; rewrite <- ?app_assoc); reflexivity.
  - exists ((c_bslash :: s_begin) ++ pb ++ [c_lcurly] ++ lab ++ [c_rcurly] ++ concat (map (fun a => match a with (pre, sc) => pre ++ show_scope3 sc end) s) ++ prec ++ open3 k :: concat (map show_chunk3 a) ++ A),
      (B ++ concat (map show_chunk3 b) ++ [close3 k] ++ concat (map (fun a => match a with (pre, sc) => pre ++ show_scope3 sc end) t) ++ concat (map show_chunk3 cs) ++ (c_bslash :: s_end) ++ pe ++ [c_lcurly] ++ lab ++ [c_rcurly]).
    cbn [show_variant3 show_env3]. rewrite !map_app, !concat_app. cbn [map concat show_scope3]. rewrite !map_app, !concat_app. cbn [map concat show_chunk3]. rewrite E1, E2.
    split; repeat (cbn [app]; rewrite <- ?app_assoc); reflexivity.
  - exists ((c_bslash :: s_begin) ++ pb ++ [c_lcurly] ++ lab ++ [c_rcurly] ++ concat (map (fun a => match a with (pre, sc) => pre ++ show_scope3 sc end) args) ++ concat (map show_chunk3 a) ++ A),
      (B ++ concat (map show_chunk3 b) ++ (c_bslash :: s_end) ++ pe ++ [c_lcurly] ++ lab ++ [c_rcurly]).
    cbn [show_variant3 show_env3]. rewrite !map_app, !concat_app. cbn [map concat show_chunk3]. rewrite E1, E2.
    split; repeat (cbn [app]; rewrite <- ?app_assoc); reflexivity.
  - exists (fst (maths_delims mv mt) ++ concat (map show_chunk3 a) ++ A), (B ++ concat (map show_chunk3 b) ++ snd (maths_delims mv mt)).
    cbn [show_variant3 show_maths3]. rewrite !map_app, !concat_app. cbn [map concat show_chunk3]. rewrite E1, E2.
    split; repeat (cbn [app]; rewrite <- ?app_assoc); reflexivity.
Qed.
Lemma changed3_validate p v w x y : changed3 v w x y -> validate_variant3 p x = Ok tt ->
  validate_variant3 p v = Ok tt /\ validate_variant3 p y = validate_variant3 p w.
Proof.
  induction 1 as [|x y a l l' b k H IH|x y lab s prec t a l l' b k H IH|x y lab s prec t a l l' b k cs pb pe H IH|x y lab args a l l' b pb pe H IH|x y mv mt a l l' b H IH]; intros V.
  - now split.
  - change (iterM (validate_chunk3 p) (a ++ mkChunk3 l x :: b) = Ok tt) in V. apply iterM_ok, Forall_app in V as [Va V]. inversion_clear V as [|? ? Vx Vb].
    destruct (IH Vx) as [V1 V2]. split; [exact V1|]. rewrite <- V2.
    change (iterM (validate_chunk3 p) (a ++ mkChunk3 l' y :: b) = validate_variant3 p y). now rewrite iterM_mid.
  - cbn [validate_variant3 validate_command3] in V |- *. destruct (str_eqb lab s_begin); [discriminate|]. destruct (str_eqb lab s_end); [discriminate|].
    destruct (if str_len lab =? 1 then Ok tt else check_chars lab) as [[]|e| |]; cbn [bind] in V |- *; try discriminate.
    apply iterM_ok, Forall_app in V as [Va V]. inversion_clear V as [|? ? Vx Vb].
    change (iterM (validate_chunk3 p) (a ++ mkChunk3 l x :: b) = Ok tt) in Vx. apply iterM_ok, Forall_app in Vx as [Xa X]. inversion_clear X as [|? ? Xx Xb].
    destruct (IH Xx) as [V1 V2]. split; [exact V1|]. rewrite <- V2. rewrite iterM_mid by assumption.
    change (iterM (validate_chunk3 p) (a ++ mkChunk3 l' y :: b) = validate_variant3 p y). now rewrite iterM_mid.
  - cbn [validate_variant3 validate_env3] in V |- *.
    destruct (check_chars lab) as [[]|e| |]; cbn [bind] in V |- *; try discriminate.
    apply seq_bind in V as [V Vc]. rewrite Vc, bind_unit.
    apply iterM_ok, Forall_app in V as [Va V]. inversion_clear V as [|? ? Vx Vb].
    change (iterM (validate_chunk3 p) (a ++ mkChunk3 l x :: b) = Ok tt) in Vx. apply iterM_ok, Forall_app in Vx as [Xa X]. inversion_clear X as [|? ? Xx Xb].
    destruct (IH Xx) as [V1 V2]. split; [exact V1|]. rewrite <- V2. rewrite iterM_mid by assumption.
    change (iterM (validate_chunk3 p) (a ++ mkChunk3 l' y :: b) = validate_variant3 p y). now rewrite iterM_mid.
  - cbn [validate_variant3 validate_env3] in V |- *.
    destruct (check_chars lab) as [[]|e| |]; cbn [bind] in V |- *; try discriminate.
    apply seq_bind in V as [V Vc]. rewrite V. cbn [bind].
    apply iterM_ok, Forall_app in Vc as [Xa X]. inversion_clear X as [|? ? Xx Xb].
    destruct (IH Xx) as [V1 V2]. split; [exact V1|]. rewrite <- V2. now rewrite iterM_mid.
  - change (iterM (validate_chunk3 p) (a ++ mkChunk3 l x :: b) = Ok tt) in V. apply iterM_ok, Forall_app in V as [Va V]. inversion_clear V as [|? ? Vx Vb].
    destruct (IH Vx) as [V1 V2]. split; [exact V1|]. rewrite <- V2.
    change (iterM (validate_chunk3 p) (a ++ mkChunk3 l' y :: b) = validate_variant3 p y). now rewrite iterM_mid.
Qed.
Lemma from3_app p a : forall L b, L + count_newlines (show_chunks3 a) < two32 -> 1 <= L -> lines_from3 L a -> Forall (ok3 p) a ->
  validate_from3 p L (a ++ b) = validate_from3 p (L + count_newlines (show_chunks3 a)) b.
Proof.
  induction a as [|c a IH]; intros L b B H1 HL HO; cbn [app validate_from3].
  - change (count_newlines (show_chunks3 [])) with 0. now rewrite N.add_0_r.
  - apply lines_from3_cons in HL as [E HL]. inversion_clear HO as [|? ? Oc Oa]. rewrite show_chunks3_cons, count_newlines_app in B |- *.
    rewrite E, N.eqb_refl. cbn [negb]. unfold ok3 in Oc. rewrite Oc. cbn [bind].
    rewrite lines_ok3 by lia. cbn [bind]. rewrite sub32_ok by lia. cbn [bind]. rewrite add32_ok by lia. cbn [bind].
    replace (L + (1 + count_newlines (show_chunk3 c) - 1)) with (L + count_newlines (show_chunk3 c)) by lia.
    rewrite IH by (assumption || lia). f_equal. lia.
Qed.
Lemma lines_from3_app L a b : lines_from3 L (a ++ b) <-> lines_from3 L a /\ lines_from3 (L + count_newlines (show_chunks3 a)) b.
Proof.
  revert L. induction a as [|c a IH]; intros L; cbn [app].
  - change (count_newlines (show_chunks3 [])) with 0. rewrite N.add_0_r. split; [intros H; split; [|exact H]|now intros []].
    intros pre c post E. now destruct pre.
  - rewrite !lines_from3_cons, IH, show_chunks3_cons, count_newlines_app, N.add_assoc. tauto.
Qed.
(** numbering from elsewhere *)
Lemma lines_from3_eq L L' b : b <> [] -> lines_from3 L b -> lines_from3 L' b -> L = L'.
Proof. destruct b as [|c b]; [congruence|]. intros _ A B. apply lines_from3_cons in A as [A _]. apply lines_from3_cons in B as [B _]. congruence. Qed.

Lemma edit3 p a l x b v w y : changed3 v w x y ->
  1 + count_newlines (show_chunks3 (a ++ mkChunk3 l x :: b)) < two32 -> 1 + count_newlines (show_chunks3 (a ++ mkChunk3 l y :: b)) < two32 ->
  validate_from3 p 1 (a ++ mkChunk3 l x :: b) = Ok tt ->
  validate_from3 p 1 (a ++ mkChunk3 l y :: b) =
  match validate_variant3 p w with
  | Ok _ => match b with
            | [] => Ok tt
            | c :: _ => if count_newlines (show_variant3 w) =? count_newlines (show_variant3 v) then Ok tt
                        else Err (IncorrectChunkLineNumber (line_no3 c + count_newlines (show_variant3 w) - count_newlines (show_variant3 v)) (line_no3 c))
            end
  | r => r
  end.
Proof.
  intros C B1 B2 V. apply validate_from3_ok in V as [HL HO]; [|lia|lia].
  apply lines_from3_app in HL as [La HL]. apply lines_from3_cons in HL as [El Lb]. apply Forall_app in HO as [Oa HO]. inversion_clear HO as [|? ? Ox Ob].
  cbn [line_no3] in El. rewrite show_chunks3_app, show_chunks3_cons, !count_newlines_app in B1, B2.
  change (validate_variant3 p x = Ok tt) in Ox. destruct (changed3_validate p v w x y C Ox) as [Vv Vy]. destruct (changed3_show _ _ _ _ C) as (A & Z & E1 & E2).
  assert (N1 : count_newlines (show_variant3 x) + count_newlines (show_variant3 w) = count_newlines (show_variant3 y) + count_newlines (show_variant3 v)) by (rewrite E1, E2, !count_newlines_app; lia).
  assert (N2 : count_newlines (show_variant3 v) <= count_newlines (show_variant3 x)) by (rewrite E1, !count_newlines_app; lia).
  change (show_chunk3 (mkChunk3 l x)) with (show_variant3 x) in *. change (show_chunk3 (mkChunk3 l y)) with (show_variant3 y) in *.
  rewrite from3_app by (assumption || lia). cbn [validate_from3 line_no3]. rewrite El, N.eqb_refl. cbn [negb].
  change (validate_chunk3 p (mkChunk3 (1 + count_newlines (show_chunks3 a)) y)) with (validate_variant3 p y). rewrite Vy. destruct (validate_variant3 p w) as [[]|e| |]; cbn [bind]; try reflexivity.
  change (show_chunk3 (mkChunk3 (1 + count_newlines (show_chunks3 a)) y)) with (show_variant3 y).
  rewrite lines_ok3 by (change (show_chunk3 (mkChunk3 (1 + count_newlines (show_chunks3 a)) y)) with (show_variant3 y); lia).
  change (show_chunk3 (mkChunk3 (1 + count_newlines (show_chunks3 a)) y)) with (show_variant3 y). cbn [bind]. rewrite sub32_ok by lia. cbn [bind]. rewrite add32_ok by lia. cbn [bind].
  replace (1 + count_newlines (show_chunks3 a) + (1 + count_newlines (show_variant3 y) - 1)) with (1 + count_newlines (show_chunks3 a) + count_newlines (show_variant3 y)) by lia.
  destruct b as [|c b]; [reflexivity|].
  destruct (N.eqb_spec (count_newlines (show_variant3 w)) (count_newlines (show_variant3 v))) as [EN|EN].
  - apply validate_from3_ok; [lia|lia|]. split; [|exact Ob]. replace (count_newlines (show_variant3 y)) with (count_newlines (show_variant3 x)) by lia. exact Lb.
  - apply lines_from3_cons in Lb as [Ec _]. cbn [validate_from3]. rewrite Ec.
    destruct (N.eqb_spec (1 + count_newlines (show_chunks3 a) + count_newlines (show_variant3 x)) (1 + count_newlines (show_chunks3 a) + count_newlines (show_variant3 y))); [lia|]. cbn [negb].
    f_equal. f_equal. lia.
Qed.
(** a wrong number on one of the chunks themselves *)
Lemma renumber3 p a l n x b : 1 + count_newlines (show_chunks3 (a ++ mkChunk3 l x :: b)) < two32 ->
  validate_from3 p 1 (a ++ mkChunk3 l x :: b) = Ok tt ->
  validate_from3 p 1 (a ++ mkChunk3 n x :: b) = if n =? l then Ok tt else Err (IncorrectChunkLineNumber l n).
Proof.
  intros B V. destruct (N.eqb_spec n l) as [->|NE]; [exact V|]. apply validate_from3_ok in V as [HL HO]; [|lia|lia].
  apply lines_from3_app in HL as [La HL]. apply lines_from3_cons in HL as [El Lb]. apply Forall_app in HO as [Oa HO].
  rewrite show_chunks3_app, show_chunks3_cons, !count_newlines_app in B. rewrite from3_app by (assumption || lia). cbn [validate_from3 line_no3] in *. rewrite <- El.
  destruct (N.eqb_spec n l); [contradiction|reflexivity].
Qed.

(** ** Moving the chunks that follow, stage 2 *)
Lemma moved2_lines k j b : forall L, lines_from2 L b -> j <= L ->
  lines_from2 (L + k - j) (map (fun z => set_line_no2 z (line_no2 z + k - j)) b).
Proof.
  induction b as [|[l x] b IH]; intros L H J; cbn [map]; [intros pre c post E; now destruct pre|].
  apply lines_from2_cons in H as [E H]. cbn [line_no2] in E. apply lines_from2_cons. cbn [set_line_no2 line_no2]. split; [congruence|].
  change (show_chunk2 (mkChunk2 (l + k - j) x)) with (show_chunk2 (mkChunk2 l x)).
  replace (L + k - j + count_newlines (show_chunk2 (mkChunk2 l x))) with (L + count_newlines (show_chunk2 (mkChunk2 l x)) + k - j) by lia.
  apply IH; [exact H|lia].
Qed.
Lemma moved2_show (f : chunk2 -> N) b : show2 (map (fun z => set_line_no2 z (f z)) b) = show2 b.
Proof. induction b as [|[l x] b IH]; [reflexivity|]. cbn [map]. rewrite !show2_cons, IH. reflexivity. Qed.
Lemma moved2_ok (f : chunk2 -> N) b : Forall ok2 b -> Forall ok2 (map (fun z => set_line_no2 z (f z)) b).
Proof. induction 1 as [|[l x] b H _ IH]; cbn [map]; constructor; assumption. Qed.
Lemma edit_moved2 p a l x b v w y : changed2 v w x y ->
  1 + count_newlines (show2 (a ++ mkChunk2 l x :: b)) < two32 -> 1 + count_newlines (show2 (a ++ mkChunk2 l y :: b)) < two32 ->
  validate_from2 p 1 (a ++ mkChunk2 l x :: b) = Ok tt ->
  validate_from2 p 1 (a ++ mkChunk2 l y :: map (fun z => set_line_no2 z (line_no2 z + count_newlines (show_variant2 w) - count_newlines (show_variant2 v))) b) =
  validate_variant2 w.
Proof.
  intros C B1 B2 V. apply validate_from2_ok in V as [HL HO]; [|lia|lia].
  apply lines_from2_app in HL as [La HL]. apply lines_from2_cons in HL as [El Lb]. apply Forall_app in HO as [Oa HO]. inversion_clear HO as [|? ? Ox Ob].
  cbn [line_no2] in El. rewrite show2_app, show2_cons, !count_newlines_app in B1, B2.
  change (validate_variant2 x = Ok tt) in Ox. destruct (changed2_validate v w x y C Ox) as [Vv Vy]. destruct (changed2_show _ _ _ _ C) as (A & Z & E1 & E2).
  assert (N1 : count_newlines (show_variant2 x) + count_newlines (show_variant2 w) = count_newlines (show_variant2 y) + count_newlines (show_variant2 v)) by (rewrite E1, E2, !count_newlines_app; lia).
  assert (N2 : count_newlines (show_variant2 v) <= count_newlines (show_variant2 x)) by (rewrite E1, !count_newlines_app; lia).
  change (show_chunk2 (mkChunk2 l x)) with (show_variant2 x) in *. change (show_chunk2 (mkChunk2 l y)) with (show_variant2 y) in *.
  rewrite from2_app by (assumption || lia). cbn [validate_from2 line_no2]. rewrite El, N.eqb_refl. cbn [negb].
  change (validate_chunk2 (mkChunk2 (1 + count_newlines (show2 a)) y)) with (validate_variant2 y). rewrite Vy. destruct (validate_variant2 w) as [[]|e| |]; cbn [bind]; try reflexivity.
  rewrite lines_ok2 by (change (show_chunk2 (mkChunk2 (1 + count_newlines (show2 a)) y)) with (show_variant2 y); lia).
  change (show_chunk2 (mkChunk2 (1 + count_newlines (show2 a)) y)) with (show_variant2 y). cbn [bind]. rewrite sub32_ok by lia. cbn [bind]. rewrite add32_ok by lia. cbn [bind].
  replace (1 + count_newlines (show2 a) + (1 + count_newlines (show_variant2 y) - 1)) with (1 + count_newlines (show2 a) + count_newlines (show_variant2 x) + count_newlines (show_variant2 w) - count_newlines (show_variant2 v)) by lia.
  apply validate_from2_ok.
  - rewrite (moved2_show (fun z => line_no2 z + count_newlines (show_variant2 w) - count_newlines (show_variant2 v))). lia.
  - lia.
  - split; [apply moved2_lines; [exact Lb|lia]|]. now apply (moved2_ok (fun z => line_no2 z + count_newlines (show_variant2 w) - count_newlines (show_variant2 v))).
Qed.
