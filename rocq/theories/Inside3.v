(** * Inside3: a source written into an environment, stage 3 (C89) *)
From Coq Require Import Lia.
From Verif Require Import Base Ast1 Parse1 Ast2 Ast3 Valid1 Valid2 SpecPar3 SpecClass3 Par3 MathsRun MathsRec Inside2.
Local Open Scope N_scope.

Section Inside3.
  Context (p : profile).
  Notation rec := (maths_from_chunks p).
  Lemma steps_pre cs : forall st st', foldM (d_step p) st cs = Ok st' -> Forall (fun c => ~ is_document c) cs -> ds_trailing st = false ->
    ds_pre st' = ds_pre st ++ cs /\ ds_trail st' = ds_trail st.
  Proof.
    induction cs as [|c cs IH]; intros st st'; cbn [foldM].
    - intros H _ _. injection H as <-. now rewrite app_nil_r.
    - destruct (d_step p st c) as [s1| | |] eqn:D; cbn [bind]; try discriminate. intros H F T. inversion F as [|? ? Nd F']; subst.
      assert (X : ds_pre s1 = ds_pre st ++ [c] /\ ds_trail s1 = ds_trail st /\ ds_trailing s1 = false).
      { assert (O : Ok (d_push_other st c) = @Ok error _ s1 -> ds_pre s1 = ds_pre st ++ [c] /\ ds_trail s1 = ds_trail st /\ ds_trailing s1 = false).
        { intros K. injection K as <-. unfold d_push_other, d_push_pre. rewrite T. cbn. auto. }
        destruct c as [l v]. destruct v as [t|[lab args]|sc|env]; cbn [d_step label2 arguments2] in D; auto.
        - destruct (str_eqb lab s_documentclass && negb (ds_trailing st)); [|auto]. destruct (d_class (ds_construct st)); [discriminate|].
          destruct (foldM (class_arg_step l) _ args) as [co| | |]; cbn [bind] in D; try discriminate. injection D as <-. cbn. auto.
        - destruct (str_eqb (env_label2 env) s_document) eqn:Q; [|auto]. exfalso. apply Nd. apply str_eqb_eq in Q. destruct env as [lb a co pb pe]. cbn in Q. subst lb. repeat eexists. }
      destruct X as (X1 & X2 & X3). destruct (IH _ _ H F' X3) as [Y1 Y2]. rewrite Y1, X1, <- app_assoc. split; [reflexivity|congruence].
  Qed.
  Lemma steps_ok cs : forall st, Forall (fun c => ~ is_document c) cs -> class_commands cs = [] -> ds_trailing st = false -> exists st', foldM (d_step p) st cs = Ok st'.
  Proof.
    induction cs as [|c cs IH]; intros st F Cl T; cbn [foldM]; [eauto|]. inversion F as [|? ? Nd F']; subst.
    assert (X : class_commands cs = [] /\ d_step p st c = Ok (d_push_other st c)).
    { destruct c as [l v]. destruct v as [t|[lab args]|sc|env]; cbn [d_step label2 arguments2].
      - now split.
      - cbn [class_commands] in Cl. change (S! "documentclass") with s_documentclass in Cl. destruct (str_eqb lab s_documentclass); [discriminate Cl|]. now split.
      - now split.
      - destruct (str_eqb (env_label2 env) s_document) eqn:Q; [|now split]. exfalso. apply Nd. apply str_eqb_eq in Q. destruct env as [lb a co pb pe]. cbn in Q. subst lb. repeat eexists. }
    destruct X as [X1 ->]. cbn [bind]. apply IH; [exact F'|exact X1|]. unfold d_push_other, d_push_pre. rewrite T. reflexivity.
  Qed.
  Lemma fragment_ok cs x : try_from3 p cs = Ok x -> Forall (fun c => ~ is_document c) cs -> exists a, rec cs = Ok a /\ paragraph_from_chunks p a = @Ok error _ (d_preamable x).
  Proof.
    unfold try_from3. destruct (foldM (d_step p) dinit cs) as [st| | |] eqn:D; cbn [bind]; try discriminate. intros H F. destruct (steps_pre _ _ _ D F eq_refl) as [E _]. cbn in E. rewrite E in H.
    destruct (rec cs) as [a| | |]; cbn [bind] in *; try discriminate. destruct (paragraph_from_chunks p a) as [b| | |] eqn:Pb; cbn [bind] in *; try discriminate.
    destruct (rec (ds_trail st)) as [a3| | |]; cbn [bind] in *; try discriminate. destruct (paragraph_from_chunks p a3) as [a4| | |]; cbn [bind] in *; try discriminate.
    injection H as <-. exists a. now split.
  Qed.
  Lemma fragment_err cs e : try_from3 p cs = Err e -> Forall (fun c => ~ is_document c) cs -> class_commands cs = [] -> (let* a := rec cs in paragraph_from_chunks p a) = Err e.
  Proof.
    unfold try_from3. intros H F Cl. destruct (steps_ok cs dinit F Cl eq_refl) as [st D]. rewrite D in H. cbn [bind] in H. destruct (steps_pre _ _ _ D F eq_refl) as [E Et]. cbn in E, Et. rewrite E, Et in H.
    destruct (rec cs) as [a| | |]; cbn [bind] in *; try discriminate; [|injection H as ->; reflexivity].
    destruct (paragraph_from_chunks p a) as [b| | |]; cbn [bind] in *; try discriminate. injection H as ->. reflexivity.
  Qed.
  Lemma env_split lab args co pb pe : env3_try_from p rec (mkEnv2 lab args co pb pe) =
    (let* a := args3_try_from p rec args in let* c := (let* a := rec co in paragraph_from_chunks p a) in Ok (mkEnv3 lab a c pb pe)).
  Proof. cbn [env3_try_from]. destruct (args3_try_from p rec args); cbn [bind]; auto. destruct (rec co); cbn [bind]; auto. Qed.
  Lemma rec_nil : rec [] = Ok [].
  Proof. reflexivity. Qed.
  Lemma document_env l args co pb pe : try_from3 p [mkChunk2 l (Environment2 (mkEnv2 s_document args co pb pe))] =
    (let* a := args3_try_from p rec args in let* c := (let* a := rec co in paragraph_from_chunks p a) in Ok (mkDoc3 None [] [] c a pb pe [])).
  Proof.
    unfold try_from3. cbn [foldM d_step env_label2]. rewrite (proj2 (str_eqb_eq s_document s_document) eq_refl), env_split.
    destruct (args3_try_from p rec args); cbn [bind]; auto. destruct (let* a := rec co in paragraph_from_chunks p a); cbn [bind]; auto.
  Qed.
  Lemma other_env lab l args co pb pe : lab <> s_document -> try_from3 p [mkChunk2 l (Environment2 (mkEnv2 lab args co pb pe))] =
    (let* a := args3_try_from p rec args in let* c := (let* a := rec co in paragraph_from_chunks p a) in Ok (mkDoc3 None [] [mkChunk3 l (Environment3 (mkEnv3 lab a c pb pe))] [] [] [] [] [])).
  Proof.
    intros N. unfold try_from3. cbn [foldM d_step env_label2]. apply str_eqb_neq in N. rewrite N. cbn [bind d_push_other dinit ds_trailing negb d_push_pre ds_pre ds_trail ds_construct app].
    rewrite maths_unfold. cbn [foldM m_step minit ms_mode is_none]. rewrite env_split.
    destruct (args3_try_from p rec args) as [a| | |]; cbn [bind]; auto. destruct (let* a := rec co in paragraph_from_chunks p a) as [c| | |]; cbn [bind]; auto.
  Qed.
End Inside3.
