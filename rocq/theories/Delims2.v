(** * Delims2: document level, and what is nested where (C88) *)
From Coq Require Import Lia.
From Verif Require Import Base Ast1 Parse1 Ast2 Ast3 Valid1 Valid2 SpecDoc2 SpecDoc3 SpecBack3 SpecDelims MathsRun MathsRec Ind Delims.
Local Open Scope N_scope.

(** the labels of the commands of a stage-2 tree *)
Definition label_of (d : list chunk2) (lab : str) : Prop := exists cs l args, within2 d cs /\ In (mkChunk2 l (Command2 (mkCommand2 lab args))) cs.
Lemma lab2_in d c : forall cs, within2 d cs -> In c cs -> lab2 (label_of d) c.
Proof.
  induction c as [l s|l lab args IH|l inner v IH|l lab args inner pb pe IHa IH] using chunk2_ind'; intros cs W I.
  - constructor.
  - constructor; [now exists cs, l, args|]. intros pre i v J. rewrite Forall_forall in IH. specialize (IH _ J). cbn in IH. rewrite Forall_forall in *.
    intros x X. apply (IH x X i); [eapply w2_arg; eassumption|exact X].
  - constructor. rewrite Forall_forall in *. intros x X. apply (IH x X inner); [eapply w2_scope; eassumption|exact X].
  - constructor.
    + intros pre i v J. rewrite Forall_forall in IHa. specialize (IHa _ J). cbn in IHa. rewrite Forall_forall in *. intros x X. apply (IHa x X i); [eapply w2_env_arg; eassumption|exact X].
    + rewrite Forall_forall in *. intros x X. apply (IH x X inner); [eapply w2_env; eassumption|exact X].
Qed.
Lemma lab2_all d : Forall (lab2 (label_of d)) d.
Proof. apply Forall_forall. intros c I. exact (lab2_in d c d (w2_self d) I). Qed.

Section Delims2.
  Context (p : profile) (P : str -> Prop).
  Notation fine := (fine P).
  Notation lab2 := (lab2 P).
  Lemma fine_within d cs : within3 d cs -> Forall fine d -> Forall fine cs.
  Proof.
    intros W F. induction W as [|cs l i v W IH I|cs l lab args pre i v W IH I J|cs l lab args co pb pe pre i v W IH I J|cs l lab args co pb pe W IH I|cs l v t co W IH I]; [exact F|..];
    rewrite Forall_forall in IH; specialize (IH _ I); inversion IH; subst; eauto.
  Qed.
  Definition d_fine (st : dstate) : Prop :=
    Forall lab2 (ds_pre st) /\ Forall lab2 (ds_trail st) /\ Forall fine (d_body (ds_construct st)) /\ forall pre cs v, In (pre, mkScope3 cs v) (d_body_args (ds_construct st)) -> Forall fine cs.
  Lemma d_step_fine st c st' : d_step p st c = Ok st' -> lab2 c -> d_fine st -> d_fine st'.
  Proof.
    intros H L (A & B & C & D).
    assert (O : Ok (d_push_other st c) = @Ok error _ st' -> d_fine st').
    { intros K. injection K as <-. unfold d_push_other, d_push_pre. destruct (ds_trailing st); cbn; repeat split; auto; cbn; try (apply Forall_app; auto). }
    destruct L as [l s|l lab args Pl La|l cs v Lc|l lab args content pb pe La Lc]; cbn [d_step label2 arguments2 env_label2] in H; auto.
    - destruct (str_eqb lab s_documentclass && negb (ds_trailing st)); [|auto]. destruct (d_class (ds_construct st)); [discriminate|].
      destruct (foldM (class_arg_step l) _ args) as [co| | |]; cbn [bind] in H; try discriminate. injection H as <-. repeat split; cbn; auto. apply Forall_app. split; [exact A|]. now repeat constructor.
    - destruct (str_eqb lab s_document); [|auto]. destruct (env3_try_from p (maths_from_chunks p) (mkEnv2 lab args content pb pe)) as [x| | |] eqn:E; cbn [bind] in H; try discriminate.
      destruct (env_fine p P (maths_from_chunks p) (maths_fine p P) _ _ _ _ _ _ E La Lc) as (a' & c' & -> & F & G). injection H as <-. repeat split; cbn; auto.
  Qed.
  Lemma d_steps_fine cs : forall st st', foldM (d_step p) st cs = Ok st' -> Forall lab2 cs -> d_fine st -> d_fine st'.
  Proof.
    induction cs as [|c cs IH]; intros st st'; cbn [foldM]; [intros H; now injection H as <-|]. destruct (d_step p st c) as [s1| | |] eqn:E; cbn [bind]; try discriminate.
    intros H F K. inversion F; subst. apply (IH s1 st' H); [assumption|]. apply (d_step_fine _ _ _ E); assumption.
  Qed.
  Lemma section_fine cs a b : Forall lab2 cs -> maths_from_chunks p cs = Ok a -> paragraph_from_chunks p a = @Ok error _ b -> Forall fine b.
  Proof. intros F M Q. exact (par_fine_all p P _ _ Q (maths_fine p P _ _ F M)). Qed.
  Theorem document_fine d2 d cs : Forall lab2 d2 -> try_from3 p d2 = Ok d -> part_of d cs -> Forall fine cs.
  Proof.
    intros F. unfold try_from3. destruct (foldM (d_step p) dinit d2) as [st| | |] eqn:D0; cbn [bind]; try discriminate.
    assert (I : d_fine dinit) by (repeat split; cbn; try constructor; intros ? ? ? []).
    destruct (d_steps_fine _ _ _ D0 F I) as (A & B & C & D).
    destruct (maths_from_chunks p (ds_pre st)) as [a1| | |] eqn:A1; cbn [bind]; try discriminate. destruct (paragraph_from_chunks p a1) as [a2| | |] eqn:A2; cbn [bind]; try discriminate.
    destruct (maths_from_chunks p (ds_trail st)) as [a3| | |] eqn:A3; cbn [bind]; try discriminate. destruct (paragraph_from_chunks p a3) as [a4| | |] eqn:A4; cbn [bind]; try discriminate.
    intros H. injection H as <-. unfold part_of. cbn [d_preamable d_body d_trailing d_body_args].
    intros [W|[W|[W|(pre & i & v & J & W)]]]; apply (fine_within _ _ W); [exact (section_fine _ _ _ A A1 A2)|exact C|exact (section_fine _ _ _ B A3 A4)|exact (D _ _ _ J)].
  Qed.
End Delims2.
Lemma fine_delimited P c : fine P c -> delimited c.
Proof. intros []; cbn; auto. Qed.
Theorem no_delimiters p d2 d cs c : try_from3 p d2 = Ok d -> part_of d cs -> In c cs -> delimited c.
Proof. intros H W I. pose proof (document_fine p _ d2 d cs (lab2_all d2) H W) as F. rewrite Forall_forall in F. exact (fine_delimited _ _ (F _ I)). Qed.
Theorem labels_kept p d2 d cs l lab args : try_from3 p d2 = Ok d -> part_of d cs -> In (mkChunk3 l (Command3 (mkCommand3 lab args))) cs -> label_of d2 lab.
Proof. intros H W I. pose proof (document_fine p _ d2 d cs (lab2_all d2) H W) as F. rewrite Forall_forall in F. specialize (F _ I). inversion F; subst. assumption. Qed.
