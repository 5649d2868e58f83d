(** * Keep2: what the conversion to stage 2 keeps of validity (C68) *)
From Verif Require Import Base Ast1 Parse1 Ast2 SpecDoc1 SpecDoc2 Spec2 SpecBack2 SpecMaths3 Lines Eqb Tok Refine1 Gram1 Facts1 Valid1 Conv2 Facts2 Valid2 Good2 Env2 Reads.
From Coq Require Import Lia.

(** every text, command label and environment label satisfies a predicate, at any depth *)
Section Kept.
  Context (T L E : str -> Prop).
  Definition okv2 (v : variant2) : Prop :=
    match v with
    | Text2 s => T s
    | Command2 (mkCommand2 lab _) => L lab
    | Scope2 _ => True
    | Environment2 (mkEnv2 lab _ _ _ _) => E lab
    end.
  Definition all2 (d : list chunk2) : Prop := forall cs l v, within2 d cs -> In (mkChunk2 l v) cs -> okv2 v.
  Lemma within2_cases d cs : within2 d cs -> cs = d \/ exists l v inner, In (mkChunk2 l v) d /\ inside v inner /\ within2 inner cs.
  Proof.
    induction 1 as [|cs l inner v Hw [->|(l0 & v0 & i0 & A & B & C)] Hi|cs l lab args pre inner v Hw [->|(l0 & v0 & i0 & A & B & C)] Hi Hi2
      |cs l lab args content pb pe pre inner v Hw [->|(l0 & v0 & i0 & A & B & C)] Hi Hi2|cs l lab args content pb pe Hw [->|(l0 & v0 & i0 & A & B & C)] Hi];
      [now left|right..].
    - exists l, (Scope2 (mkScope2 inner v)), inner. split; [exact Hi|]. split; constructor.
    - exists l0, v0, i0. split; [exact A|]. split; [exact B|]. eapply w2_scope; eassumption.
    - exists l, (Command2 (mkCommand2 lab args)), inner. split; [exact Hi|]. split; [econstructor; exact Hi2|constructor].
    - exists l0, v0, i0. split; [exact A|]. split; [exact B|]. eapply w2_arg; eassumption.
    - exists l, (Environment2 (mkEnv2 lab args content pb pe)), inner. split; [exact Hi|]. split; [econstructor; exact Hi2|constructor].
    - exists l0, v0, i0. split; [exact A|]. split; [exact B|]. eapply w2_env_arg; eassumption.
    - exists l, (Environment2 (mkEnv2 lab args content pb pe)), content. split; [exact Hi|]. split; constructor.
    - exists l0, v0, i0. split; [exact A|]. split; [exact B|]. eapply w2_env; eassumption.
  Qed.
  Lemma within2_inside d l v inner cs : In (mkChunk2 l v) d -> inside v inner -> within2 inner cs -> within2 d cs.
  Proof.
    intros Hi Hv. induction 1; [eapply inside_within; [constructor|eassumption|assumption]|..].
    - eapply w2_scope; eassumption.
    - eapply w2_arg; eassumption.
    - eapply w2_env_arg; eassumption.
    - eapply w2_env; eassumption.
  Qed.
  Definition deep2 (v : variant2) : Prop := okv2 v /\ forall inner, inside v inner -> all2 inner.
  Lemma all2_iff d : all2 d <-> forall l v, In (mkChunk2 l v) d -> deep2 v.
  Proof.
    split.
    - intros H l v Hi. split; [eapply H; [constructor|exact Hi]|]. intros inner Hv cs l' v' Hw Hi'.
      eapply H; [|exact Hi']. eapply within2_inside; eassumption.
    - intros H cs l v Hw Hi. destruct (within2_cases d cs Hw) as [->|(l0 & v0 & i0 & A & B & C)]; [now apply (H l v)|].
      exact (proj2 (H l0 v0 A) i0 B cs l v C Hi).
  Qed.
  Lemma all2_cons l v d : all2 (mkChunk2 l v :: d) <-> deep2 v /\ all2 d.
  Proof.
    rewrite !all2_iff. split.
    - intros H. split; [apply (H l v); now left|]. intros l' v' Hi. apply (H l' v'). now right.
    - intros [A B] l' v' [Hi|Hi]; [injection Hi as <- <-; exact A|eauto].
  Qed.
  Lemma all2_nil : all2 [].
  Proof. rewrite all2_iff. intros l v []. Qed.
  Lemma all2_app a b : all2 (a ++ b) <-> all2 a /\ all2 b.
  Proof.
    induction a as [|[l v] a IH]; cbn [app]; [split; [intros H; split; [apply all2_nil|exact H]|tauto]|].
    rewrite !all2_cons, IH. tauto.
  Qed.
End Kept.
Lemma deep2_imp (T T' L L' E E' : str -> Prop) : (forall s, T s -> T' s) -> (forall s, L s -> L' s) -> (forall s, E s -> E' s) ->
  forall d, all2 T L E d -> all2 T' L' E' d.
Proof.
  intros A B C d H cs l v Hw Hi. specialize (H cs l v Hw Hi). destruct v as [s|[lab args]| |[lab args content pb pe]]; cbn in *; auto.
Qed.

(** where the chunks of the result come from *)
Definition from1 (d : list chunk1) (v : variant1) : Prop := exists cs l, within1 d cs /\ In (mkChunk1 l v) cs.
Definition made_of (d d' : list chunk1) : Prop := forall c, In c d' -> from1 d (variant_of1 c).
Lemma made_self d : made_of d d.
Proof. intros [l v] Hi. exists d, l. split; [constructor|exact Hi]. Qed.
Lemma made_same d a b : Forall2 same_chunk a b -> made_of d a -> made_of d b.
Proof.
  intros F H c Hi. induction F as [|x y a b E F IH]; [destruct Hi|]. destruct Hi as [->|Hi].
  - rewrite <- E. apply H. now left.
  - apply IH; [|exact Hi]. intros z Hz. apply H. now right.
Qed.
Lemma made_scope d d' l cs v : made_of d d' -> In (mkChunk1 l (Scope1 (mkScope1 cs v))) d' -> made_of d cs.
Proof.
  intros H Hi [l' v'] Hi'. destruct (H _ Hi) as (cs0 & l0 & W & I). exists cs, l'. split; [|exact Hi']. eapply w1_scope; eassumption.
Qed.
Lemma made_arg d d' l lab args pre cs v : made_of d d' -> In (mkChunk1 l (Command1 (mkCommand1 lab args))) d' -> In (pre, mkScope1 cs v) args -> made_of d cs.
Proof.
  intros H Hi Ha [l' v'] Hi'. destruct (H _ Hi) as (cs0 & l0 & W & I). exists cs, l'. split; [|exact Hi']. eapply w1_arg; eassumption.
Qed.
Lemma made_sub d d' d'' : made_of d d' -> (forall c, In c d'' -> In c d') -> made_of d d''.
Proof. intros H S c Hi. apply H, S, Hi. Qed.

Section Conv.
  Context (T L E : str -> Prop) (p : profile) (d : list chunk1).
  Context (HT : forall s, from1 d (Text1 s) -> T s).
  Context (HL : forall lab args, from1 d (Command1 (mkCommand1 lab args)) -> lab <> S! "begin" -> lab <> S! "end" -> L lab).
  Lemma conv_kept :
    (forall d1 d2, conv p d1 d2 -> made_of d d1 -> all2 T L (fun _ => True) d2) /\
    (forall a1 a2, conv_args p a1 a2 -> (forall pre cs v, In (pre, mkScope1 cs v) a1 -> made_of d cs) ->
       forall pre cs v, In (pre, mkScope2 cs v) a2 -> all2 T L (fun _ => True) cs).
  Proof.
    apply conv_conv_args_ind.
    - intros _. apply all2_nil.
    - intros l s d1 d2 _ IH H. apply all2_cons. split.
      + split; [cbn; apply HT; exact (H (mkChunk1 l (Text1 s)) (or_introl eq_refl))|]. intros inner Hi. inversion Hi.
      + apply IH. eapply made_sub; [exact H|]. intros c Hc. now right.
    - intros l cs v cs' d1 d2 _ IHc _ IH H. apply all2_cons. split.
      + split; [exact I|]. intros inner Hi. inversion Hi; subst. apply IHc. eapply made_scope; [exact H|]. now left.
      + apply IH. eapply made_sub; [exact H|]. intros c Hc. now right.
    - intros l lab args args' d1 d2 N1 N2 _ IHa _ IH H. apply all2_cons. split.
      + split; [cbn; apply (HL lab args); try assumption; exact (H (mkChunk1 l (Command1 (mkCommand1 lab args))) (or_introl eq_refl))|].
        intros inner Hi. inversion Hi; subst. eapply IHa; [|eassumption]. intros pr cs0 v0 Ha. eapply made_arg; [exact H|now left|exact Ha].
      + apply IH. eapply made_sub; [exact H|]. intros c Hc. now right.
    - intros l pb lab args args' body body1 content l' pe d1 d2 start O S M _ IHa _ IHb _ IH H. apply all2_cons. split.
      + split; [exact I|]. intros inner Hi. inversion Hi; subst.
        * eapply IHa; [|eassumption]. intros pr cs0 v0 Ha. eapply made_arg; [exact H|now left|right; exact Ha].
        * apply IHb. apply (made_same d body); [apply (mapM_rebase_same p start); exact M|]. eapply made_sub; [exact H|].
          intros c Hc. right. apply in_or_app. now left.
      + apply IH. eapply made_sub; [exact H|]. intros c Hc. right. apply in_or_app. right. now right.
    - intros _ pr cs v [].
    - intros pre cs v cs' a1 a2 _ IHc _ IH H pr cs0 v0 [Hi|Hi].
      + injection Hi as <- <- <-. apply IHc. eapply H. now left.
      + eapply IH; [|exact Hi]. intros pr1 cs1 v1 Ha. eapply H. right. exact Ha.
  Qed.
End Conv.

Definition only_closing (s : str) : Prop := forall x, In x s -> special x = true -> is_closing x = true.
Definition no_specials (s : str) : Prop := existsb special s = false.
Definition fit_label (lab : str) : Prop := lab <> S! "begin" /\ lab <> S! "end" /\ clean_label lab = true.
Lemma only_closing_clean s : only_closing s -> (no_specials s <-> existsb is_closing s = false).
Proof.
  intros H. split; intros K.
  - apply not_true_iff_false. intros X. apply existsb_exists in X as (x & Hx & Ex).
    assert (existsb special s = true); [|unfold no_specials in K; congruence]. apply existsb_exists. exists x. split; [exact Hx|].
    rewrite <- unsanitised_special. unfold unsanitised. rewrite Ex. apply orb_true_r.
  - apply not_true_iff_false. intros X. apply existsb_exists in X as (x & Hx & Ex).
    assert (existsb is_closing s = true); [|congruence]. apply existsb_exists. exists x. split; [exact Hx|]. now apply H.
Qed.
Lemma all2_clean d : all2 no_specials fit_label no_specials d <-> forall cs, within2 d cs -> Forall clean2 cs.
Proof.
  split.
  - intros H cs Hw. apply Forall_forall. intros [l v] Hi. specialize (H cs l v Hw Hi).
    destruct v as [s|[lab args]|sc|[lab args content pb pe]]; exact H.
  - intros H cs l v Hw Hi. specialize (H cs Hw). rewrite Forall_forall in H. specialize (H _ Hi).
    destruct v as [s|[lab args]|sc|[lab args content pb pe]]; exact H.
Qed.

Theorem parsed_all2 p s d2 : source_fits s -> from_str2 p s = Ok d2 -> all2 only_closing fit_label (fun _ => True) d2.
Proof.
  intros B H. destruct (from_str2_split p s d2 B H) as (d1 & H1 & _ & H2 & _). apply try_from2_iff in H2.
  apply (proj1 (conv_kept only_closing fit_label p d1
    ltac:(intros t (cs & l & W & I); exact (from_str1_clean p s d1 B H1 cs _ W I))
    ltac:(intros lab args (cs & l & W & I) N1 N2; split; [exact N1|]; split; [exact N2|]; exact (from_str1_clean p s d1 B H1 cs _ W I))) d1 d2 H2).
  apply made_self.
Qed.
Theorem parsed_validate2 p p' s d2 : source_fits s -> from_str2 p s = Ok d2 ->
  (validate2 p' d2 = Ok tt <->
   lines_add_up2 d2 /\
   (forall cs l t, within2 d2 cs -> In (mkChunk2 l (Text2 t)) cs -> existsb is_closing t = false) /\
   (forall cs l lab args body pb pe, within2 d2 cs -> In (mkChunk2 l (Environment2 (mkEnv2 lab args body pb pe))) cs -> existsb special lab = false)).
Proof.
  intros B H. pose proof (parsed_all2 p s d2 B H) as K.
  rewrite validate2_iff.
  2:{ destruct (from_str2_split p s d2 B H) as (d1 & H1 & _ & H2 & _). pose proof (from_str1_newlines p s d1 B H1) as Hn.
      unfold nls in Hn. rewrite (try_from2_show _ _ _ H2), Hn. pose proof (count_newlines_le s). unfold source_fits in B. lia. }
  unfold well_formed2. apply and_iff_compat_l. rewrite <- all2_clean. split.
  - intros C. split.
    + intros cs l t W I. apply only_closing_clean; [exact (K cs l _ W I)|exact (C cs l _ W I)].
    + intros cs l lab args body pb pe W I. exact (C cs l _ W I).
  - intros [C1 C2] cs l v W I. specialize (K cs l v W I). destruct v as [t|[lab args]|sc|[lab args content pb pe]]; cbn in *.
    + apply only_closing_clean; [exact K|exact (C1 cs l t W I)].
    + exact K.
    + exact K.
    + eapply C2; eassumption.
Qed.

(** ** Conversion of a valid document *)
Lemma valid_all2 p d d2 : (forall cs, within1 d cs -> Forall clean1 cs) -> conv p d d2 ->
  all2 no_specials fit_label (fun _ => True) d2.
Proof.
  intros F C.
  apply (proj1 (conv_kept no_specials fit_label p d
    ltac:(intros t (cs & l & W & I); specialize (F cs W); rewrite Forall_forall in F; exact (F _ I))
    ltac:(intros lab args (cs & l & W & I) N1 N2; split; [exact N1|]; split; [exact N2|]; specialize (F cs W); rewrite Forall_forall in F; exact (F _ I))) d d2 C).
  apply made_self.
Qed.
(** the arguments of the [\begin] of a top-level environment are on one line *)
Definition begins_on_one_line (d2 : list chunk2) : Prop :=
  forall l lab args body pb pe, In (mkChunk2 l (Environment2 (mkEnv2 lab args body pb pe))) d2 ->
  count_newlines (pb ++ lab ++ show_args2 args) = 0.
Lemma begins_cons_other l v d2 : (forall e, v <> Environment2 e) -> (begins_on_one_line (mkChunk2 l v :: d2) <-> begins_on_one_line d2).
Proof.
  intros N. split; intros H l' lab args body pb pe Hi.
  - eapply H. right. exact Hi.
  - destruct Hi as [Hi|Hi]; [injection Hi as -> ->; now destruct (N (mkEnv2 lab args body pb pe))|]. eapply H, Hi.
Qed.
Lemma begins_cons_env l lab args body pb pe d2 : begins_on_one_line (mkChunk2 l (Environment2 (mkEnv2 lab args body pb pe)) :: d2) <->
  count_newlines (pb ++ lab ++ show_args2 args) = 0 /\ begins_on_one_line d2.
Proof.
  split.
  - intros H. split; [eapply H; now left|]. intros l' lab' args' body' pb' pe' Hi. eapply H. right. exact Hi.
  - intros [A B] l' lab' args' body' pb' pe' [Hi|Hi]; [injection Hi as <- <- <- <- <- <-; exact A|eapply B, Hi].
Qed.
Lemma lines_from1_app L a b : lines_from1 L (a ++ b) <-> lines_from1 L a /\ lines_from1 (L + count_newlines (show1 a)) b.
Proof.
  revert L. induction a as [|c a IH]; intros L; cbn [app].
  - split; [|intros [_ H]]; rewrite N.add_0_r in *; [|exact H]. intros H. split; [|exact H]. intros pre c post E. now destruct pre.
  - rewrite !lines_from1_cons, IH. rewrite show1_cons, count_newlines_app, N.add_assoc. tauto.
Qed.
Lemma conv_lines p d d2 : conv p d d2 -> forall L, lines_from1 L d -> L + count_newlines (show1 d) < two32 ->
  (lines_from2 L d2 <-> begins_on_one_line d2).
Proof.
  induction 1 as [|l s d d' C IH|l cs v cs' d d' Cc _ C IH|l lab args args' d d' N1 N2 Ca C IH|l pb lab args args' body body1 content l' pe d d' start O St M Ca Cb _ C IH];
    intros L HL B.
  - split; [intros _ l lab args body pb pe []|]. intros _ pre c post E. now destruct pre.
  - apply lines_from1_cons in HL as [El HL]. rewrite show1_cons, count_newlines_app in B. rewrite lines_from2_cons, begins_cons_other by discriminate.
    rewrite <- (IH (L + count_newlines (show_chunk1 (mkChunk1 l (Text1 s))))); [|exact HL|lia]. cbn in El |- *. tauto.
  - apply lines_from1_cons in HL as [El HL]. rewrite show1_cons, count_newlines_app in B. rewrite lines_from2_cons, begins_cons_other by discriminate.
    pose proof (proj1 (conv_show p) _ _ (cv_scope p l cs v cs' [] [] Cc (cv_nil p))) as Sh. rewrite show2_one, show1_one in Sh. rewrite Sh.
    rewrite <- (IH (L + count_newlines (show_chunk1 (mkChunk1 l (Scope1 (mkScope1 cs v)))))); [|exact HL|lia]. cbn [line_no1 line_no2] in El |- *. tauto.
  - apply lines_from1_cons in HL as [El HL]. rewrite show1_cons, count_newlines_app in B. rewrite lines_from2_cons, begins_cons_other by discriminate.
    pose proof (proj1 (conv_show p) _ _ (cv_cmd p l lab args args' [] [] N1 N2 Ca (cv_nil p))) as Sh. rewrite show2_one, show1_one in Sh. rewrite Sh.
    rewrite <- (IH (L + count_newlines (show_chunk1 (mkChunk1 l (Command1 (mkCommand1 lab args)))))); [|exact HL|lia]. cbn [line_no1 line_no2] in El |- *. tauto.
  - pose proof (proj1 (conv_show p) _ _ (cv_env p l pb lab args args' body body1 content l' pe [] [] start O St M Ca Cb (cv_nil p))) as Sh. rewrite show2_one in Sh.
    pose proof (proj2 (conv_show p) _ _ Ca) as Sa.
    rewrite lines_from2_cons, begins_cons_env, Sh.
    assert (Eq : begin_cmd l pb lab args :: body ++ end_cmd l' pe lab :: d = (begin_cmd l pb lab args :: body ++ [end_cmd l' pe lab]) ++ d)
      by (cbn [app]; now rewrite <- app_assoc).
    rewrite Eq in HL, B. rewrite show1_app, count_newlines_app in B. apply lines_from1_app in HL as [HL1 HL].
    rewrite <- (IH _ HL) by lia. apply lines_from1_cons in HL1 as [El _]. cbn [begin_cmd line_no1] in El. subst l.
    assert (Bb : L + nlch (begin_cmd L pb lab args) < two32).
    { unfold nlch. rewrite show1_cons, count_newlines_app in B. lia. }
    rewrite (startM_good p L pb lab args Bb) in St. injection St as <-. cbn [line_no2].
    rewrite begin_end_eq.
    assert (En : nlch (begin_cmd L pb lab args) = count_newlines (pb ++ show1 lab ++ show_args2 args')).
    { unfold nlch. rewrite Sa, show_begin. repeat (rewrite ?count_newlines_app, ?count_newlines_cons). rewrite count_newlines_nil.
      change (c_bslash =? c_newline) with false. change (c_lcurly =? c_newline) with false. change (c_rcurly =? c_newline) with false.
      change (count_newlines (S! "begin")) with 0. cbv iota. lia. }
    rewrite En. split; intros [A1 A2]; (split; [lia|exact A2]).
Qed.
Theorem valid_validate2 p p' d d2 : 1 + count_newlines (show1 d) < two32 -> validate1 p d = Ok tt -> try_from2 p d = Ok d2 ->
  (validate2 p' d2 = Ok tt <->
   begins_on_one_line d2 /\
   (forall cs l lab args body pb pe, within2 d2 cs -> In (mkChunk2 l (Environment2 (mkEnv2 lab args body pb pe))) cs -> existsb special lab = false)).
Proof.
  intros B V H. apply validate1_iff in V as [VL VC]; [|exact B]. apply try_from2_iff in H.
  pose proof (proj1 (conv_show p) _ _ H) as Sh. rewrite validate2_iff by (rewrite Sh; exact B).
  unfold well_formed2. rewrite <- all2_clean. pose proof (valid_all2 p d d2 VC H) as K.
  rewrite <- (conv_lines p d d2 H 1 VL B). apply and_iff_compat_l. split.
  - intros C cs l lab args body pb pe W I. exact (C cs l _ W I).
  - intros C cs l v W I. specialize (K cs l v W I). destruct v as [t|[lab args]|sc|[lab args content pb pe]]; cbn in *; try exact K.
    eapply C; eassumption.
Qed.
