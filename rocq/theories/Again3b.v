(** * Again3b: from stage 3 down to stage 2 and up again: documents *)
From Verif Require Import Base Ast1 Parse1 Ast2 Ast3 SpecDoc1 SpecDoc2 SpecUnnum SpecDoc3 SpecMaths3 SpecPar3 SpecReads SpecClass3 SpecRead3 SpecWrap SpecBack3 SpecAgain3 Ind Lines Eqb Tok Facts2 Valid2 Valid3 Env2 Par3 Maths3 Reads Read3 ReadsW Back3 Flat Unnum Unnum1 Unnum3 Unnum4 Again3.
From Coq Require Import Lia.

(** ** The model's way down, up to line numbers *)
Section Down.
  Context {E : Type} (p : profile).
  Definition Dn (c : chunk3) : Prop := forall cs, @into2_chunk E p c = Ok cs -> doc2_eq cs (flat c).
  Lemma doc2_app a a' b b' : doc2_eq a a' -> doc2_eq b b' -> doc2_eq (a ++ b) (a' ++ b').
  Proof. unfold doc2_eq. rewrite !unnumbered2_app. congruence. Qed.
  Lemma bind_ok {A B} (x : outcome E A) (f : A -> outcome E B) b : bind x f = Ok b -> exists a, x = Ok a /\ f a = Ok b.
  Proof. destruct x; try discriminate. eauto. Qed.
  Lemma dn_list cs : Forall Dn cs -> forall css, mapM (@into2_chunk E p) cs = Ok css -> doc2_eq (concat css) (flats cs).
  Proof.
    induction 1 as [|c cs H _ IH]; intros css K; cbn [mapM] in K; [injection K as <-; reflexivity|].
    apply bind_ok in K as (o & K1 & K). apply bind_ok in K as (os & K2 & K). injection K as <-. cbn [concat]. apply doc2_app; [exact (H _ K1)|exact (IH _ K2)].
  Qed.
  Lemma dn_args args : Forall (fun a => Forall Dn (chunks3 (snd a))) args -> forall out,
    mapM (fun a => match a with (s, sc) => let* sc := @into2_scope E p sc in Ok (s, sc) end) args = Ok out -> uargs2 out = uargs2 (flat_args args).
  Proof.
    induction 1 as [|[pre [cs v]] args H _ IH]; intros out K; cbn [mapM] in K; [injection K as <-; reflexivity|].
    apply bind_ok in K as (o & K1 & K). apply bind_ok in K as (os & K2 & K). injection K as <-. apply bind_ok in K1 as (sc & K1 & K3). injection K3 as <-.
    cbn [into2_scope] in K1. apply bind_ok in K1 as (css & K1 & K3). injection K3 as <-. unfold uargs2 in *. cbn [flat_args map]. fold (flat_args args).
    rewrite (IH _ K2). f_equal. cbn [unnumbered_scope2]. do 2 f_equal. exact (dn_list cs H _ K1).
  Qed.
  Lemma shift_doc (f : outcome E N) a b : mapM (fun c => let* off := f in shift_chunk2 p off c) a = Ok b -> doc2_eq b a.
  Proof.
    revert b. induction a as [|[l v] a IH]; intros b K; cbn [mapM] in K; [injection K as <-; reflexivity|].
    apply bind_ok in K as (o & K1 & K). apply bind_ok in K as (os & K2 & K). injection K as <-. apply bind_ok in K1 as (off & _ & K1). unfold shift_chunk2 in K1. apply bind_ok in K1 as (l' & _ & K1). injection K1 as <-.
    apply (doc2_app [_] [_]); [reflexivity|exact (IH _ K2)].
  Qed.
  Lemma dn_all c : Dn c.
  Proof.
    induction c as [k s|k s|k lab args IH|k cs v IH|k lab args cs pb pe IHa IHc|k v t cs IH] using chunk3_ind'; intros out K; cbn [into2_chunk] in K.
    - injection K as <-. reflexivity.
    - injection K as <-. reflexivity.
    - apply bind_ok in K as (o & K1 & K). injection K as <-. cbn [into2_command] in K1. apply bind_ok in K1 as (a & K1 & K). injection K as <-.
      unfold doc2_eq, unnumbered2. cbn [flat map unnumbered_chunk2 unnumbered_variant2 unnumbered_command2]. do 4 f_equal. exact (dn_args args IH _ K1).
    - apply bind_ok in K as (o & K1 & K). injection K as <-. cbn [into2_scope] in K1. apply bind_ok in K1 as (a & K1 & K). injection K as <-.
      unfold doc2_eq, unnumbered2. cbn [flat map unnumbered_chunk2 unnumbered_variant2 unnumbered_scope2]. do 4 f_equal. exact (dn_list cs IH _ K1).
    - apply bind_ok in K as (o & K1 & K). injection K as <-. cbn [into2_env] in K1. apply bind_ok in K1 as (a & K1 & K). apply bind_ok in K as (css & K2 & K). injection K as <-.
      unfold doc2_eq, unnumbered2. cbn [flat map unnumbered_chunk2 unnumbered_variant2 unnumbered_env2]. do 4 f_equal; [exact (dn_args args IHa _ K1)|exact (dn_list cs IHc _ K2)].
    - apply bind_ok in K as (o & K1 & K). apply shift_doc in K. cbn [into2_maths] in K1.
      apply bind_ok in K1 as (ls & _ & K1). apply bind_ok in K1 as (sum & _ & K1). apply bind_ok in K1 as (lines & _ & K1). apply bind_ok in K1 as (css & K2 & K1).
      pose proof (dn_list cs IH _ K2) as Hc. unfold doc2_eq in K |- *. rewrite K. change (doc2_eq o (flat (mkChunk3 k (Maths3 (mkMaths3 v t cs))))). destruct v; cbn [flat].
      + destruct t; injection K1 as <-; cbn [opener closer app]; apply (doc2_app [_] [_]); try reflexivity; (apply doc2_app; [exact Hc|reflexivity]).
      + cbv zeta in K1. unfold dollared. fold (flats cs). destruct (concat css) as [|x xs] eqn:Ex; destruct (flats cs) as [|y ys] eqn:Ey; try discriminate Hc.
        * injection K1 as <-. destruct t; reflexivity.
        * injection K1 as <-. exact (doc2_append (dollars_of t) lines 1 _ _ (doc2_prepend (dollars_of t) _ _ Hc)).
  Qed.
  Lemma dn_every cs : Forall Dn cs. Proof. apply Forall_forall. intros c _. apply dn_all. Qed.
  Definition flat_env (d : document3) : chunk2 := mkChunk2 1 (Environment2 (mkEnv2 (S! "document") (flat_args (d_body_args d)) (flats (d_body d)) (d_begin_prec d) (d_end_prec d))).
  Lemma dn_document d d2 : @from3_to2 E p d = Ok d2 -> doc2_eq d2 (fold_left push_chunk_unchecked2 (flats (d_trailing d)) (flats (d_preamable d) ++ [flat_env d])).
  Proof.
    intros K. unfold from3_to2 in K. apply bind_ok in K as (pre & K1 & K). cbv zeta in K. apply bind_ok in K as (ls & _ & K). apply bind_ok in K as (pl & _ & K).
    apply bind_ok in K as (offs & _ & K). apply bind_ok in K as (off & _ & K). apply bind_ok in K as (bo & _ & K). apply bind_ok in K as (body & K2 & K).
    apply bind_ok in K as (bc & K3 & K). apply bind_ok in K as (args & K4 & K). apply bind_ok in K as (bl & _ & K). apply bind_ok in K as (x & _ & K). apply bind_ok in K as (to & _ & K).
    apply bind_ok in K as (tr & K5 & K). apply bind_ok in K as (tr' & K6 & K). injection K as <-.
    pose proof (dn_list _ (dn_every _) _ K1) as H1. pose proof (dn_list _ (dn_every _) _ K2) as H2. pose proof (dn_list _ (dn_every _) _ K5) as H5.
    assert (H4 : uargs2 args = uargs2 (flat_args (d_body_args d))).
    { eapply dn_args; [|exact K4]. apply Forall_forall. intros a _. apply dn_every. }
    apply (shift_doc (Ok bo)) in K3. apply (shift_doc (Ok to)) in K6.
    assert (F : forall t t', doc2_eq t t' -> forall o o', doc2_eq o o' -> doc2_eq (fold_left push_chunk_unchecked2 t o) (fold_left push_chunk_unchecked2 t' o')).
    { clear. intros t t' H. apply (map_eq_Forall2 unnumbered_chunk2) in H. induction H as [|x x' t t' Hx _ IH]; intros o o' Ho; [exact Ho|]. cbn [fold_left]. apply IH, doc2_push; assumption. }
    apply F; [unfold doc2_eq in *; congruence|]. unfold flat_env. rewrite <- (push_other2 (flats (d_preamable d))). apply doc2_push; [exact H1|].
    cbn [unnumbered_chunk2 unnumbered_variant2 unnumbered_env2]. do 3 f_equal; [exact H4|]. unfold doc2_eq in K3, H2. unfold unnumbered2 in *. congruence.
  Qed.
End Down.
Lemma flats_show cs : show2 (flats cs) = show_chunks3 cs.
Proof.
  assert (K : forall c, show2 (flat c) = show_chunk3 c).
  { intros c. destruct (fine_into2 (E := error) Release c) as [(o & H)|[H _]]; [|discriminate]. pose proof (dn_all Release c o H) as D. pose proof (into2_show Release c o H) as Sh.
    rewrite <- Sh, <- (ushow2 o), <- (ushow2 (flat c)). unfold doc2_eq in D. now rewrite D. }
  induction cs as [|c cs IH]; [reflexivity|]. change (flats (c :: cs)) with (flat c ++ flats cs). rewrite show2_app, IH, K. reflexivity.
Qed.

(** ** Range *)
Inductive Ones : list chunk2 -> Prop :=
| ones_intro cs : (forall l v, In (mkChunk2 l v) cs -> l = 1) -> (forall l v inner, In (mkChunk2 l v) cs -> inside v inner -> Ones inner) -> Ones cs.
Lemma ones_all cs : (forall c, In c cs -> Ones [c]) -> Ones cs.
Proof.
  intros H. constructor.
  - intros l v Hi. specialize (H _ Hi). inversion H as [? K _]; subst. eapply K. now left.
  - intros l v inner Hi Hin. specialize (H _ Hi). inversion H as [? _ K]; subst. eapply K; [now left|exact Hin].
Qed.
Lemma ones_one cs c : Ones cs -> In c cs -> Ones [c].
Proof. intros H Hi. inversion H as [? K1 K2]; subst. constructor; [intros l v [->|[]]; eapply K1, Hi|intros l v inner [->|[]] Hin; eapply K2; eassumption]. Qed.
Lemma ones_app a b : Ones a -> Ones b -> Ones (a ++ b).
Proof. intros A B. apply ones_all. intros c Hc. apply in_app_or in Hc as [Hc|Hc]; [exact (ones_one _ _ A Hc)|exact (ones_one _ _ B Hc)]. Qed.
Lemma ones_text l s : l = 1 -> Ones [mkChunk2 l (Text2 s)].
Proof. intros ->. constructor; [intros l v [E|[]]; congruence|intros l v inner [E|[]] Hi; injection E as <- <-; inversion Hi]. Qed.
Lemma ones_cons v : (forall inner, inside v inner -> Ones inner) -> Ones [mkChunk2 1 v].
Proof. intros H. constructor; [intros l w [E|[]]; congruence|intros l w inner [E|[]] Hi; injection E as <- <-; auto]. Qed.
Lemma ones_list cs : Forall (fun c => Ones (flat c)) cs -> Ones (flats cs).
Proof. induction 1; [apply ones_all; intros c []|]. change (flats (x :: l)) with (flat x ++ flats l). now apply ones_app. Qed.
Lemma flat_args_in args pre cs2 w : In (pre, mkScope2 cs2 w) (flat_args args) -> exists cs v, In (pre, mkScope3 cs v) args /\ cs2 = flats cs /\ w = sv2_of_sv3 v.
Proof. intros H. apply in_map_iff in H as ([p0 [cs v]] & E & Hi). injection E as <- <- <-. eauto. Qed.
Lemma ones_flat c : Ones (flat c).
Proof.
  induction c as [k s|k s|k lab args IH|k cs v IH|k lab args cs pb pe IHa IHc|k v t cs IH] using chunk3_ind'; cbn [flat].
  - now apply ones_text.
  - now apply ones_text.
  - apply ones_cons. intros inner Hi. inversion Hi; subst. fold (flat_args args) in *. apply flat_args_in in H2 as (c3 & v3 & H2 & -> & _).
    rewrite Forall_forall in IH. exact (ones_list _ (IH _ H2)).
  - apply ones_cons. intros inner Hi. inversion Hi; subst. exact (ones_list _ IH).
  - apply ones_cons. intros inner Hi. inversion Hi; subst; [|exact (ones_list _ IHc)]. match goal with H : In _ (map _ _) |- _ => rename H into H2 end. fold (flat_args args) in *. apply flat_args_in in H2 as (c3 & v3 & H2 & -> & _).
    rewrite Forall_forall in IHa. exact (ones_list _ (IHa _ H2)).
  - assert (B : forall lab, Ones [mkChunk2 1 (Command2 (mkCommand2 lab []))]) by (intros lab; apply ones_cons; intros inner Hi; inversion Hi as [|? ? ? ? ? Hn| |]; destruct Hn).
    destruct v.
    + apply (ones_app [_]); [apply B|]. apply ones_app; [exact (ones_list _ IH)|apply B].
    + apply ones_all. intros [l v] Hc. pose proof (ones_list _ IH) as H. assert (l = 1) by (eapply dollared_ones; [|exact Hc]; inversion H; assumption). subst l.
      destruct v; [now apply ones_text| | |]; apply dollared_in in Hc; try reflexivity; exact (ones_one _ _ H Hc).
Qed.
Definition small (s : str) : Prop := N.of_nat (length s) < two32 /\ count_newlines s < 2147483648.
Lemma small_sub a b : sub a b -> small b -> small a.
Proof. intros H [K1 K2]. pose proof (sub_len _ _ H). pose proof (sub_nl _ _ H). split; lia. Qed.
Lemma ones_fits cs : Ones cs -> small (show2 cs) -> fits cs.
Proof.
  induction 1 as [cs H1 _ IH]. intros Sm.
  assert (K : forall l v inner, In (mkChunk2 l v) cs -> inside v inner -> fits inner).
  { intros l v inner Hi Hin. eapply IH; [exact Hi|exact Hin|]. eapply small_sub; [|exact Sm]. eapply sub_trans; [apply inside_show, Hin|exact (show2_in _ _ Hi)]. }
  split; constructor.
  - fold (ncmd cs). pose proof (ncmd_show cs). destruct Sm as [Sm _]. unfold two32 in Sm. lia.
  - intros l s Hi. rewrite (H1 _ _ Hi). destruct Sm as [_ Sm]. pose proof (sub_nl _ _ (show2_in _ _ Hi)) as Hn. cbn [show_chunk2 show_variant2] in Hn. lia.
  - intros l v inner Hi Hin. exact (proj1 (K _ _ _ Hi Hin)).
  - intros l v Hi. rewrite (H1 _ _ Hi). reflexivity.
  - intros l v inner Hi Hin. exact (proj2 (K _ _ _ Hi Hin)).
Qed.

(** ** What only the top level shows: documents, classes, texts side by side *)
Lemma no_document_flat c : no_document c = true -> forall x, In x (flat c) -> ~ is_document x.
Proof.
  induction c as [k s|k s|k lab args _|k cs v _|k lab args cs pb pe _ _|k v t cs IH] using chunk3_ind'; intros H x Hx (l & a & co & b & e & ->); cbn [flat] in Hx.
  1-4: destruct Hx as [Hx|[]]; discriminate.
  - destruct Hx as [Hx|[]]. injection Hx as _ -> _ _ _ _. cbn [no_document] in H. now rewrite str_eqb_refl in H.
  - rewrite Forall_forall in IH. cbn [no_document] in H. rewrite forallb_forall in H.
    assert (Hf : In (mkChunk2 l (Environment2 (mkEnv2 (S! "document") a co b e))) (flats cs)).
    { destruct v; [|apply dollared_in in Hx; [exact Hx|reflexivity]]. destruct Hx as [Hx|Hx]; [discriminate|]. apply in_app_or in Hx as [Hx|[Hx|[]]]; [exact Hx|discriminate]. }
    apply in_flat_map in Hf as (c & Hc & Hf). apply (IH c Hc (H c Hc) _ Hf). repeat eexists.
Qed.
Lemma class_commands_app a b : class_commands (a ++ b) = class_commands a ++ class_commands b.
Proof. induction a as [|[l v] a IH]; [reflexivity|]. destruct v as [s|[lab args]| |]; cbn [app class_commands]; [exact IH| |exact IH|exact IH]. rewrite IH. now destruct (str_eqb lab _). Qed.
Lemma class_prepend d out : class_commands (prepend_dollars d out) = class_commands out.
Proof. destruct out as [|[l []] out]; reflexivity. Qed.
Lemma class_dollared d out : class_commands (dollared d out) = class_commands out.
Proof.
  unfold dollared. destruct out as [|c out]; [reflexivity|]. assert (N : prepend_dollars d (c :: out) <> []) by (destruct c as [? []]; discriminate).
  rewrite <- (class_prepend d (c :: out)). destruct (append_cases d 1 _ N) as [(A & k & s & E1 & E2)|(A & y & E1 & E0 & E2)]; rewrite E2, E1, !class_commands_app; [reflexivity|].
  f_equal.
Qed.
Lemma class_flat c : class_commands (flat c) = map (fun a => (1, flat_args a)) (class_args c).
Proof.
  induction c as [k s|k s|k lab args _|k cs v _|k lab args cs pb pe _ _|k v t cs IH] using chunk3_ind'; try reflexivity.
  - cbn [flat class_commands class_args]. destruct (str_eqb lab _); reflexivity.
  - assert (K : class_commands (flats cs) = map (fun a => (1, flat_args a)) (flat_map class_args cs)).
    { induction IH as [|c cs H _ IH]; [reflexivity|]. change (flats (c :: cs)) with (flat c ++ flats cs). cbn [flat_map]. rewrite class_commands_app, map_app, H, IH. reflexivity. }
    destruct v; cbn [flat class_args]; fold (flats cs).
    + rewrite <- K. change (mkChunk2 1 (Command2 (mkCommand2 [opener t] [])) :: flats cs ++ [mkChunk2 1 (Command2 (mkCommand2 [closer t] []))])
        with ([mkChunk2 1 (Command2 (mkCommand2 [opener t] []))] ++ flats cs ++ [mkChunk2 1 (Command2 (mkCommand2 [closer t] []))]).
      rewrite !class_commands_app. destruct t; cbn [class_commands opener closer]; change (str_eqb [_] (S! "documentclass")) with false; cbn iota; apply app_nil_r.
    + now rewrite class_dollared.
Qed.
Lemma class_flats cs : class_commands (flats cs) = map (fun a => (1, flat_args a)) (flat_map class_args cs).
Proof.
  induction cs as [|c cs IH]; [reflexivity|]. change (flats (c :: cs)) with (flat c ++ flats cs). cbn [flat_map]. rewrite class_commands_app, map_app, class_flat, IH. reflexivity.
Qed.
Lemma curly_flat args : curly_texts (flat_args args) = curly_texts3 args.
Proof. induction args as [|[pre [cs v]] args IH]; [reflexivity|]. destruct v; cbn [flat_args map curly_texts curly_texts3 sv2_of_sv3]; fold (flat_args args); rewrite ?IH, ?flats_show; reflexivity. Qed.
Lemma option_flat args : option_texts (flat_args args) = option_texts3 args.
Proof. induction args as [|[pre [cs v]] args IH]; [reflexivity|]. destruct v; cbn [flat_args map option_texts option_texts3 sv2_of_sv3]; fold (flat_args args); rewrite ?IH, ?flats_show; reflexivity. Qed.
Lemma declared_flat cmds cls : declared3 cmds = Some cls -> declared_class (map (fun a => (1, flat_args a)) cmds) = inr cls.
Proof.
  induction cmds as [|a cmds IH]; cbn [declared3 map declared_class]; [congruence|]. rewrite curly_flat. destruct (curly_texts3 a) as [|x [|y r]]; [exact IH| |discriminate].
  destruct cmds; cbn [map]; [congruence|discriminate].
Qed.
Lemma options_flat cmds : all_options (map (fun a => (1, flat_args a)) cmds) = flat_map option_texts3 cmds.
Proof. unfold all_options. induction cmds as [|a cmds IH]; [reflexivity|]. cbn [map flat_map snd]. now rewrite IH, option_flat. Qed.
Definition first_is {A} (f : A -> bool) (l : list A) : bool := match l with x :: _ => f x | [] => false end.
Fixpoint last_is {A} (f : A -> bool) (l : list A) : bool := match l with [] => false | [x] => f x | _ :: r => last_is f r end.
Lemma last_snoc {A} (f : A -> bool) l x : last_is f (l ++ [x]) = f x.
Proof. induction l as [|a [|b l] IH]; [reflexivity|reflexivity|exact IH]. Qed.
Lemma last_app {A} (f : A -> bool) a b : b <> [] -> last_is f (a ++ b) = last_is f b.
Proof. intros H. destruct (exists_last H) as (b' & x & ->). now rewrite app_assoc, !last_snoc. Qed.
Lemma first_app {A} (f : A -> bool) a b : a <> [] -> first_is f (a ++ b) = first_is f a.
Proof. now destruct a. Qed.
Lemma no_two_app {A} (f : A -> bool) a b : no_two f (a ++ b) = no_two f a && no_two f b && negb (last_is f a && first_is f b).
Proof.
  induction a as [|x a IH]; [cbn [app no_two last_is andb negb]; now rewrite andb_true_r|]. destruct a as [|y a].
  - cbn [app last_is]. destruct b as [|z b]; cbn [no_two first_is andb]; [now rewrite andb_false_r|]. apply andb_comm.
  - change ((x :: y :: a) ++ b) with (x :: (y :: a) ++ b). change (no_two f (x :: (y :: a) ++ b)) with (negb (f x && f y) && no_two f ((y :: a) ++ b)). rewrite IH.
    change (no_two f (x :: y :: a)) with (negb (f x && f y) && no_two f (y :: a)). change (last_is f (x :: y :: a)) with (last_is f (y :: a)). now rewrite !andb_assoc.
Qed.
Definition tidy_edges (b : bool) (F : list chunk2) : Prop := no_two is_text2 F = true /\ first_is is_text2 F = b /\ last_is is_text2 F = b.
Lemma dollared_edges d out : no_two is_text2 out = true -> tidy_edges true (dollared d out).
Proof.
  intros H. unfold dollared. destruct out as [|c out]; [repeat split|].
  assert (N : prepend_dollars d (c :: out) <> []) by (destruct c as [? []]; discriminate).
  assert (P : no_two is_text2 (prepend_dollars d (c :: out)) = true /\ first_is is_text2 (prepend_dollars d (c :: out)) = true).
  { destruct c as [k v]. destruct v; cbn [prepend_dollars]; (split; [|reflexivity]); [destruct out; [reflexivity|exact H]|exact H|exact H|exact H]. }
  destruct P as [P1 P2]. destruct (append_cases d 1 _ N) as [(A & k & s & E1 & E2)|(A & y & E1 & E0 & E2)]; rewrite E2; rewrite E1 in P1, P2.
  - rewrite no_two_app in P1. split; [rewrite no_two_app; exact P1|]. split; [|now rewrite last_snoc]. destruct A; [reflexivity|exact P2].
  - rewrite no_two_app in P1. apply andb_prop in P1 as [P1 P3]. apply andb_prop in P1 as [P1 _]. split.
    + rewrite no_two_app, P1. cbn [no_two first_is is_text2] in *. now rewrite E0, andb_false_r.
    + split; [|change [y; mkChunk2 1 (Text2 d)] with ([y] ++ [mkChunk2 1 (Text2 d)]); now rewrite app_assoc, last_snoc]. destruct A; [cbn in P2; congruence|exact P2].
Qed.
Lemma flat_edges c : apart c = true -> tidy_edges (touches c) (flat c).
Proof.
  induction c as [k s|k s|k lab args _|k cs v _|k lab args cs pb pe _ _|k v t cs IH] using chunk3_ind'; intros H; try (repeat split; fail).
  assert (K : forall cs, Forall (fun c => apart c = true -> tidy_edges (touches c) (flat c)) cs -> no_two touches cs = true -> forallb apart cs = true ->
    no_two is_text2 (flats cs) = true /\ first_is is_text2 (flats cs) = first_is touches cs).
  { clear. induction 1 as [|c cs Hc _ IH]; intros H1 H2; [split; reflexivity|]. cbn [forallb] in H2. apply andb_prop in H2 as [H2 H3]. destruct (Hc H2) as (E1 & E2 & E3).
    change (flats (c :: cs)) with (flat c ++ flats cs). assert (H1' : no_two touches cs = true) by (destruct cs; [reflexivity|]; cbn [no_two] in H1; apply andb_prop in H1 as [_ H1]; exact H1).
    destruct (IH H1' H3) as [E4 E5]. split; [|rewrite first_app by apply flat_nonempty; exact E2]. rewrite no_two_app, E1, E4, E3, E5.
    destruct cs as [|b cs]; [cbn [first_is]; now rewrite andb_false_r|]. cbn [no_two] in H1. apply andb_prop in H1 as [H1 _]. exact H1. }
  cbn [apart] in H. apply andb_prop in H as [H1 H2]. destruct (K cs IH H1 H2) as [E1 E2]. destruct v; cbn [flat touches textual orb]; fold (flats cs).
  - split.
    + destruct (flats cs) as [|y ys] eqn:Ey; [reflexivity|]. change (mkChunk2 1 (Command2 (mkCommand2 [opener t] [])) :: (y :: ys) ++ [mkChunk2 1 (Command2 (mkCommand2 [closer t] []))])
        with ([mkChunk2 1 (Command2 (mkCommand2 [opener t] []))] ++ (y :: ys) ++ [mkChunk2 1 (Command2 (mkCommand2 [closer t] []))]).
      rewrite !no_two_app, E1. cbn [no_two last_is is_text2 andb first_is negb]. now rewrite andb_false_r.
    + split; [reflexivity|]. change (mkChunk2 1 (Command2 (mkCommand2 [opener t] [])) :: flats cs ++ [mkChunk2 1 (Command2 (mkCommand2 [closer t] []))])
        with ((mkChunk2 1 (Command2 (mkCommand2 [opener t] [])) :: flats cs) ++ [mkChunk2 1 (Command2 (mkCommand2 [closer t] []))]). now rewrite last_snoc.
  - now apply dollared_edges.
Qed.
Lemma flats_edges cs : spaced cs = true -> no_two is_text2 (flats cs) = true.
Proof.
  intros H. unfold spaced in H. apply andb_prop in H as [H1 H2].
  pose proof (flat_edges (mkChunk3 0 (Maths3 (mkMaths3 Brackets Inline cs)))) as (E & _ & _); [cbn [apart]; now rewrite H1|].
  cbn [flat] in E. fold (flats cs) in E. change (mkChunk2 1 ?v :: flats cs ++ ?r) with ([mkChunk2 1 v] ++ flats cs ++ r) in E. rewrite !no_two_app in E.
  apply andb_prop in E as [E _]. apply andb_prop in E as [_ E]. apply andb_prop in E as [E _]. apply andb_prop in E as [E _]. exact E.
Qed.
Lemma push_apart cs : forall A c, no_two is_text2 (c :: cs) = true -> fold_left push_chunk_unchecked2 cs (A ++ [c]) = A ++ c :: cs.
Proof.
  induction cs as [|x cs IH]; intros A c H; [reflexivity|]. change (no_two is_text2 (c :: x :: cs)) with (negb (is_text2 c && is_text2 x) && no_two is_text2 (x :: cs)) in H. apply andb_prop in H as [H1 H2].
  cbn [fold_left]. assert (E : push_chunk_unchecked2 (A ++ [c]) x = (A ++ [c]) ++ [x]).
  { clear - H1. induction A as [|a A IH]; [|cbn [app]; destruct (A ++ [c]) as [|y ys] eqn:Ey; [now destruct A|]; rewrite <- IH; reflexivity].
    destruct c as [l v], x as [k w]. destruct v, w; try discriminate; reflexivity. }
  rewrite E, IH by exact H2. now rewrite <- app_assoc.
Qed.

(** ** Documents *)
Definition flat_doc (d : document3) : list chunk2 := flats (d_preamable d) ++ flat_env d :: flats (d_trailing d).
Lemma dn_flat {E} p d d2 : spaced (d_trailing d) = true -> @from3_to2 E p d = Ok d2 -> doc2_eq d2 (flat_doc d).
Proof.
  intros H K. pose proof (dn_document p d d2 K) as D. rewrite push_apart in D; [exact D|]. pose proof (flats_edges _ H) as N. destruct (flats (d_trailing d)); [reflexivity|exact N].
Qed.
Lemma flat_doc_ones d : Ones (flat_doc d).
Proof.
  assert (L : forall cs, Ones (flats cs)) by (intros cs; apply ones_list, Forall_forall; intros c _; apply ones_flat).
  unfold flat_doc. apply ones_app; [apply L|]. apply (ones_app [_]); [|apply L]. apply ones_cons. intros inner Hi. inversion Hi; subst; [|apply L].
  match goal with H : In _ (flat_args _) |- _ => apply flat_args_in in H as (c3 & v3 & _ & -> & _) end. apply L.
Qed.
Theorem up_document d cls opts : shaped_document d -> declares (d_preamable d) cls opts ->
  exists d', unnumbered_document3 d' = unnumbered_document3 (again cls opts d) /\ wreads_document (flat_doc d) (Good d').
Proof.
  intros (Sc & Sa & N1 & N2) (Dc & pss & Dp & Do).
  assert (U : forall cs, (forall c, In c cs -> In c (d_preamable d ++ d_body d ++ d_trailing d)) -> exists out, doc3_eq out (moves cs) /\ forall bl, wreads bl (flats cs) (Good out)).
  { intros cs H. apply up_read, up_chunks. intros c Hc. apply Sc, H, Hc. }
  destruct (U (d_preamable d)) as (o1 & E1 & W1); [intros; apply in_or_app; now left|].
  destruct (U (d_body d)) as (o2 & E2 & W2); [intros; apply in_or_app; right; apply in_or_app; now left|].
  destruct (U (d_trailing d)) as (o3 & E3 & W3); [intros; apply in_or_app; right; apply in_or_app; now right|].
  destruct (up_args (d_body_args d)) as (oa & Ea & Wa); [apply Forall_forall; intros a _; apply Forall_forall; intros c _; apply up_all|exact Sa|].
  exists (mkDoc3 cls opts o1 o2 oa (d_begin_prec d) (d_end_prec d) o3). split.
  - unfold unnumbered_document3, again. cbn [d_class d_options d_preamable d_body d_body_args d_begin_prec d_end_prec d_trailing].
    unfold doc3_eq in *. rewrite E1, E2, E3. f_equal. exact Ea.
  - pose proof (wc_parts (flat_doc d) (flats (d_preamable d)) [mkEnv2 (S! "document") (flat_args (d_body_args d)) (flats (d_body d)) (d_begin_prec d) (d_end_prec d)] (flats (d_trailing d)) cls pss opts
      (Good (Some (Environment3 (mkEnv3 (S! "document") oa o2 (d_begin_prec d) (d_end_prec d))))) (Good o1) (Good o3)) as W.
    cbn [andthen on document_of] in W. apply W; clear W.
    + assert (Nd : forall cs, forallb no_document cs = true -> forall x, In x (flats cs) -> ~ is_document x).
      { intros cs H x Hx. apply in_flat_map in Hx as (c & Hc & Hx). rewrite forallb_forall in H. exact (no_document_flat c (H c Hc) x Hx). }
      exists (flat_env d :: flats (d_trailing d)). split; [reflexivity|]. split; [apply Forall_forall; apply Nd, N1|]. split; [intros c r E; injection E as <- _; repeat eexists|].
      apply dv_document. pose proof (Nd _ N2) as Nt. clear - Nt. induction (flats (d_trailing d)) as [|x xs IH]; [constructor|]. apply dv_other; [apply Nt; now left|apply IH; intros; apply Nt; now right].
    + rewrite class_flats. now apply declared_flat.
    + rewrite class_flats, options_flat. exact Dp.
    + exact Do.
    + pose proof (wb_cons _ [] _ _ (wv_environment (S! "document") _ _ (d_begin_prec d) (d_end_prec d) _ _ Wa (W2 0)) wb_nil) as B. exact B.
    + apply W1.
    + apply W3.
Qed.
Theorem down_up d cls opts : shaped_document d -> spaced (d_trailing d) = true -> small (full_text d) -> declares (d_preamable d) cls opts ->
  exists d2 d', from3_to2 Release d = @Ok error _ d2 /\ try_from3 Release d2 = Ok d' /\ unnumbered_document3 d' = unnumbered_document3 (again cls opts d).
Proof.
  intros Sh Sp Sm De. destruct (@back3_release error d) as [d2 H2]. exists d2. pose proof (dn_flat Release d d2 Sp H2) as D.
  destruct (up_document d cls opts Sh De) as (d' & E & W).
  assert (Fit : fits (flat_doc d)).
  { apply ones_fits; [apply flat_doc_ones|]. unfold doc2_eq in D. rewrite <- ushow2, <- D, ushow2, (back3_show Release d d2 H2). exact Sm. }
  pose proof (wdocument_forward _ _ Fit W) as T. cbn [to_outcome] in T.
  pose proof (sim_try_from3 Release Release false (or_intror (conj eq_refl eq_refl)) d2 (flat_doc d) D) as [[X _]|S]; [discriminate|]. rewrite T in S.
  destruct (try_from3 Release d2) as [d''|e| |]; try contradiction. exists d''. split; [exact H2|]. split; [reflexivity|]. rewrite <- E. exact S.
Qed.
