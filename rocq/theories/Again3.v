(** * Again3: from stage 3 down to stage 2 and up again: the chunks *)
From Verif Require Import Base Ast1 Parse1 Ast2 Ast3 SpecUnnum SpecDoc3 SpecMaths3 SpecPar3 SpecReads SpecClass3 SpecRead3 SpecWrap SpecAgain3 Ind Par3 Maths3 Unnum Unnum3.
From Coq Require Import Lia.

Definition dollars_of (t : maths_type) : str := match t with Inline => [c_dollar] | Outline => [c_dollar; c_dollar] end.
Definition dollared (d : str) (out : list chunk2) : list chunk2 :=
  match out with [] => [mkChunk2 1 (Text2 (d ++ d))] | _ => append_dollars d 1 (prepend_dollars d out) end.
(** stage 2 with all line numbers 1 *)
Fixpoint flat (c : chunk3) : list chunk2 :=
  let args := map (fun a => match a with (pre, mkScope3 cs v) => (pre, mkScope2 (flat_map flat cs) (sv2_of_sv3 v)) end) in
  match c with
  | mkChunk3 _ (Text3 s) | mkChunk3 _ (ParagraphBreak3 s) => [mkChunk2 1 (Text2 s)]
  | mkChunk3 _ (Command3 (mkCommand3 lab a)) => [mkChunk2 1 (Command2 (mkCommand2 lab (args a)))]
  | mkChunk3 _ (Scope3 (mkScope3 cs v)) => [mkChunk2 1 (Scope2 (mkScope2 (flat_map flat cs) (sv2_of_sv3 v)))]
  | mkChunk3 _ (Environment3 (mkEnv3 lab a content pb pe)) => [mkChunk2 1 (Environment2 (mkEnv2 lab (args a) (flat_map flat content) pb pe))]
  | mkChunk3 _ (Maths3 (mkMaths3 Brackets t content)) =>
      mkChunk2 1 (Command2 (mkCommand2 [opener t] [])) :: flat_map flat content ++ [mkChunk2 1 (Command2 (mkCommand2 [closer t] []))]
  | mkChunk3 _ (Maths3 (mkMaths3 Dollars t content)) => dollared (dollars_of t) (flat_map flat content)
  end.
Definition flats (cs : list chunk3) : list chunk2 := flat_map flat cs.
Definition flat_args (args : list (str * scope3)) := map (fun a => match a with (pre, mkScope3 cs v) => (pre, mkScope2 (flats cs) (sv2_of_sv3 v)) end) args.
Lemma flats_app a b : flats (a ++ b) = flats a ++ flats b. Proof. apply flat_map_app. Qed.
Lemma moves_app a b : moves (a ++ b) = moves a ++ moves b. Proof. apply flat_map_app. Qed.

(** ** The reading of [F] is [M] up to line numbers, whatever follows *)
Definition up (F : list chunk2) (M : list chunk3) : Prop :=
  forall rest o, (forall bl, wreads bl rest (Good o)) ->
    exists out, doc3_eq out M /\ forall bl, wreads bl (F ++ rest) (Good (out ++ o)).
Lemma up_nil : up [] [].
Proof. intros rest o H. exists []. split; [reflexivity|exact H]. Qed.
Lemma doc3_app a a' b b' : doc3_eq a a' -> doc3_eq b b' -> doc3_eq (a ++ b) (a' ++ b').
Proof. unfold doc3_eq. rewrite !unnumbered3_app. congruence. Qed.
Lemma up_app F F' M M' : up F M -> up F' M' -> up (F ++ F') (M ++ M').
Proof.
  intros H H' rest o K. destruct (H' rest o K) as (o' & E' & K'). destruct (H (F' ++ rest) (o' ++ o) K') as (o1 & E1 & K1).
  exists (o1 ++ o'). split; [now apply doc3_app|]. intros bl. rewrite <- !app_assoc. apply K1.
Qed.
Lemma up_read F M : up F M -> exists out, doc3_eq out M /\ forall bl, wreads bl F (Good out).
Proof. intros H. destruct (H [] [] ltac:(intros; constructor)) as (o & E & K). exists o. split; [exact E|]. intros bl. specialize (K bl). now rewrite !app_nil_r in K. Qed.
Lemma up_one v v3 : plain v -> (forall s, v <> Text2 s) -> (exists w, unnumbered_variant3 w = unnumbered_variant3 v3 /\ wreads_variant v (Good w)) -> forall l,
  up [mkChunk2 1 v] [mkChunk3 l v3].
Proof.
  intros P T (w & E & H) l rest o K. exists [mkChunk3 1 w]. split.
  - unfold doc3_eq, unnumbered3. cbn [map unnumbered_chunk3]. now rewrite E.
  - intros bl. cbn [app]. exact (wd_plain bl 1 v rest (Good w) (Good o) P H (K bl)).
Qed.
Lemma up_text l s : ~ In c_dollar s -> s <> [] -> ~ has_break s -> up [mkChunk2 1 (Text2 s)] [mkChunk3 l (Text3 s)].
Proof.
  intros D N B rest o K. exists [mkChunk3 1 (Text3 s)]. split; [reflexivity|]. intros bl.
  replace [mkChunk3 1 (Text3 s)] with (text_chunk3 1 s) by (destruct s; [congruence|reflexivity]).
  exact (wd_text bl 1 s rest _ (Good o) D (pp_text 1 s B) (K bl)).
Qed.
Lemma blank_no_dollar b : forallb is_whitespace b = true -> ~ In c_dollar b.
Proof. intros H Hi. rewrite forallb_forall in H. specialize (H _ Hi). discriminate. Qed.
Lemma break_paragraphs L b : is_break b -> paragraphs L b [mkChunk3 (break_line L b) (ParagraphBreak3 b)].
Proof.
  intros B. pose proof (pp_break L [] b [] (text_chunk3 (L + 0 + count_newlines b) [])) as H. rewrite app_nil_r in H. cbn [app text_chunk3 count_newlines] in H.
  change (count_newlines []) with 0 in H. rewrite N.add_0_r in H. apply H; [|exact B|discriminate|].
  - intros (x & w & y & E & _). destruct x as [|? [|? x]]; try discriminate. destruct w as [|? w]; discriminate.
  - apply (pp_text _ []). intros (x & w & y & E & _). destruct x; discriminate.
Qed.
Lemma up_break l b : is_break b -> up [mkChunk2 1 (Text2 b)] [mkChunk3 l (ParagraphBreak3 b)].
Proof.
  intros B rest o K. exists [mkChunk3 (break_line 1 b) (ParagraphBreak3 b)]. split; [reflexivity|]. intros bl.
  exact (wd_text bl 1 b rest _ (Good o) (blank_no_dollar b (proj1 (proj2 B))) (break_paragraphs 1 b B) (K bl)).
Qed.

Definition Up (c : chunk3) : Prop := shaped c -> up (flat c) (moves_chunk c).
Lemma up_list cs : Forall Up cs -> (forall c, In c cs -> shaped c) -> up (flats cs) (moves cs).
Proof.
  induction 1 as [|c cs H _ IH]; intros K; [apply up_nil|]. unfold flats, moves. cbn [flat_map]. apply up_app; [apply H, K; now left|].
  apply IH. intros x Hx. apply K. now right.
Qed.
Lemma v3_of v : variant3_of (sv2_of_sv3 v) = v. Proof. now destruct v. Qed.
Lemma up_args args : Forall (fun a => Forall Up (chunks3 (snd a))) args -> (forall pre cs v c, In (pre, mkScope3 cs v) args -> In c cs -> shaped c) ->
  exists out, uargs3 out = uargs3 (moves_args args) /\ wreads_args (flat_args args) (Good out).
Proof.
  induction 1 as [|[pre [cs v]] args H _ IH]; intros K; [exists []; split; [reflexivity|constructor]|].
  destruct IH as (out & E & IH); [intros; eapply K; [right|]; eassumption|].
  destruct (up_read _ _ (up_list cs H (fun c Hc => K pre cs v c (or_introl eq_refl) Hc))) as (o & Eo & Ho).
  exists ((pre, mkScope3 o v) :: out). split.
  - unfold moves_args, uargs3 in *. cbn [map]. rewrite E. f_equal. f_equal. cbn [unnumbered_scope3]. f_equal. exact Eo.
  - change (flat_args ((pre, mkScope3 cs v) :: args)) with ((pre, mkScope2 (flats cs) (sv2_of_sv3 v)) :: flat_args args).
    pose proof (wa_cons pre (flats cs) (sv2_of_sv3 v) _ _ _ (Ho 0) IH) as W. cbn [andthen on] in W. now rewrite v3_of in W.
Qed.

(** ** Dollar blocks *)
Definition free (G : list chunk2) : Prop := forall l s, In (mkChunk2 l (Text2 s)) G -> ~ In c_dollar s.
Definition is_text2 (c : chunk2) : bool := match c with mkChunk2 _ (Text2 _) => true | _ => false end.
Definition leaks_of (G : list chunk2) : list chunk3 := flat_map (fun c => match c with mkChunk2 l (Text2 s) => text_chunk3 l s | _ => [] end) G.
Definition rest_of (G : list chunk2) : list chunk2 := filter (fun c => negb (is_text2 c)) G.
Lemma upto_gen G l z r cs : free G -> ~ In c_dollar z ->
  upto (G ++ mkChunk2 l (Text2 (z ++ c_dollar :: r)) :: cs) (leaks_of G) (rest_of G) l z (mkChunk2 (l + count_newlines z) (Text2 r) :: cs).
Proof.
  intros F Z. induction G as [|[k v] G IH]; [now constructor|].
  assert (F' : free G) by (intros k' s' Hi; eapply F; right; exact Hi). specialize (IH F').
  destruct v as [s|c|sc|e]; cbn [app leaks_of flat_map rest_of filter is_text2 negb]; try (apply ud_other; [discriminate|exact IH]).
  apply ud_text; [eapply F; now left|exact IH].
Qed.
Lemma block_inline G l z cs : free G -> ~ In c_dollar z -> rest_of G <> [] \/ z <> [] ->
  dollar_block Inline (G ++ mkChunk2 l (Text2 (z ++ [c_dollar])) :: cs) (leaks_of G) l (rest_of G ++ text_chunk2 l z) (mkChunk2 (l + count_newlines z) (Text2 []) :: cs).
Proof. intros F Z K. apply db_inline; [now apply upto_gen|exact K]. Qed.
Lemma block_outline k z0 G l z cs : ~ In c_dollar z0 -> free G -> ~ In c_dollar z ->
  dollar_block Outline (mkChunk2 k (Text2 (c_dollar :: z0)) :: G ++ mkChunk2 l (Text2 (z ++ [c_dollar; c_dollar])) :: cs)
    (leaks_of (mkChunk2 k (Text2 z0) :: G)) l (rest_of G ++ text_chunk2 l z) (mkChunk2 (l + count_newlines z) (Text2 []) :: cs).
Proof.
  intros Z0 F Z. pose proof (db_display (mkChunk2 k (Text2 (c_dollar :: z0)) :: G ++ mkChunk2 l (Text2 (z ++ [c_dollar; c_dollar])) :: cs) [] k
    (mkChunk2 (k + count_newlines []) (Text2 z0) :: G ++ mkChunk2 l (Text2 (z ++ [c_dollar; c_dollar])) :: cs)
    (leaks_of (mkChunk2 k (Text2 z0) :: G)) (rest_of G) l z (l + count_newlines z) [c_dollar] cs [] [] l z (mkChunk2 (l + count_newlines z) (Text2 []) :: cs)) as H.
  rewrite app_nil_r in H. cbn [app] in H. apply H; clear H.
  - apply (ud_here k [] z0). intros [].
  - change (count_newlines []) with 0. rewrite N.add_0_r. apply (upto_gen (mkChunk2 k (Text2 z0) :: G) l z [c_dollar] cs); [|exact Z].
    intros k' s [E|Hi]; [injection E as _ <-; exact Z0|exact (F _ _ Hi)].
  - apply ud_here, Z.
Qed.
(** a display in one text *)
Lemma block_outline1 k z cs : ~ In c_dollar z ->
  dollar_block Outline (mkChunk2 k (Text2 (c_dollar :: z ++ [c_dollar; c_dollar])) :: cs) [] k (text_chunk2 k z) (mkChunk2 (k + count_newlines z) (Text2 []) :: cs).
Proof.
  intros Z. pose proof (db_display (mkChunk2 k (Text2 (c_dollar :: z ++ [c_dollar; c_dollar])) :: cs) [] k
    (mkChunk2 (k + count_newlines []) (Text2 (z ++ [c_dollar; c_dollar])) :: cs) [] [] k z (k + count_newlines z) [c_dollar] cs [] [] k z (mkChunk2 (k + count_newlines z) (Text2 []) :: cs)) as H.
  cbn [app] in H. apply H; clear H.
  - apply (ud_here k [] (z ++ [c_dollar; c_dollar])). intros [].
  - change (count_newlines []) with 0. rewrite N.add_0_r. apply ud_here, Z.
  - apply ud_here, Z.
Qed.
Lemma moved_ones cs : (forall l v, In (mkChunk2 l v) cs -> l = 1) -> Forall2 (moved32 1) cs cs.
Proof.
  induction cs as [|[l v] cs IH]; intros H; constructor; [|apply IH; intros; eapply H; right; eassumption].
  rewrite (H l v (or_introl eq_refl)). cbn. repeat split; reflexivity.
Qed.
(** the block [F] of kind [t] is read *)
Lemma up_block t F leaks content pieces T M :
  (forall cs, exists s k, ~ In c_dollar (@nil char) /\ F ++ cs = mkChunk2 1 (Text2 (c_dollar :: s)) :: k /\
     exists z, dollar_block t (mkChunk2 (1 + count_newlines []) (Text2 s) :: k) leaks 1 content (mkChunk2 z (Text2 []) :: cs)) ->
  split_all leaks pieces -> doc3_eq pieces T -> (forall l v, In (mkChunk2 l v) content -> l = 1) -> up content M ->
  forall l, up F (T ++ [mkChunk3 l (Maths3 (mkMaths3 Dollars t M))]).
Proof.
  intros H Hs Ht H1 HM l rest o K. destruct (H rest) as (s & k & Hd & EF & z & HB). destruct (up_read _ _ HM) as (out & Eo & Ho).
  exists (pieces ++ [mkChunk3 1 (Maths3 (mkMaths3 Dollars t out))]). split.
  - apply doc3_app; [exact Ht|]. unfold doc3_eq, unnumbered3. cbn [map unnumbered_chunk3 unnumbered_variant3 unnumbered_maths3]. do 4 f_equal. exact Eo.
  - intros bl. rewrite EF. rewrite <- app_assoc. cbn [app].
    assert (Kz : wreads bl (mkChunk2 z (Text2 []) :: rest) (Good o)).
    { apply (wd_text bl z [] rest (text_chunk3 z []) (Good o)); [intros []|constructor; intros (x & w & y & E & _); destruct x; discriminate|apply K]. }
    exact (wd_dollars bl 1 [] s k t leaks 1 content _ pieces content (Good out) (Good o) Hd HB Hs (moved_ones _ H1) (Ho 0) Kz).
Qed.

Lemma append_text d n A l s : append_dollars d n (A ++ [mkChunk2 l (Text2 s)]) = A ++ [mkChunk2 l (Text2 (s ++ d))].
Proof.
  induction A as [|[k v] A IH]; [reflexivity|]. cbn [app]. destruct (A ++ [mkChunk2 l (Text2 s)]) as [|y ys] eqn:E; [now destruct A|].
  rewrite <- IH. destruct v; reflexivity.
Qed.
Lemma append_other d n A c : is_text2 c = false -> append_dollars d n (A ++ [c]) = A ++ [c; mkChunk2 n (Text2 d)].
Proof.
  intros H. induction A as [|[k v] A IH]; [destruct c as [l []]; try discriminate; reflexivity|]. cbn [app]. destruct (A ++ [c]) as [|y ys] eqn:E; [now destruct A|].
  rewrite <- IH. destruct v; reflexivity.
Qed.
Lemma append_cases d n out : out <> [] ->
  (exists A l s, out = A ++ [mkChunk2 l (Text2 s)] /\ append_dollars d n out = A ++ [mkChunk2 l (Text2 (s ++ d))]) \/
  (exists A c, out = A ++ [c] /\ is_text2 c = false /\ append_dollars d n out = A ++ [c; mkChunk2 n (Text2 d)]).
Proof.
  intros H. destruct (exists_last H) as (A & [l v] & ->). destruct v as [s|c|sc|e].
  - left. exists A, l, s. split; [reflexivity|]. apply append_text.
  - right. eexists A, _. split; [reflexivity|]. split; [reflexivity|]. now apply append_other.
  - right. eexists A, _. split; [reflexivity|]. split; [reflexivity|]. now apply append_other.
  - right. eexists A, _. split; [reflexivity|]. split; [reflexivity|]. now apply append_other.
Qed.
(** every property of all chunks but the texts is kept, and of texts if closed under dollars *)
Lemma dollared_in d out x : In x (dollared d out) -> is_text2 x = false -> In x out.
Proof.
  unfold dollared. destruct out as [|c out]; [intros [<-|[]]; discriminate|]. intros H K.
  assert (N : prepend_dollars d (c :: out) <> []) by (destruct c as [l []]; discriminate).
  assert (P : In x (prepend_dollars d (c :: out)) -> In x (c :: out)).
  { destruct c as [l []]; cbn [prepend_dollars]; intros [<-|Hi]; try discriminate; [right; exact Hi|exact Hi|exact Hi|exact Hi]. }
  destruct (append_cases d 1 _ N) as [(A & l & s & E1 & E2)|(A & y & E1 & E0 & E2)]; rewrite E2 in H; apply P; rewrite E1.
  - apply in_app_or in H as [H|[<-|[]]]; [apply in_or_app; now left|discriminate].
  - apply in_app_or in H as [H|[<-|[<-|[]]]]; [apply in_or_app; now left|apply in_or_app; right; now left|discriminate].
Qed.
Lemma dollared_ones d out : (forall l v, In (mkChunk2 l v) out -> l = 1) -> forall l v, In (mkChunk2 l v) (dollared d out) -> l = 1.
Proof.
  intros Ho. unfold dollared. destruct out as [|c out]; [intros l v [E|[]]; congruence|]. intros l v H.
  assert (N : prepend_dollars d (c :: out) <> []) by (destruct c as [? []]; discriminate).
  assert (P : forall l v, In (mkChunk2 l v) (prepend_dollars d (c :: out)) -> l = 1).
  { intros l0 v0. destruct c as [k []]; cbn [prepend_dollars]; intros [E|Hi]; try congruence; try (eapply Ho; eassumption).
    - injection E as <- _. eapply Ho. now left.
    - eapply Ho. right. exact Hi. }
  destruct (append_cases d 1 _ N) as [(A & k & s & E1 & E2)|(A & y & E1 & E0 & E2)]; rewrite E2 in H; apply in_app_or in H as [H|H].
  - eapply P. rewrite E1. apply in_or_app. left. exact H.
  - destruct H as [H|[]]. injection H as <- _. apply (P k (Text2 s)). rewrite E1. apply in_or_app. right. now left.
  - eapply P. rewrite E1. apply in_or_app. left. exact H.
  - destruct H as [->|[H|[]]]; [|congruence]. apply (P l v). rewrite E1. apply in_or_app. right. now left.
Qed.
Lemma flat_ones c : forall l v, In (mkChunk2 l v) (flat c) -> l = 1.
Proof.
  induction c as [k s|k s|k lab args _|k cs v _|k lab args cs pb pe _ _|k v t cs IH] using chunk3_ind'; intros l w H.
  1-5: cbn [flat In] in H; destruct H as [H|[]]; congruence.
  assert (IH' : forall l v, In (mkChunk2 l v) (flat_map flat cs) -> l = 1).
  { intros l0 v0 Hi. apply in_flat_map in Hi as (c & Hc & Hi). rewrite Forall_forall in IH. exact (IH c Hc _ _ Hi). }
  destruct v; cbn [flat] in H.
  - destruct H as [H|H]; [congruence|]. apply in_app_or in H as [H|[H|[]]]; [exact (IH' _ _ H)|congruence].
  - exact (dollared_ones _ _ IH' _ _ H).
Qed.
Lemma flats_ones cs l v : In (mkChunk2 l v) (flats cs) -> l = 1.
Proof. intros H. apply in_flat_map in H as (c & _ & H). exact (flat_ones c _ _ H). Qed.
Lemma dollared_nonempty d out : dollared d out <> [].
Proof.
  unfold dollared. destruct out as [|c out]; [discriminate|]. assert (N : prepend_dollars d (c :: out) <> []) by (destruct c as [? []]; discriminate).
  destruct (append_cases d 1 _ N) as [(A & k & s & _ & ->)|(A & y & _ & _ & ->)]; now destruct A.
Qed.
Lemma flat_nonempty c : flat c <> [].
Proof. destruct c as [l [s|s|[[] t cs]|[lab args]|[cs v]|[lab args cs pb pe]]]; cbn [flat]; try discriminate. apply dollared_nonempty. Qed.
Lemma textless_flat c : textless c = true -> forall x, In x (flat c) -> is_text2 x = false.
Proof.
  induction c as [k s|k s|k lab args _|k cs v _|k lab args cs pb pe _ _|k v t cs IH] using chunk3_ind'; intros H x Hx; try discriminate.
  1-3: cbn [flat In] in Hx; destruct Hx as [<-|[]]; reflexivity.
  destruct v; [|discriminate]. cbn [textless] in H. cbn [flat] in Hx. destruct Hx as [<-|Hx]; [reflexivity|]. apply in_app_or in Hx as [Hx|[<-|[]]]; [|reflexivity].
  apply in_flat_map in Hx as (c & Hc & Hx). rewrite Forall_forall in IH. rewrite forallb_forall in H. exact (IH c Hc (H c Hc) x Hx).
Qed.
Lemma textless_flats X : forallb textless X = true -> forall x, In x (flats X) -> is_text2 x = false.
Proof. intros H x Hx. apply in_flat_map in Hx as (c & Hc & Hx). rewrite forallb_forall in H. exact (textless_flat c (H c Hc) x Hx). Qed.
Lemma textless_textual c : textless c = true -> textual c = false.
Proof. destruct c as [l []]; try discriminate; reflexivity. Qed.
Lemma rest_none G : (forall x, In x G -> is_text2 x = false) -> rest_of G = G /\ leaks_of G = [] /\ free G.
Proof.
  induction G as [|[k v] G IH]; intros H; [repeat split; intros l s []|]. destruct IH as (E1 & E2 & E3); [intros; apply H; now right|].
  pose proof (H _ (or_introl eq_refl)) as Hv. destruct v; try discriminate; cbn [rest_of filter is_text2 negb leaks_of flat_map] in *;
    unfold rest_of, leaks_of in *; rewrite E1, E2; (repeat split); intros l s0 [E|Hi]; try discriminate; exact (E3 _ _ Hi).
Qed.
Lemma rest_app a b : rest_of (a ++ b) = rest_of a ++ rest_of b. Proof. apply filter_app. Qed.
Lemma leaks_app a b : leaks_of (a ++ b) = leaks_of a ++ leaks_of b. Proof. apply flat_map_app. Qed.
Lemma free_app a b : free a -> free b -> free (a ++ b).
Proof. intros A B l s H. apply in_app_or in H as [H|H]; [exact (A _ _ H)|exact (B _ _ H)]. Qed.
Definition word (c : chunk3) : str := match c with mkChunk3 _ (Text3 s) | mkChunk3 _ (ParagraphBreak3 s) => s | _ => [] end.
Lemma word_flat c : textual c = true -> flat c = [mkChunk2 1 (Text2 (word c))].
Proof. destruct c as [l []]; try discriminate; reflexivity. Qed.
Lemma word_moves c : textual c = true -> moves_chunk c = [c].
Proof. destruct c as [l []]; try discriminate; reflexivity. Qed.
Lemma word_free c : textual c = true -> shaped c -> ~ In c_dollar (word c) /\ word c <> [].
Proof.
  destruct c as [l []]; try discriminate; intros _ H; inversion H; subst; cbn [word]; [auto|]. destruct H1 as ((w & ->) & Hw & _). split; [apply blank_no_dollar, Hw|discriminate].
Qed.
Lemma moves_textual T : forallb textual T = true -> moves T = T.
Proof. induction T as [|c T IH]; [reflexivity|]. cbn [forallb]. intros H. apply andb_prop in H as [H1 H2]. unfold moves in *. cbn [flat_map]. now rewrite word_moves, IH. Qed.
Lemma texts_split T : forallb textual T = true -> (forall c, In c T -> shaped c) ->
  rest_of (flats T) = [] /\ free (flats T) /\ exists pieces, split_all (leaks_of (flats T)) pieces /\ doc3_eq pieces T.
Proof.
  induction T as [|c T IH]; cbn [forallb]; intros H K; [repeat split; [intros l s []|]; exists []; split; [constructor|reflexivity]|].
  apply andb_prop in H as [H1 H2]. destruct (IH H2 (fun x Hx => K x (or_intror Hx))) as (E1 & E2 & pieces & E3 & E4). pose proof (K c (or_introl eq_refl)) as Hc.
  destruct (word_free c H1 Hc) as [Hw Hn]. change (flats (c :: T)) with (flat c ++ flats T). rewrite rest_app, leaks_app, word_flat, E1 by exact H1.
  split; [reflexivity|]. split; [apply free_app; [|exact E2]; intros l s [E|[]]; injection E as _ <-; exact Hw|].
  destruct c as [l v]. destruct v as [s|b| | | |]; try discriminate; inversion Hc; subst; cbn [word] in *; cbn [leaks_of flat_map]; rewrite app_nil_r, text_chunk_app by exact Hn.
  - exists (text_chunk3 1 s ++ pieces). split; [cbn [app]; constructor; [now constructor|exact E3]|]. apply (doc3_app _ [_]); [|exact E4]. now rewrite text_chunk_app by exact Hn.
  - exists ([mkChunk3 (break_line 1 b) (ParagraphBreak3 b)] ++ pieces). split; [cbn [app]; apply (sa_text 1 b [_]); [now apply break_paragraphs|exact E3]|]. apply (doc3_app _ [_]); [reflexivity|exact E4].
Qed.
Lemma filter_parts X T : forallb textless X = true -> forallb textual T = true ->
  filter textual (X ++ T) = T /\ flat_map (fun c => if textual c then [] else moves_chunk c) (X ++ T) = moves X.
Proof.
  intros HX HT. induction X as [|c X IH]; cbn [app].
  - induction T as [|c T IH]; [split; reflexivity|]. cbn [forallb] in HT. apply andb_prop in HT as [H1 H2]. destruct (IH H2) as [E1 E2]. cbn [filter flat_map]. rewrite H1, E1, E2. split; reflexivity.
  - cbn [forallb] in HX. apply andb_prop in HX as [H1 H2]. destruct (IH H2) as [E1 E2]. cbn [filter flat_map moves]. rewrite (textless_textual c H1), E1, E2. split; reflexivity.
Qed.
Lemma last1_snoc {A} (l : list A) x : last1 (l ++ [x]) = [x]. Proof. unfold last1. now rewrite rev_app_distr. Qed.
Lemma text_chunk2_app l s : s <> [] -> text_chunk2 l s = [mkChunk2 l (Text2 s)]. Proof. now destruct s. Qed.
Lemma up_long t z0 G z pieces T M l : ~ In c_dollar z0 -> free G -> ~ In c_dollar z -> (t = Inline -> rest_of G <> [] \/ z <> []) ->
  split_all (text_chunk3 1 z0 ++ leaks_of G) pieces -> doc3_eq pieces T -> (forall l v, In (mkChunk2 l v) G -> l = 1) -> up (rest_of G ++ text_chunk2 1 z) M ->
  up (mkChunk2 1 (Text2 (dollars_of t ++ z0)) :: G ++ [mkChunk2 1 (Text2 (z ++ dollars_of t))]) (T ++ [mkChunk3 l (Maths3 (mkMaths3 Dollars t M))]).
Proof.
  intros H0 HG Hz Hne Hs Ht H1 HM.
  eapply (up_block t _ (text_chunk3 1 z0 ++ leaks_of G) (rest_of G ++ text_chunk2 1 z)); [|exact Hs|exact Ht| |exact HM].
  - intros cs. destruct t.
    + exists z0, (G ++ mkChunk2 1 (Text2 (z ++ [c_dollar])) :: cs). split; [intros []|]. cbn [dollars_of app]. split; [now rewrite <- app_assoc|].
      exists (1 + count_newlines z). change (1 + count_newlines []) with 1.
      apply (block_inline (mkChunk2 1 (Text2 z0) :: G) 1 z cs); [|exact Hz|exact (Hne eq_refl)]. intros k s [E|Hi]; [injection E as _ <-; exact H0|exact (HG _ _ Hi)].
    + exists (c_dollar :: z0), (G ++ mkChunk2 1 (Text2 (z ++ [c_dollar; c_dollar])) :: cs). split; [intros []|]. cbn [dollars_of app]. split; [now rewrite <- app_assoc|].
      exists (1 + count_newlines z). change (1 + count_newlines []) with 1. exact (block_outline 1 z0 G 1 z cs H0 HG Hz).
  - intros k v Hi. apply in_app_or in Hi as [Hi|Hi]; [apply filter_In in Hi as [Hi _]; exact (H1 _ _ Hi)|]. destruct z; [destruct Hi|]. destruct Hi as [E|[]]. congruence.
Qed.
Lemma up_short t z M l : ~ In c_dollar z -> (t = Inline -> z <> []) -> up (text_chunk2 1 z) M ->
  up [mkChunk2 1 (Text2 (dollars_of t ++ z ++ dollars_of t))] [mkChunk3 l (Maths3 (mkMaths3 Dollars t M))].
Proof.
  intros Hz Hne HM. apply (up_block t _ [] (text_chunk2 1 z) [] []); [|constructor|reflexivity| |exact HM].
  - intros cs. destruct t.
    + exists (z ++ [c_dollar]), cs. split; [intros []|]. split; [reflexivity|]. exists (1 + count_newlines z). change (1 + count_newlines []) with 1.
      apply (block_inline [] 1 z cs); [intros ? ? []|exact Hz|right; auto].
    + exists (c_dollar :: z ++ [c_dollar; c_dollar]), cs. split; [intros []|]. split; [reflexivity|]. exists (1 + count_newlines z). change (1 + count_newlines []) with 1. exact (block_outline1 1 z cs Hz).
  - intros k v Hi. destruct z; [destruct Hi|]. destruct Hi as [E|[]]. congruence.
Qed.
Lemma snoc_cases {A} (l : list A) : l = [] \/ exists l' x, l = l' ++ [x].
Proof. destruct l as [|a l]; [now left|]. right. destruct (@exists_last _ (a :: l)) as (l' & x & E); [discriminate|eauto]. Qed.
Lemma up_dollars l t X T : forallb textless X = true -> forallb textual T = true -> (t = Inline -> X ++ T <> []) ->
  (forall c, In c (X ++ T) -> shaped c) -> up (flats X) (moves X) -> Forall Up T ->
  up (flat (mkChunk3 l (Maths3 (mkMaths3 Dollars t (X ++ T))))) (moves_chunk (mkChunk3 l (Maths3 (mkMaths3 Dollars t (X ++ T))))).
Proof.
  intros HX HT Hne Hsh HupX HupT. cbn [flat moves_chunk]. destruct (filter_parts X T HX HT) as [-> ->]. fold (flats (X ++ T)). rewrite flats_app.
  destruct (rest_none (flats X) (textless_flats X HX)) as (RX & LX & FX).
  assert (OnesX : forall l v, In (mkChunk2 l v) (flats X) -> l = 1) by (intros; eapply flats_ones; eassumption).
  assert (Emp : ~ In c_dollar (@nil char)) by (intros []).
  destruct (snoc_cases T) as [->|(T' & tk & ->)].
  - cbn [flats flat_map filter removelast last1 rev app]. rewrite !app_nil_r in *. destruct X as [|x X].
    + destruct t; [destruct (Hne eq_refl eq_refl)|]. cbn [flats flat_map dollared moves]. exact (up_short Outline [] [] l Emp ltac:(discriminate) up_nil).
    + assert (E : dollared (dollars_of t) (flats (x :: X)) = mkChunk2 1 (Text2 (dollars_of t ++ [])) :: flats (x :: X) ++ [mkChunk2 1 (Text2 ([] ++ dollars_of t))]).
      { rewrite app_nil_r. cbn [app]. pose proof (textless_flats _ HX) as Hn. assert (N : flats (x :: X) <> []) by (cbn [flats flat_map]; pose proof (flat_nonempty x); now destruct (flat x)).
        destruct (exists_last N) as (A & c & EA). assert (Hc : is_text2 c = false) by (apply Hn; rewrite EA; apply in_or_app; right; now left).
        destruct (flats (x :: X)) as [|y ys] eqn:Ey; [congruence|]. unfold dollared.
        assert (Hy : is_text2 y = false) by (apply Hn; now left).
        replace (prepend_dollars (dollars_of t) (y :: ys)) with ((mkChunk2 1 (Text2 (dollars_of t)) :: A) ++ [c]) by (cbn [app]; rewrite <- EA; destruct y as [k []]; try discriminate; reflexivity).
        rewrite append_other by exact Hc. rewrite EA. cbn [app]. now rewrite <- app_assoc. }
      rewrite E. apply (up_long t [] (flats (x :: X)) [] [] [] (moves (x :: X)) l Emp FX Emp).
      * intros _. left. rewrite RX. cbn [flats flat_map]. pose proof (flat_nonempty x). now destruct (flat x).
      * rewrite LX. constructor.
      * reflexivity.
      * exact OnesX.
      * rewrite RX. cbn [text_chunk2]. now rewrite app_nil_r.
  - rewrite removelast_last, last1_snoc. rewrite forallb_app in HT. apply andb_prop in HT as [HT' Htk]. cbn [forallb] in Htk. rewrite andb_true_r in Htk.
    apply Forall_app in HupT as [_ Hk]. inversion Hk as [|? ? Hk' _]; subst; clear Hk.
    assert (Stk : shaped tk) by (apply Hsh; apply in_or_app; right; apply in_or_app; right; now left).
    assert (ST' : forall c, In c T' -> shaped c) by (intros c Hc; apply Hsh; apply in_or_app; right; apply in_or_app; now left).
    destruct (word_free tk Htk Stk) as [Dk Nk]. specialize (Hk' Stk). rewrite word_moves, word_flat in Hk' by exact Htk.
    assert (HM : up (flats X ++ text_chunk2 1 (word tk)) (moves X ++ [tk])) by (apply up_app; [exact HupX|]; rewrite text_chunk2_app by exact Nk; exact Hk').
    rewrite flats_app. change (flats [tk]) with (flat tk ++ []). rewrite app_nil_r, word_flat by exact Htk.
    destruct X as [|x X].
    + cbn [flats flat_map app] in *. destruct T' as [|t1 T'].
      * cbn [flats flat_map app removelast]. cbn [dollared prepend_dollars append_dollars]. rewrite <- app_assoc.
        exact (up_short t (word tk) [tk] l Dk (fun _ => Nk) HM).
      * cbn [forallb] in HT'. apply andb_prop in HT' as [Ht1 HT']. assert (S1 : shaped t1) by (apply ST'; now left). destruct (word_free t1 Ht1 S1) as [D1 N1].
        destruct (texts_split (t1 :: T')) as (_ & _ & pieces & Hs & Hp); [cbn [forallb]; now rewrite Ht1|exact ST'|].
        destruct (texts_split T' HT' (fun c Hc => ST' c (or_intror Hc))) as (R' & F' & _).
        change (flat_map flat (t1 :: T')) with (flat t1 ++ flats T'). change (flats (t1 :: T')) with (flat t1 ++ flats T'). rewrite word_flat by exact Ht1. cbn [app dollared prepend_dollars].
        change (mkChunk2 1 (Text2 (dollars_of t ++ word t1)) :: flats T' ++ [mkChunk2 1 (Text2 (word tk))]) with ((mkChunk2 1 (Text2 (dollars_of t ++ word t1)) :: flats T') ++ [mkChunk2 1 (Text2 (word tk))]).
        rewrite append_text. cbn [app].
        change (t1 :: T' ++ ?a) with ((t1 :: T') ++ a). eapply (up_long t (word t1) (flats T') (word tk) pieces (t1 :: T') [tk] l); [exact D1|exact F'|exact Dk|auto| |exact Hp|intros; eapply flats_ones; eassumption|].
        -- change (flats (t1 :: T')) with (flat t1 ++ flats T') in Hs. rewrite leaks_app, word_flat in Hs by exact Ht1. cbn [leaks_of flat_map] in Hs. now rewrite app_nil_r in Hs.
        -- rewrite R'. exact HM.
    + destruct (texts_split T' HT' ST') as (R' & F' & pieces & Hs & Hp).
      pose proof (textless_flats _ HX) as Hn. assert (N : flats (x :: X) <> []) by (cbn [flats flat_map]; pose proof (flat_nonempty x); now destruct (flat x)).
      assert (E : dollared (dollars_of t) (flats (x :: X) ++ flats T' ++ [mkChunk2 1 (Text2 (word tk))]) =
                  mkChunk2 1 (Text2 (dollars_of t ++ [])) :: (flats (x :: X) ++ flats T') ++ [mkChunk2 1 (Text2 (word tk ++ dollars_of t))]).
      { rewrite app_nil_r. rewrite app_assoc. change (mkChunk2 1 (Text2 (dollars_of t)) :: (flats (x :: X) ++ flats T') ++ [mkChunk2 1 (Text2 (word tk ++ dollars_of t))])
          with ((mkChunk2 1 (Text2 (dollars_of t)) :: (flats (x :: X) ++ flats T')) ++ [mkChunk2 1 (Text2 (word tk ++ dollars_of t))]).
        rewrite <- (append_text _ 1). destruct (flats (x :: X)) as [|y ys] eqn:Ey; [congruence|]. assert (Hy : is_text2 y = false) by (apply Hn; now left).
        cbn [app dollared]. f_equal. destruct y as [k []]; try discriminate; reflexivity. }
      rewrite E. apply (up_long t [] (flats (x :: X) ++ flats T') (word tk) pieces T' (moves (x :: X) ++ [tk]) l Emp).
      * now apply free_app.
      * exact Dk.
      * auto.
      * cbn [text_chunk3 app]. rewrite leaks_app, LX. exact Hs.
      * exact Hp.
      * intros k v Hi. apply in_app_or in Hi as [Hi|Hi]; eapply flats_ones; eassumption.
      * rewrite rest_app, RX, R', app_nil_r. exact HM.
Qed.

(** ** All chunks *)
Definition is_label2 (lab : str) (c : chunk2) : Prop := exists l args, c = mkChunk2 l (Command2 (mkCommand2 lab args)).
Lemma opener_inj t t' : opener t = opener t' -> t = t'. Proof. destruct t, t'; intros H; try reflexivity; discriminate. Qed.
Lemma closer_inj t t' : closer t = closer t' -> t = t'. Proof. destruct t, t'; intros H; try reflexivity; discriminate. Qed.
Lemma opener_closer t t' : opener t <> closer t'. Proof. destruct t, t'; discriminate. Qed.
Lemma without_flat t c : shaped c -> without t c = true -> forall l lab args, In (mkChunk2 l (Command2 (mkCommand2 lab args))) (flat c) -> lab <> [opener t] /\ lab <> [closer t].
Proof.
  induction c as [k s|k s|k lab0 args0 _|k cs v _|k lab0 args0 cs pb pe _ _|k v t' cs IH] using chunk3_ind'; intros Sh H l lab args Hi; cbn [flat] in Hi.
  1,2,4,5: destruct Hi as [Hi|[]]; discriminate.
  - destruct Hi as [Hi|[]]. injection Hi as _ <- _. inversion Sh; subst. auto.
  - rewrite Forall_forall in IH. destruct v.
    + inversion Sh as [| | | | |? ? ? Hw Hs|]; subst. cbn [without] in H. apply andb_prop in H as [Ht H]. rewrite forallb_forall in H.
      assert (D : t <> t') by (intros <-; destruct t; discriminate).
      destruct Hi as [Hi|Hi]; [injection Hi as _ <- _; split; intros E; injection E; [intros; apply D; symmetry; now apply opener_inj|apply opener_closer]|].
      apply in_app_or in Hi as [Hi|[Hi|[]]].
      * apply in_flat_map in Hi as (c & Hc & Hi). exact (IH c Hc (Hs c Hc) (H c Hc) _ _ _ Hi).
      * injection Hi as _ <- _; split; intros E; injection E; [intros E'; exact (opener_closer t t' (eq_sym E'))|intros; apply D; symmetry; now apply closer_inj].
    + inversion Sh as [| | | | | |? ? X T HX HT _ Hs E]; subst. cbn [without] in H. rewrite forallb_forall in H.
      apply dollared_in in Hi; [|reflexivity]. apply in_flat_map in Hi as (c & Hc & Hi). exact (IH c Hc (Hs c Hc) (H c Hc) _ _ _ Hi).
Qed.
Lemma nesting_none t body : (forall l lab args, In (mkChunk2 l (Command2 (mkCommand2 lab args))) body -> lab <> [opener t] /\ lab <> [closer t]) -> nesting t 1 body body 1.
Proof.
  induction body as [|[l v] body IH]; intros H; [constructor|]. apply ne_other; [| |apply IH; intros; eapply H; right; eassumption].
  - intros (args & ->). destruct (H l _ args (or_introl eq_refl)) as [K _]. now apply K.
  - intros (args & ->). destruct (H l _ args (or_introl eq_refl)) as [_ K]. now apply K.
Qed.
Theorem up_all c : Up c.
Proof.
  induction c as [k s|k s|k lab args IH|k cs v IH|k lab args cs pb pe IHa IHc|k v t cs IH] using chunk3_ind'; intros Sh.
  - inversion Sh; subst. cbn [flat moves_chunk]. now apply up_text.
  - inversion Sh; subst. cbn [flat moves_chunk]. now apply up_break.
  - inversion Sh as [| |? ? ? Hl Ha| | | |]; subst. cbn [flat moves_chunk]. apply up_one; [|discriminate|].
    + intros t. split; intros (a & E); injection E as -> _; destruct (Hl t) as [K1 K2]; auto.
    + destruct (up_args args IH Ha) as (out & E & W). exists (Command3 (mkCommand3 lab out)). split; [cbn [unnumbered_variant3 unnumbered_command3]; do 2 f_equal; exact E|].
      exact (wv_command lab _ (Good out) W).
  - inversion Sh as [| | |? ? ? Hc| | |]; subst. cbn [flat moves_chunk]. apply up_one; [|discriminate|]; [intros t; split; intros (a & E); discriminate|].
    destruct (up_read _ _ (up_list cs IH Hc)) as (o & E & W). exists (Scope3 (mkScope3 o v)). split; [cbn [unnumbered_variant3 unnumbered_scope3]; do 2 f_equal; exact E|].
    pose proof (wv_scope _ (sv2_of_sv3 v) _ (W 0)) as K. cbn [on] in K. now rewrite v3_of in K.
  - inversion Sh as [| | | |? ? ? ? ? ? Ha Hc| |]; subst. cbn [flat moves_chunk]. apply up_one; [|discriminate|]; [intros t; split; intros (a & E); discriminate|].
    destruct (up_args args IHa Ha) as (out & Ea & Wa). destruct (up_read _ _ (up_list cs IHc Hc)) as (o & E & W). exists (Environment3 (mkEnv3 lab out o pb pe)).
    split; [cbn [unnumbered_variant3 unnumbered_env3]; do 2 f_equal; [exact Ea|exact E]|]. exact (wv_environment lab _ _ pb pe _ _ Wa (W 0)).
  - destruct v.
    + inversion Sh as [| | | | |? ? ? Hw Hs|]; subst. cbn [flat moves_chunk]. intros rest o K. destruct (up_read _ _ (up_list cs IH Hs)) as (co & E & W).
      exists [mkChunk3 1 (Maths3 (mkMaths3 Brackets t co))]. split; [unfold doc3_eq, unnumbered3; cbn [map unnumbered_chunk3 unnumbered_variant3 unnumbered_maths3]; do 4 f_equal; exact E|].
      intros bl. cbn [app]. rewrite <- app_assoc. cbn [app].
      assert (Nn : nesting t 1 (flat_map flat cs) (flat_map flat cs) 1).
      { apply nesting_none. intros l lab args Hi. apply in_flat_map in Hi as (c & Hc & Hi). rewrite forallb_forall in Hw. exact (without_flat t c (Hs c Hc) (Hw c Hc) _ _ _ Hi). }
      exact (wd_brackets bl t 1 [] _ _ 1 [] rest _ _ Nn (W 0) (K 1)).
    + inversion Sh as [| | | | | |? ? X T HX HT Hn Hs E]; subst. apply Forall_app in IH as [IHX IHT]. apply up_dollars; auto.
      apply up_list; [exact IHX|]. intros c Hc. apply Hs, in_or_app. now left.
Qed.
Theorem up_chunks cs : (forall c, In c cs -> shaped c) -> up (flats cs) (moves cs).
Proof. intros H. apply up_list; [|exact H]. apply Forall_forall. intros c _. apply up_all. Qed.
