(** * History: what a history of calls does to a document object *)
From Verif Require Import Base Ast1 Parse1 Ast2 Ast3 Api Stateful SpecHistory SpecDoc1 SpecDoc2 SpecDoc3 SpecBack2 Tok Ind Lines
  Valid1 Valid2 Valid3 Rules Back2.
From Coq Require Import Lia.

(** a function that returns the new document, as a method *)
Definition as_method {S E} (f : S -> outcome E S) : method S E unit := fun s =>
  match f s with
  | Ok s' => (s', Ok tt)
  | Err e => (s, Err e)
  | Panic => (s, Panic)
  | OutOfFuel => (s, OutOfFuel)
  end.
Definition pure1 (p : profile) (c : call1) (d : document1) : outcome internal_error document1 :=
  match c with
  | Push1 v => push1 p d v
  | PushChunk1 c => push_chunk1 p d c
  | PushUnchecked1 v => push_unchecked1 p d v
  | PushChunkUnchecked1 c => Ok (push_chunk_unchecked1 d c)
  | PushInto1 c => push_into1 p d c
  end.
Definition pure2 (p : profile) (c : call2) (d : document2) : outcome internal_error document2 :=
  match c with
  | Push2 v => push2 p d v
  | PushChunk2 c => push_chunk2 p d c
  | PushUnchecked2 v => push_unchecked2 p d v
  | PushChunkUnchecked2 c => Ok (push_chunk_unchecked2 d c)
  end.
Definition pure3 (p : profile) (c : call3) (d : document3) : outcome internal_error document3 :=
  match c with
  | Push3 s v => push3 p s d v
  | PushChunk3 s c => push_chunk3 p s d c
  | PushUnchecked3 s v => push_unchecked3 p s d v
  | PushChunkUnchecked3 s c => Ok (push_chunk_unchecked3 s d c)
  end.
Lemma for_each_push1 cs : forall d, for_each (E:=internal_error) push_chunk_unchecked_m1 cs d = (fold_left push_chunk_unchecked1 cs d, Ok tt).
Proof. induction cs as [|c cs IH]; intros d; [reflexivity|]. cbn [for_each fold_left]. unfold and_then. cbn [push_chunk_unchecked_m1 writes_self]. apply IH. Qed.
Lemma do1_pure p c d : do1 p c d = as_method (pure1 p c) d.
Proof.
  destruct c as [v|c|v|c|c]; cbn [do1]; unfold as_method; cbn [pure1].
  - unfold push_m1, push1, and_then, reads_self. destruct (validate_variant1 v); cbn [bind]; try reflexivity.
    unfold push_unchecked_m1, push_unchecked1, and_then, reads_self. destruct (end_line1 p d); reflexivity.
  - unfold push_chunk_m1, push_chunk1, and_then, reads_self. destruct (validate_chunk1 c); cbn [bind]; try reflexivity.
    destruct (end_line1 p d) as [l| | |]; cbn [bind]; try reflexivity. destruct (negb (l =? line_no1 c)); reflexivity.
  - unfold push_unchecked_m1, push_unchecked1, and_then, reads_self. destruct (end_line1 p d); reflexivity.
  - reflexivity.
  - unfold push_into_m1, push_into1, and_then, reads_self. destruct (into1_chunk p c None); cbn [bind]; try reflexivity. apply for_each_push1.
Qed.
Lemma do2_pure p c d : do2 p c d = as_method (pure2 p c) d.
Proof.
  destruct c as [v|c|v|c]; cbn [do2]; unfold as_method; cbn [pure2].
  - unfold push_m2, push2, and_then, reads_self. destruct (validate_variant2 v); cbn [bind]; try reflexivity.
    unfold push_unchecked_m2, push_unchecked2, and_then, reads_self. destruct (end_line2 p d); reflexivity.
  - unfold push_chunk_m2, push_chunk2, and_then, reads_self. destruct (validate_chunk2 c); cbn [bind]; try reflexivity.
    destruct (end_line2 p d) as [l| | |]; cbn [bind]; try reflexivity. destruct (negb (l =? line_no2 c)); reflexivity.
  - unfold push_unchecked_m2, push_unchecked2, and_then, reads_self. destruct (end_line2 p d); reflexivity.
  - reflexivity.
Qed.
Lemma set_get s d : set_section s d (get_section s d) = d.
Proof. destruct d, s; reflexivity. Qed.
Lemma do3_pure p c d : do3 p c d = as_method (pure3 p c) d.
Proof.
  destruct c as [s v|s c|s v|s c]; cbn [do3]; unfold as_method, on_section; cbn [pure3].
  - unfold push_vec_m, push3, push_vec, and_then, reads_self. destruct (validate_variant3 p v); cbn [bind]; rewrite ?set_get; try reflexivity.
    unfold push_vec_unchecked_m, push_vec_unchecked, and_then, reads_self. destruct (end_line3 p (get_section s d)); cbn [bind]; rewrite ?set_get; reflexivity.
  - unfold push_chunk_vec_m, push_chunk3, push_chunk_vec, and_then, reads_self. destruct (validate_chunk3 p c); cbn [bind]; rewrite ?set_get; try reflexivity.
    destruct (end_line3 p (get_section s d)) as [l| | |]; cbn [bind]; rewrite ?set_get; try reflexivity. destruct (negb (l =? line_no3 c)); cbn [bind]; rewrite ?set_get; reflexivity.
  - unfold push_unchecked3, push_vec_unchecked_m, push_vec_unchecked, and_then, reads_self. destruct (end_line3 p (get_section s d)); cbn [bind]; rewrite ?set_get; reflexivity.
  - reflexivity.
Qed.

Section Histories.
  Context {S E C : Type} (do : C -> method S E unit) (f : C -> S -> outcome E S).
  Hypothesis Hdo : forall c s, do c s = as_method (f c) s.
  Lemma as_unchanged c s s' r : do c s = (s', r) -> r <> Ok tt -> s' = s.
  Proof. rewrite Hdo. unfold as_method. destruct (f c s); intros [= <- <-] N; try reflexivity. now elim N. Qed.
  Lemma as_ok c s s' : do c s = (s', Ok tt) <-> f c s = Ok s'.
  Proof. rewrite Hdo. unfold as_method. destruct (f c s) eqn:E0; split; intros H; try discriminate; try (injection H as <-; reflexivity); congruence. Qed.
  Lemma history_succeeded calls : forall s s' rs, history do calls s = (s', rs) ->
    history do (succeeded calls rs) s = (s', map (fun _ => Ok tt) (succeeded calls rs)).
  Proof.
    induction calls as [|c calls IH]; intros s s' rs; cbn [history].
    - intros [= <- <-]. reflexivity.
    - destruct (do c s) as [s1 r] eqn:E1. destruct (history do calls s1) as [s2 rs'] eqn:E2. intros [= <- <-].
      destruct r as [[]|e| |]; cbn [succeeded].
      + cbn [history map]. rewrite E1, (IH _ _ _ E2). reflexivity.
      + apply as_unchanged in E1; [subst s1; now apply IH|discriminate].
      + apply as_unchanged in E1; [subst s1; now apply IH|discriminate].
      + apply as_unchanged in E1; [subst s1; now apply IH|discriminate].
  Qed.
  Lemma history_text (show : S -> str) (text : C -> str) (G : C -> Prop) :
    (forall c s s', G c -> f c s = Ok s' -> show s' = show s ++ text c) ->
    forall calls s s' rs, Forall G calls -> history do calls s = (s', rs) ->
    show s' = show s ++ concat (map text (succeeded calls rs)).
  Proof.
    intros Ht. induction calls as [|c calls IH]; intros s s' rs HG; cbn [history].
    - intros [= <- <-]. cbn. now rewrite app_nil_r.
    - inversion HG as [|? ? G1 G2]; subst. destruct (do c s) as [s1 r] eqn:E1. destruct (history do calls s1) as [s2 rs'] eqn:E2. intros [= <- <-].
      destruct r as [[]|e| |]; cbn [succeeded map concat]; try (apply as_unchanged in E1; [subst s1; now apply IH|discriminate]).
      apply as_ok in E1. rewrite (IH _ _ _ G2 E2), (Ht _ _ _ G1 E1). now rewrite app_assoc.
  Qed.
  Lemma history_keeps (P : S -> Prop) : (forall c s s', f c s = Ok s' -> P s -> P s') ->
    forall calls s s' rs, history do calls s = (s', rs) -> P s -> P s'.
  Proof.
    intros Ht. induction calls as [|c calls IH]; intros s s' rs; cbn [history].
    - now intros [= <- <-].
    - destruct (do c s) as [s1 r] eqn:E1. destruct (history do calls s1) as [s2 rs'] eqn:E2. intros [= <- <-] H.
      apply (IH _ _ _ E2). destruct r as [[]|e| |]; try (apply as_unchanged in E1; [now subst s1|discriminate]).
      apply as_ok in E1. exact (Ht _ _ _ E1 H).
  Qed.
  (** histories of checked pushes, as run before *)
  Context {O : Type} (apply_op : S -> O -> outcome E S) (op : C -> O).
  Lemma history_run : (forall c s, apply_op s (op c) = match f c s with Err _ => Ok s | r => r end) ->
    forall calls s s', foldM apply_op s (map op calls) = Ok s' ->
    exists rs, history do calls s = (s', rs) /\ Forall (fun r => r = Ok tt \/ exists e, r = Err e) rs.
  Proof.
    intros Ho. induction calls as [|c calls IH]; intros s s'; cbn [map foldM history].
    - intros [= <-]. exists []. split; [reflexivity|constructor].
    - rewrite Ho, Hdo. unfold as_method. destruct (f c s) as [s1|e| |]; cbn [bind]; try discriminate; intros H;
        destruct (IH _ _ H) as (rs & -> & F); eexists; (split; [reflexivity|constructor; [eauto|exact F]]).
  Qed.
End Histories.

Lemma pure1_text p c d d' : (forall x, c = PushInto1 x -> every_label plain_label [x]) -> pure1 p c d = Ok d' -> show1 d' = show1 d ++ text1 c.
Proof.
  intros HI. destruct c as [v|c|v|c|c]; cbn [pure1 text1].
  - apply push1_show.
  - apply push_chunk1_show.
  - unfold push_unchecked1. destruct (end_line1 p d); cbn [bind]; try discriminate. intros [= <-]. apply (push_chunk_unchecked1_show d (mkChunk1 _ v)).
  - intros [= <-]. apply push_chunk_unchecked1_show.
  - unfold push_into1. destruct (into1_chunk p c None) as [cs| | |] eqn:Ec; cbn [bind]; try discriminate. intros [= <-].
    rewrite fold_push_show. f_equal. specialize (HI c eq_refl).
    refine (into_chunk_show p [c] _ c _ None cs Ec).
    + intros cs' l lab args body pb pe Hw Hc. apply plain_label_stable. exact (HI _ _ _ _ _ _ _ Hw Hc).
    + exists [c]. split; [constructor|now left].
Qed.
Lemma pure2_text p c d d' : pure2 p c d = Ok d' -> show2 d' = show2 d ++ text2 c.
Proof.
  destruct c as [v|c|v|c]; cbn [pure2 text2].
  - apply push2_show.
  - apply push_chunk2_show.
  - unfold push_unchecked2. destruct (end_line2 p d); cbn [bind]; try discriminate. intros [= <-]. apply (push_chunk_unchecked2_show d (mkChunk2 _ v)).
  - intros [= <-]. apply push_chunk_unchecked2_show.
Qed.
Definition frame3 (d d' : document3) : Prop :=
  d_class d' = d_class d /\ d_options d' = d_options d /\ d_body_args d' = d_body_args d /\
  d_begin_prec d' = d_begin_prec d /\ d_end_prec d' = d_end_prec d.
Lemma pure3_text p c d d' : pure3 p c d = Ok d' ->
  show_chunks3 (get_section (fst (text3 c)) d') = show_chunks3 (get_section (fst (text3 c)) d) ++ snd (text3 c) /\
  (forall s', s' <> fst (text3 c) -> get_section s' d' = get_section s' d) /\ frame3 d d'.
Proof.
  assert (G : forall s cs (t : str), show_chunks3 cs = show_chunks3 (get_section s d) ++ t ->
    show_chunks3 (get_section s (set_section s d cs)) = show_chunks3 (get_section s d) ++ t /\
    (forall s', s' <> s -> get_section s' (set_section s d cs) = get_section s' d) /\ frame3 d (set_section s d cs)).
  { intros s cs t H. rewrite get_set_same. split; [exact H|]. split; [intros s' Hs; apply get_set_other; congruence|]. destruct s; repeat split. }
  destruct c as [s v|s c|s v|s c]; cbn [pure3 text3 fst snd].
  - intros H. pose proof (push3_frame _ _ _ _ _ H) as (A & B & R). split; [exact A|]. split; [exact B|exact R].
  - intros H. pose proof (push_chunk3_frame _ _ _ _ _ H) as (A & B & R). split; [exact A|]. split; [exact B|exact R].
  - unfold push_unchecked3, push_vec_unchecked. destruct (end_line3 p (get_section s d)); cbn [bind]; try discriminate. intros [= <-]. apply G.
    apply (push_chunk_vec_unchecked_show _ (mkChunk3 _ v)).
  - intros [= <-]. apply G. apply push_chunk_vec_unchecked_show.
Qed.

Theorem history_text1 p calls d d' rs : (forall c, In (PushInto1 c) calls -> every_label plain_label [c]) ->
  history (do1 p) calls d = (d', rs) -> show1 d' = show1 d ++ concat (map text1 (succeeded calls rs)).
Proof.
  intros HG. apply (history_text (do1 p) (pure1 p) (do1_pure p) show1 text1 (fun c => forall x, c = PushInto1 x -> every_label plain_label [x])).
  - intros c s s' H. apply pure1_text. exact H.
  - apply Forall_forall. intros c Hc x ->. exact (HG x Hc).
Qed.
Theorem history_text2 p calls d d' rs : history (do2 p) calls d = (d', rs) -> show2 d' = show2 d ++ concat (map text2 (succeeded calls rs)).
Proof.
  apply (history_text (do2 p) (pure2 p) (do2_pure p) show2 text2 (fun _ => True)).
  - intros c s s' _. apply pure2_text.
  - apply Forall_forall. intros; exact I.
Qed.
Theorem history_text3 p calls d d' rs : history (do3 p) calls d = (d', rs) ->
  (forall s, show_chunks3 (get_section s d') = show_chunks3 (get_section s d) ++ texts_in s (succeeded calls rs)) /\
  (forall s, (forall c, In c (succeeded calls rs) -> fst (text3 c) <> s) -> get_section s d' = get_section s d) /\
  d_class d' = d_class d /\ d_options d' = d_options d /\ d_body_args d' = d_body_args d /\
  d_begin_prec d' = d_begin_prec d /\ d_end_prec d' = d_end_prec d.
Proof.
  intros H. split; [|split].
  - intros s. revert H. unfold texts_in.
    apply (history_text (do3 p) (pure3 p) (do3_pure p) (fun d => show_chunks3 (get_section s d)) _ (fun _ => True)); [|apply Forall_forall; intros; exact I].
    intros c a b _ Hp. apply pure3_text in Hp as (A & B & _). destruct (text3 c) as [s0 t]. cbn [fst snd] in *.
    destruct s0, s; try exact A; rewrite app_nil_r; now rewrite B.
  - intros s Hs. apply (history_succeeded (do3 p) (pure3 p) (do3_pure p)) in H. revert d H Hs.
    induction (succeeded calls rs) as [|c cs IH]; intros d; cbn [history map]; [now intros [= <-]|].
    destruct (do3 p c d) as [d1 r] eqn:E1. destruct (history (do3 p) cs d1) as [d2 rs2] eqn:E2. intros [= <- -> ->] Hs.
    apply (as_ok (do3 p) (pure3 p) (do3_pure p)) in E1. apply pure3_text in E1 as (_ & B & _).
    transitivity (get_section s d1); [|apply B; intros ->; now apply (Hs c (or_introl eq_refl))].
    apply IH; [exact E2|]. intros c' Hc'. apply Hs. now right.
  - change (frame3 d d'). refine (history_keeps (do3 p) (pure3 p) (do3_pure p) (frame3 d) _ calls d d' rs H _); [|repeat split].
    intros c a b Hp (F1 & F2 & F3 & F4 & F5). apply pure3_text in Hp as (_ & _ & G1 & G2 & G3 & G4 & G5). unfold frame3.
    rewrite G1, G2, G3, G4, G5. auto.
Qed.

Definition op_of1 (c : call1) : op1 := match c with PushChunk1 c => OpPushChunk1 c | Push1 v => OpPush1 v | _ => OpPush1 (Text1 []) end.
Definition op_of2 (c : call2) : op2 := match c with PushChunk2 c => OpPushChunk2 c | Push2 v => OpPush2 v | _ => OpPush2 (Text2 []) end.
Definition op_of3 (c : call3) : op3 := match c with PushChunk3 s c => OpPushChunk3 s c | Push3 s v => OpPush3 s v | _ => OpPush3 Body (Text3 []) end.

(** restricting a history to checked calls *)
Section Valid.
  Context {S E C O : Type} (do : C -> method S E unit) (f : C -> S -> outcome E S) (ok : C -> Prop) (apply_op : S -> O -> outcome E S) (op : C -> O).
  Hypothesis Hdo : forall c s, do c s = as_method (f c) s.
  Hypothesis Ho : forall c s, ok c -> apply_op s (op c) = match f c s with Err _ => Ok s | r => r end.
  Lemma history_run_ok calls : Forall ok calls -> forall s s', foldM apply_op s (map op calls) = Ok s' ->
    exists rs, history do calls s = (s', rs) /\ Forall (fun r => r = Ok tt \/ exists e, r = Err e) rs.
  Proof.
    induction 1 as [|c calls H _ IH]; intros s s'; cbn [map foldM history].
    - intros [= <-]. exists []. split; [reflexivity|constructor].
    - rewrite (Ho _ _ H), Hdo. unfold as_method. destruct (f c s) as [s1|e| |]; cbn [bind]; try discriminate; intros H';
        destruct (IH _ _ H') as (rs & -> & F); eexists; (split; [reflexivity|constructor; [eauto|exact F]]).
  Qed.
End Valid.
Theorem history_valid1 p d calls : Forall checked1 calls -> 2 + count_newlines (show1 d) + count_newlines (concat (map text1 calls)) < two32 ->
  validate1 p d = Ok tt -> exists d' rs, history (do1 p) calls d = (d', rs) /\ validate1 p d' = Ok tt /\
    Forall (fun r => r = Ok tt \/ exists e, r = Err e) rs.
Proof.
  intros HC B V. apply validate1_iff in V; [|lia].
  destruct (run_ops1_valid p d (map op_of1 calls) V) as (d' & E & V').
  { rewrite map_map. replace (map (fun x => op_text1 (op_of1 x)) calls) with (map text1 calls); [exact B|].
    clear - HC. induction HC as [|c calls H _ IH]; [reflexivity|]. cbn [map]. f_equal; [|exact IH]. destruct c; try now elim H; reflexivity. all: reflexivity. }
  destruct (history_run_ok (do1 p) (pure1 p) checked1 (apply_op1 p) op_of1 (do1_pure p)) with (2 := HC) (3 := E) as (rs & H1 & H2).
  { intros c s H. destruct c; try now elim H. all: reflexivity. }
  exists d', rs. auto.
Qed.
Theorem history_valid2 p d calls : Forall checked2 calls -> 2 + count_newlines (show2 d) + count_newlines (concat (map text2 calls)) < two32 ->
  validate2 p d = Ok tt -> exists d' rs, history (do2 p) calls d = (d', rs) /\ validate2 p d' = Ok tt /\
    Forall (fun r => r = Ok tt \/ exists e, r = Err e) rs.
Proof.
  intros HC B V. apply validate2_iff in V; [|lia].
  destruct (run_ops2_valid p d (map op_of2 calls) V) as (d' & E & V').
  { rewrite map_map. replace (map (fun x => op_text2 (op_of2 x)) calls) with (map text2 calls); [exact B|].
    clear - HC. induction HC as [|c calls H _ IH]; [reflexivity|]. cbn [map]. f_equal; [|exact IH]. destruct c; try now elim H; reflexivity. all: reflexivity. }
  destruct (history_run_ok (do2 p) (pure2 p) checked2 (apply_op2 p) op_of2 (do2_pure p)) with (2 := HC) (3 := E) as (rs & H1 & H2).
  { intros c s H. destruct c; try now elim H. all: reflexivity. }
  exists d', rs. auto.
Qed.
Theorem history_valid3 p d calls : Forall checked3 calls ->
  (forall c s, In c calls -> pushed3 c = Text3 s -> count_newlines s = 0) ->
  2 + count_newlines (show_chunks3 (d_preamable d)) + count_newlines (show_chunks3 (d_body d)) + count_newlines (show_chunks3 (d_trailing d)) +
    count_newlines (concat (map (fun c => snd (text3 c)) calls)) < two32 ->
  validate3 p d = Ok tt -> exists d' rs, history (do3 p) calls d = (d', rs) /\ validate3 p d' = Ok tt /\
    Forall (fun r => r = Ok tt \/ exists e, r = Err e) rs.
Proof.
  intros HC HT B V. apply validate3_iff in V; [|lia..].
  destruct (run_ops3_valid p (map op_of3 calls) d V) as (d' & E & V').
  { intros o s Ho Es. apply in_map_iff in Ho as (c & <- & Hc). apply (HT c s Hc). rewrite Forall_forall in HC. specialize (HC c Hc).
    destruct c; try now elim HC. all: exact Es. }
  { rewrite map_map. replace (map (fun x => show_variant3 (op_variant3 (op_of3 x))) calls) with (map (fun c => snd (text3 c)) calls); [exact B|].
    clear - HC. induction HC as [|c calls H _ IH]; [reflexivity|]. cbn [map]. f_equal; [|exact IH]. destruct c; try now elim H. destruct c; reflexivity. }
  destruct (history_run_ok (do3 p) (pure3 p) checked3 (apply_op3 p) op_of3 (do3_pure p)) with (2 := HC) (3 := E) as (rs & H1 & H2).
  { intros c s H. destruct c; try now elim H. all: reflexivity. }
  exists d', rs. auto.
Qed.
