(** * Properties31: pushes that do not succeed, and histories of calls on one object

    Only statements, one-line proofs, assumptions and non-vacuity examples.  Model: Stateful.v.
    Specification: SpecHistory.v. *)
From Verif Require Import Base Ast1 Parse1 Ast2 Ast3 Api Stateful SpecHistory SpecDoc1 SpecDoc2 SpecDoc3 SpecBack2 History.

(** ** C77: a call that returns an error or panics leaves the document as it was *)
Theorem C77_unchanged : forall p,
  (forall c d d' r, do1 p c d = (d', r) -> r <> Ok tt -> d' = d) /\
  (forall c d d' r, do2 p c d = (d', r) -> r <> Ok tt -> d' = d) /\
  (forall c d d' r, do3 p c d = (d', r) -> r <> Ok tt -> d' = d).
Proof.
  intros p. split; [|split]; [exact (as_unchanged _ _ (do1_pure p))|exact (as_unchanged _ _ (do2_pure p))|exact (as_unchanged _ _ (do3_pure p))].
Qed.
Print Assumptions C77_unchanged.
Example C77_unchanged_example : let d := [mkChunk1 1 (Text1 (S! "a"))] in
  do1 Debug (Push1 (Text1 (S! "b}"))) d = (d, Err (UnsanitisedCharInString 125)) /\
  do1 Debug (PushChunk1 (mkChunk1 7 (Text1 (S! "b")))) d = (d, Err (IncorrectChunkLineNumber 1 7)) /\
  do1 Debug (PushUnchecked1 (Text1 (S! "b"))) [mkChunk1 4294967295 (Text1 (S! "a"))] = ([mkChunk1 4294967295 (Text1 (S! "a"))], Panic) /\
  do1 Debug (Push1 (Text1 (S! "b"))) d = ([mkChunk1 1 (Text1 (S! "ab"))], Ok tt).
Proof. vm_compute. repeat split. Qed.

(** the methods do what the functions of the other theorems say (C12, C14, C51, C52) *)
Theorem C77_returns1 : forall p d,
  (forall v d', do1 p (Push1 v) d = (d', Ok tt) <-> push1 p d v = Ok d') /\
  (forall v e, snd (do1 p (Push1 v) d) = Err e <-> push1 p d v = Err e) /\
  (forall c d', do1 p (PushChunk1 c) d = (d', Ok tt) <-> push_chunk1 p d c = Ok d') /\
  (forall c e, snd (do1 p (PushChunk1 c) d) = Err e <-> push_chunk1 p d c = Err e) /\
  (forall v d', do1 p (PushUnchecked1 v) d = (d', Ok tt) <-> push_unchecked1 p d v = @Ok internal_error _ d') /\
  (forall c, do1 p (PushChunkUnchecked1 c) d = (push_chunk_unchecked1 d c, Ok tt)) /\
  (forall c d', do1 p (PushInto1 c) d = (d', Ok tt) <-> push_into1 p d c = @Ok internal_error _ d').
Proof.
  intros p d. repeat split; try (intros H; apply (as_ok _ _ (do1_pure p)) in H; exact H); try (intros H; apply (as_ok _ _ (do1_pure p)); exact H);
    rewrite do1_pure; unfold as_method; cbn [pure1]; match goal with |- context [match ?x with _ => _ end] => destruct x end; cbn [snd]; congruence.
Qed.
Print Assumptions C77_returns1.
Theorem C77_returns2 : forall p d,
  (forall v d', do2 p (Push2 v) d = (d', Ok tt) <-> push2 p d v = Ok d') /\
  (forall v e, snd (do2 p (Push2 v) d) = Err e <-> push2 p d v = Err e) /\
  (forall c d', do2 p (PushChunk2 c) d = (d', Ok tt) <-> push_chunk2 p d c = Ok d') /\
  (forall c e, snd (do2 p (PushChunk2 c) d) = Err e <-> push_chunk2 p d c = Err e) /\
  (forall v d', do2 p (PushUnchecked2 v) d = (d', Ok tt) <-> push_unchecked2 p d v = @Ok internal_error _ d') /\
  (forall c, do2 p (PushChunkUnchecked2 c) d = (push_chunk_unchecked2 d c, Ok tt)).
Proof.
  intros p d. repeat split; try (intros H; apply (as_ok _ _ (do2_pure p)) in H; exact H); try (intros H; apply (as_ok _ _ (do2_pure p)); exact H);
    rewrite do2_pure; unfold as_method; cbn [pure2]; match goal with |- context [match ?x with _ => _ end] => destruct x end; cbn [snd]; congruence.
Qed.
Print Assumptions C77_returns2.
Theorem C77_returns3 : forall p s d,
  (forall v d', do3 p (Push3 s v) d = (d', Ok tt) <-> push3 p s d v = Ok d') /\
  (forall v e, snd (do3 p (Push3 s v) d) = Err e <-> push3 p s d v = Err e) /\
  (forall c d', do3 p (PushChunk3 s c) d = (d', Ok tt) <-> push_chunk3 p s d c = Ok d') /\
  (forall c e, snd (do3 p (PushChunk3 s c) d) = Err e <-> push_chunk3 p s d c = Err e) /\
  (forall v d', do3 p (PushUnchecked3 s v) d = (d', Ok tt) <-> push_unchecked3 p s d v = @Ok internal_error _ d') /\
  (forall c, do3 p (PushChunkUnchecked3 s c) d = (push_chunk_unchecked3 s d c, Ok tt)).
Proof.
  intros p s d. repeat split; try (intros H; apply (as_ok _ _ (do3_pure p)) in H; exact H); try (intros H; apply (as_ok _ _ (do3_pure p)); exact H);
    rewrite do3_pure; unfold as_method; cbn [pure3]; match goal with |- context [match ?x with _ => _ end] => destruct x end; cbn [snd]; congruence.
Qed.
Print Assumptions C77_returns3.

(** failed calls might as well not have been made: the successful ones alone, in the same order, all
    succeed and lead to the same document *)
Theorem C77_failed_skipped : forall p,
  (forall calls d d' rs, history (do1 p) calls d = (d', rs) ->
     history (do1 p) (succeeded calls rs) d = (d', map (fun _ => Ok tt) (succeeded calls rs))) /\
  (forall calls d d' rs, history (do2 p) calls d = (d', rs) ->
     history (do2 p) (succeeded calls rs) d = (d', map (fun _ => Ok tt) (succeeded calls rs))) /\
  (forall calls d d' rs, history (do3 p) calls d = (d', rs) ->
     history (do3 p) (succeeded calls rs) d = (d', map (fun _ => Ok tt) (succeeded calls rs))).
Proof.
  intros p. split; [|split]; [exact (history_succeeded _ _ (do1_pure p))|exact (history_succeeded _ _ (do2_pure p))|exact (history_succeeded _ _ (do3_pure p))].
Qed.
Print Assumptions C77_failed_skipped.

(** the Display is that at the start followed by what the successful calls pushed *)
Theorem C77_text1 : forall p calls d d' rs, (forall c, In (PushInto1 c) calls -> every_label plain_label [c]) ->
  history (do1 p) calls d = (d', rs) -> show1 d' = show1 d ++ concat (map text1 (succeeded calls rs)).
Proof. exact history_text1. Qed.
Print Assumptions C77_text1.
Theorem C77_text2 : forall p calls d d' rs,
  history (do2 p) calls d = (d', rs) -> show2 d' = show2 d ++ concat (map text2 (succeeded calls rs)).
Proof. exact history_text2. Qed.
Print Assumptions C77_text2.
Theorem C77_text3 : forall p calls d d' rs, history (do3 p) calls d = (d', rs) ->
  (forall s, show_chunks3 (get_section s d') = show_chunks3 (get_section s d) ++ texts_in s (succeeded calls rs)) /\
  (forall s, (forall c, In c (succeeded calls rs) -> fst (text3 c) <> s) -> get_section s d' = get_section s d) /\
  d_class d' = d_class d /\ d_options d' = d_options d /\ d_body_args d' = d_body_args d /\
  d_begin_prec d' = d_begin_prec d /\ d_end_prec d' = d_end_prec d.
Proof. exact history_text3. Qed.
Print Assumptions C77_text3.
Example C77_text_example :
  let calls := [Push1 (Text1 (S! "a")); Push1 (Text1 (S! "%")); PushInto1 (mkChunk2 1 (Environment2 (mkEnv2 (S! "e") [] [] [] [])));
                PushChunk1 (mkChunk1 9 (Text1 [])); PushUnchecked1 (Text1 (S! "%"))] in
  exists d rs, history (do1 Debug) calls [] = (d, rs) /\ show1 d = S! "a\begin{e}\end{e}%" /\
    rs = [Ok tt; Err (UnsanitisedCharInString 37); Ok tt; Err (IncorrectChunkLineNumber 1 9); Ok tt].
Proof. do 2 eexists. split; [vm_compute; reflexivity|]. split; vm_compute; reflexivity. Qed.

(** checked pushes keep a valid document valid, whatever the calls return; none of them panics *)
Theorem C77_valid1 : forall p d calls, Forall checked1 calls ->
  2 + count_newlines (show1 d) + count_newlines (concat (map text1 calls)) < two32 -> validate1 p d = Ok tt ->
  exists d' rs, history (do1 p) calls d = (d', rs) /\ validate1 p d' = Ok tt /\
    Forall (fun r => r = Ok tt \/ exists e, r = Err e) rs.
Proof. exact history_valid1. Qed.
Print Assumptions C77_valid1.
Theorem C77_valid2 : forall p d calls, Forall checked2 calls ->
  2 + count_newlines (show2 d) + count_newlines (concat (map text2 calls)) < two32 -> validate2 p d = Ok tt ->
  exists d' rs, history (do2 p) calls d = (d', rs) /\ validate2 p d' = Ok tt /\
    Forall (fun r => r = Ok tt \/ exists e, r = Err e) rs.
Proof. exact history_valid2. Qed.
Print Assumptions C77_valid2.
(** at stage 3 if the texts pushed contain no newline (C37 says what happens otherwise) *)
Theorem C77_valid3 : forall p d calls, Forall checked3 calls ->
  (forall c s, In c calls -> pushed3 c = Text3 s -> count_newlines s = 0) ->
  2 + count_newlines (show_chunks3 (d_preamable d)) + count_newlines (show_chunks3 (d_body d)) + count_newlines (show_chunks3 (d_trailing d)) +
    count_newlines (concat (map (fun c => snd (text3 c)) calls)) < two32 -> validate3 p d = Ok tt ->
  exists d' rs, history (do3 p) calls d = (d', rs) /\ validate3 p d' = Ok tt /\
    Forall (fun r => r = Ok tt \/ exists e, r = Err e) rs.
Proof. exact history_valid3. Qed.
Print Assumptions C77_valid3.
Example C77_valid_example :
  let calls := [Push3 Body (Text3 (S! "a")); PushChunk3 Trailing (mkChunk3 2 (Text3 (S! "b"))); Push3 Body (Text3 (S! "{")); Push3 Preamable (Text3 (S! "c"))] in
  Forall checked3 calls /\ (forall c s, In c calls -> pushed3 c = Text3 s -> count_newlines s = 0) /\ validate3 Debug document3_default = Ok tt /\
  exists d, history (do3 Debug) calls document3_default = (d, [Ok tt; Err (IncorrectChunkLineNumber 1 2); Err (UnsanitisedCharInString 123); Ok tt]).
Proof.
  split; [repeat constructor|]. split; [|split; [reflexivity|eexists; vm_compute; reflexivity]].
  intros c s [<-|[<-|[<-|[<-|[]]]]]; cbn [pushed3 variant_of3]; intros [= <-]; reflexivity.
Qed.
