(** * SpecHistory: histories of calls on one document object *)

From Verif Require Import Base Ast1 Ast2 Ast3 Stateful.

(** The calls a program can make to change a document.  Errors are ignored by the caller and panics
    are caught: the object is used again afterwards. *)
Inductive call1 :=
| Push1 (v : variant1) | PushChunk1 (c : chunk1)
| PushUnchecked1 (v : variant1) | PushChunkUnchecked1 (c : chunk1) | PushInto1 (c : chunk2).
Inductive call2 :=
| Push2 (v : variant2) | PushChunk2 (c : chunk2)
| PushUnchecked2 (v : variant2) | PushChunkUnchecked2 (c : chunk2).
Inductive call3 :=
| Push3 (s : section) (v : variant3) | PushChunk3 (s : section) (c : chunk3)
| PushUnchecked3 (s : section) (v : variant3) | PushChunkUnchecked3 (s : section) (c : chunk3).

Definition do1 (p : profile) (c : call1) : method document1 internal_error unit :=
  match c with
  | Push1 v => push_m1 p v
  | PushChunk1 c => push_chunk_m1 p c
  | PushUnchecked1 v => push_unchecked_m1 p v
  | PushChunkUnchecked1 c => push_chunk_unchecked_m1 c
  | PushInto1 c => push_into_m1 p c
  end.
Definition do2 (p : profile) (c : call2) : method document2 internal_error unit :=
  match c with
  | Push2 v => push_m2 p v
  | PushChunk2 c => push_chunk_m2 p c
  | PushUnchecked2 v => push_unchecked_m2 p v
  | PushChunkUnchecked2 c => push_chunk_unchecked_m2 c
  end.
Definition do3 (p : profile) (c : call3) : method document3 internal_error unit :=
  match c with
  | Push3 s v => on_section s (push_vec_m p v)
  | PushChunk3 s c => on_section s (push_chunk_vec_m p c)
  | PushUnchecked3 s v => on_section s (push_vec_unchecked_m p v)
  | PushChunkUnchecked3 s c => on_section s (push_chunk_vec_unchecked_m c)
  end.

(** What a call would add to the Display *)
Definition text1 (c : call1) : str :=
  match c with
  | Push1 v | PushUnchecked1 v => show_variant1 v
  | PushChunk1 c | PushChunkUnchecked1 c => show_chunk1 c
  | PushInto1 c => show_chunk2 c
  end.
Definition text2 (c : call2) : str :=
  match c with
  | Push2 v | PushUnchecked2 v => show_variant2 v
  | PushChunk2 c | PushChunkUnchecked2 c => show_chunk2 c
  end.
Definition text3 (c : call3) : section * str :=
  match c with
  | Push3 s v | PushUnchecked3 s v => (s, show_variant3 v)
  | PushChunk3 s c | PushChunkUnchecked3 s c => (s, show_chunk3 c)
  end.
(** the variant a stage-3 call pushes *)
Definition pushed3 (c : call3) : variant3 :=
  match c with
  | Push3 _ v | PushUnchecked3 _ v => v
  | PushChunk3 _ c | PushChunkUnchecked3 _ c => variant_of3 c
  end.
(** the texts meant for one section *)
Definition texts_in (s : section) (cs : list call3) : str :=
  concat (map (fun c => match text3 c, s with
    | (Preamable, t), Preamable | (Body, t), Body | (Trailing, t), Trailing => t
    | _, _ => []
    end) cs).

(** The calls that check what they are given *)
Definition checked1 (c : call1) : Prop := match c with Push1 _ | PushChunk1 _ => True | _ => False end.
Definition checked2 (c : call2) : Prop := match c with Push2 _ | PushChunk2 _ => True | _ => False end.
Definition checked3 (c : call3) : Prop := match c with Push3 _ _ | PushChunk3 _ _ => True | _ => False end.

(** One call after the other; the object at the end and what each call returned *)
Fixpoint history {S E C} (do : C -> method S E unit) (calls : list C) (s : S) : S * list (outcome E unit) :=
  match calls with
  | [] => (s, [])
  | c :: calls =>
      let (s', r) := do c s in
      let (s'', rs) := history do calls s' in
      (s'', r :: rs)
  end.
(** The calls that returned [Ok] *)
Fixpoint succeeded {E C} (calls : list C) (rs : list (outcome E unit)) : list C :=
  match calls, rs with
  | c :: calls, Ok tt :: rs => c :: succeeded calls rs
  | _ :: calls, _ :: rs => succeeded calls rs
  | _, _ => []
  end.
