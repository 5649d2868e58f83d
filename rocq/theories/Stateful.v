(** * Stateful: the pushes as methods that change a document in place

    Ast1-3 give the document that a push returns.  Here a method ([&mut self]) takes the state of
    the object and leaves a state behind in every case: when it returns [Ok], when it returns
    [Err], and when it panics, the state being what had been written up to that point.  The
    statements are in the order of the source. *)

From Verif Require Import Base Ast1 Ast2 Ast3.

(** no counterpart in src/: a method of an object with state [S] *)
Definition method (S E A : Type) := S -> S * outcome E A.
(** no counterpart in src/: an expression that only reads the object; [?] on its result *)
Definition reads_self {S E A} (f : S -> outcome E A) : method S E A := fun s => (s, f s).
(** no counterpart in src/: a write to the object *)
Definition writes_self {S E} (f : S -> S) : method S E unit := fun s => (f s, Ok tt).
(** no counterpart in src/: one statement after the other; an error returns, a panic unwinds *)
Definition and_then {S E A B} (m : method S E A) (k : A -> method S E B) : method S E B := fun s =>
  match m s with
  | (s', Ok a) => k a s'
  | (s', Err e) => (s', Err e)
  | (s', Panic) => (s', Panic)
  | (s', OutOfFuel) => (s', OutOfFuel)
  end.
Notation "x <- m ;; k" := (and_then m (fun x => k)) (at level 100, m at next level, right associativity).
(** [for x in xs { f(x) }], e.g. src/ast1/document.rs:99-102 *)
Fixpoint for_each {S E A} (f : A -> method S E unit) (xs : list A) : method S E unit :=
  match xs with
  | [] => fun s => (s, Ok tt)
  | x :: xs => _ <- f x ;; for_each f xs
  end.

(** ** Stage 1 *)
(** src/ast1/document.rs:84-95: [last_s.push_str(s)] or [self.0.push(chunk)] *)
Definition push_chunk_unchecked_m1 {E} (c : chunk1) : method document1 E unit :=
  writes_self (fun d => push_chunk_unchecked1 d c).
(** src/ast1/document.rs:53-60 *)
Definition push_unchecked_m1 {E} (p : profile) (v : variant1) : method document1 E unit :=
  line_no <- reads_self (end_line1 p) ;;
  push_chunk_unchecked_m1 (mkChunk1 line_no v).
(** src/ast1/document.rs:46-50 *)
Definition push_m1 (p : profile) (v : variant1) : method document1 internal_error unit :=
  _ <- reads_self (fun _ => validate_variant1 v) ;;
  push_unchecked_m1 p v.
(** src/ast1/document.rs:63-81 *)
Definition push_chunk_m1 (p : profile) (c : chunk1) : method document1 internal_error unit :=
  _ <- reads_self (fun _ => validate_chunk1 c) ;;
  expected_line <- reads_self (end_line1 p) ;;
  _ <- reads_self (fun _ => if negb (expected_line =? line_no1 c)
                            then Err (IncorrectChunkLineNumber expected_line (line_no1 c)) else Ok tt) ;;
  push_chunk_unchecked_m1 c.
(** src/ast1/document.rs:98-103, for a stage-2 chunk *)
Definition push_into_m1 {E} (p : profile) (c : chunk2) : method document1 E unit :=
  cs <- reads_self (fun _ => into1_chunk p c None) ;;
  for_each push_chunk_unchecked_m1 cs.

(** ** Stage 2 *)
(** src/ast2/document.rs:81-92 *)
Definition push_chunk_unchecked_m2 {E} (c : chunk2) : method document2 E unit :=
  writes_self (fun d => push_chunk_unchecked2 d c).
(** src/ast2/document.rs:50-57 *)
Definition push_unchecked_m2 {E} (p : profile) (v : variant2) : method document2 E unit :=
  line_no <- reads_self (end_line2 p) ;;
  push_chunk_unchecked_m2 (mkChunk2 line_no v).
(** src/ast2/document.rs:43-47 *)
Definition push_m2 (p : profile) (v : variant2) : method document2 internal_error unit :=
  _ <- reads_self (fun _ => validate_variant2 v) ;;
  push_unchecked_m2 p v.
(** src/ast2/document.rs:60-78 *)
Definition push_chunk_m2 (p : profile) (c : chunk2) : method document2 internal_error unit :=
  _ <- reads_self (fun _ => validate_chunk2 c) ;;
  expected_line <- reads_self (end_line2 p) ;;
  _ <- reads_self (fun _ => if negb (expected_line =? line_no2 c)
                            then Err (IncorrectChunkLineNumber expected_line (line_no2 c)) else Ok tt) ;;
  push_chunk_unchecked_m2 c.

(** ** Stage 3 *)
(** src/ast3/document.rs:135-146 *)
Definition push_chunk_vec_unchecked_m {E} (c : chunk3) : method (list chunk3) E unit :=
  writes_self (fun d => push_chunk_vec_unchecked d c).
(** src/ast3/document.rs:169-175 *)
Definition push_vec_unchecked_m {E} (p : profile) (v : variant3) : method (list chunk3) E unit :=
  line_no <- reads_self (end_line3 p) ;;
  push_chunk_vec_unchecked_m (mkChunk3 line_no v).
(** src/ast3/document.rs:178-182 *)
Definition push_vec_m (p : profile) (v : variant3) : method (list chunk3) internal_error unit :=
  _ <- reads_self (fun _ => validate_variant3 p v) ;;
  push_vec_unchecked_m p v.
(** src/ast3/document.rs:149-166 *)
Definition push_chunk_vec_m (p : profile) (c : chunk3) : method (list chunk3) internal_error unit :=
  _ <- reads_self (fun _ => validate_chunk3 p c) ;;
  expected_line <- reads_self (end_line3 p) ;;
  _ <- reads_self (fun _ => if negb (expected_line =? line_no3 c)
                            then Err (IncorrectChunkLineNumber expected_line (line_no3 c)) else Ok tt) ;;
  push_chunk_vec_unchecked_m c.
(** [Self::push_vec(&mut self.body, ..)] and the like, src/ast3/document.rs:185-242: a method of a
    field *)
Definition on_section {E} (s : section) (m : method (list chunk3) E unit) : method document3 E unit := fun d =>
  match m (get_section s d) with (cs, r) => (set_section s d cs, r) end.
