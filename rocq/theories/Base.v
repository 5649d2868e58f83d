(** * Base: characters, strings, machine integers, outcomes

    Shared vocabulary of the model.  Nothing here is specific to latex-ast; it
    fixes how Rust values are represented. *)

From Coq Require Export List NArith ZArith Bool Lia.
From Coq Require Ascii String.
Export String.StringSyntax.
Delimit Scope string_scope with string.
Export ListNotations.
Open Scope N_scope.

(** Rust [char] (a Unicode scalar value) is its code point; the model is total on
    all of [N], a superset.  Rust [String] / [&str] is its list of chars
    ([s.chars()] is the identity). *)
Notation char := N (only parsing).
Notation str := (list N) (only parsing).

(** No counterpart in src/: Coq string literals, for constants and examples only. *)
Definition of_string (s : String.string) : str :=
  map Ascii.N_of_ascii (String.list_ascii_of_string s).
Notation "'S!' s" := (of_string s%string) (at level 0, s at level 0, only parsing).

Definition c_newline : char := 10.   (* '\n', src/ast3/mathsblock.rs:205 *)
Definition c_dollar : char := 36.    (* '$', src/ast3/mathsblock.rs:209 *)
Definition c_percent : char := 37.   (* '%', src/ast1/chunkvariant.rs:35-40 *)
Definition c_lround : char := 40.    (* '(', src/ast1/scopevariant.rs:30 *)
Definition c_rround : char := 41.    (* ')', src/ast1/scopevariant.rs:40 *)
Definition c_comma : char := 44.     (* ',', src/ast3/document.rs:326 *)
Definition c_equal : char := 61.     (* '=', src/ast3/document.rs:370 *)
Definition c_lsquare : char := 91.   (* '[', src/ast1/scopevariant.rs:31 *)
Definition c_bslash : char := 92.    (* '\\', src/ast1/chunkvariant.rs:35-40 *)
Definition c_rsquare : char := 93.   (* ']', src/ast1/scopevariant.rs:41 *)
Definition c_lcurly : char := 123.   (* '{', src/ast1/scopevariant.rs:29 *)
Definition c_rcurly : char := 125.   (* '}', src/ast1/scopevariant.rs:39 *)

(** Rust [char::is_whitespace]: the Unicode White_Space property (complete list), src/ast1/document.rs:418, src/ast3/paragraph.rs:42-43. *)
Definition is_whitespace (c : char) : bool :=
  ((9 <=? c) && (c <=? 13)) || (c =? 32) || (c =? 133) || (c =? 160) || (c =? 5760)
  || ((8192 <=? c) && (c <=? 8202)) || (c =? 8232) || (c =? 8233) || (c =? 8239)
  || (c =? 8287) || (c =? 12288).

(** Rust [char::is_ascii_alphabetic], src/ast1/document.rs:378 and 439. *)
Definition is_ascii_alphabetic (c : char) : bool :=
  ((65 <=? c) && (c <=? 90)) || ((97 <=? c) && (c <=? 122)).

(** Rust [char::len_utf8], for [String::len] at src/ast1/command.rs:79-98. *)
Definition len_utf8 (c : char) : N :=
  if c <? 128 then 1 else if c <? 2048 then 2 else if c <? 65536 then 3 else 4.

(** Rust [String::len]: number of bytes, src/ast1/command.rs:79-98. *)
Definition str_len (s : str) : N := fold_right (fun c n => len_utf8 c + n) 0 s.

(** Rust [==] on strings, e.g. src/ast3/mathsblock.rs:95. *)
Fixpoint str_eqb (a b : str) : bool :=
  match a, b with
  | [], [] => true
  | x :: a', y :: b' => (x =? y) && str_eqb a' b'
  | _, _ => false
  end.

(** [s.chars().filter(|c| c == &'\n').count()], a [usize] (unbounded in the model), e.g. src/ast2/document.rs:287-289. *)
Definition count_newlines (s : str) : N :=
  N.of_nat (length (filter (fun c => c =? c_newline) s)).

(** [String::is_empty] / [Vec::is_empty], e.g. src/ast3/mathsblock.rs:217. *)
Definition is_empty {A} (l : list A) : bool := match l with [] => true | _ => false end.

(** ** Outcomes *)

(** The result of running a Rust function: a value, an [Err], a panic
    ([unwrap], [unreachable!], arithmetic overflow with overflow checks on), or
    exhaustion of the model's own recursion fuel (never the case for the public
    entry points: see the totality theorems).  [Result] of e.g. src/traits/validate.rs:4. *)
Inductive outcome (E A : Type) : Type :=
| Ok (a : A)
| Err (e : E)
| Panic
| OutOfFuel.
Arguments Ok {E A}. Arguments Err {E A}. Arguments Panic {E A}. Arguments OutOfFuel {E A}.

(** the [?] operator on results, e.g. src/ast1/document.rs:35; panics propagate as well *)
Definition bind {E A B} (x : outcome E A) (f : A -> outcome E B) : outcome E B :=
  match x with
  | Ok a => f a
  | Err e => Err e
  | Panic => Panic
  | OutOfFuel => OutOfFuel
  end.
Notation "'let*' x ':=' e 'in' k" := (bind e (fun x => k))
  (at level 200, x pattern, e at level 100, k at level 200, right associativity).

(** [r.map_err(f)] where [f] itself may panic, src/ast1/document.rs:339-351, src/ast2/document.rs:224-246 *)
Definition map_err {E A} (f : E -> outcome E E) (x : outcome E A) : outcome E A :=
  match x with
  | Err e => match f e with Ok e' => Err e' | Err e' => Err e' | Panic => Panic | OutOfFuel => OutOfFuel end
  | _ => x
  end.

(** [r.unwrap()], src/ast2/chunk.rs:30-101 *)
Definition unwrap {E E' A} (x : outcome E A) : outcome E' A :=
  match x with Ok a => Ok a | Err _ => Panic | Panic => Panic | OutOfFuel => OutOfFuel end.

(** No counterpart in src/: change of error type for a computation that has no [Err] of its own. *)
Definition lift_panic {E E' A} (x : outcome E A) : outcome E' A :=
  match x with Ok a => Ok a | Err _ => Panic | Panic => Panic | OutOfFuel => OutOfFuel end.

(** Loops over a vector: [map] + collect, fold, and [for x in l { f(x)? }]. *)
Section Loops.
  Context {E A : Type}.

  Section MapM.
    Context {B : Type} (f : A -> outcome E B).
    (** [into_iter().map(f).collect()], e.g. src/ast3/mathsblock.rs:242-249 *)
    Fixpoint mapM (l : list A) : outcome E (list B) :=
      match l with
      | [] => Ok []
      | x :: l' => let* y := f x in let* ys := mapM l' in Ok (y :: ys)
      end.
  End MapM.

  Section FoldM.
    Context {S : Type} (f : S -> A -> outcome E S).
    (** [for x in l { .. }] with the local variables as state, e.g. src/ast3/mathsblock.rs:82-300 *)
    Fixpoint foldM (s : S) (l : list A) : outcome E S :=
      match l with
      | [] => Ok s
      | x :: l' => let* s' := f s x in foldM s' l'
      end.
  End FoldM.

  Section IterM.
    Context (f : A -> outcome E unit).
    (** [for x in l { f(x)? }], e.g. src/ast1/scope.rs:72-78 *)
    Fixpoint iterM (l : list A) : outcome E unit :=
      match l with
      | [] => Ok tt
      | x :: l' => let* _ := f x in iterM l'
      end.
  End IterM.
End Loops.

(** ** Machine integers *)

(** Build profile: with overflow checks (cargo's dev/test profiles) or without
    (release).  Not in src/: a choice of the compiler. *)
Inductive profile := Debug | Release.

(** the number of [u32] values; line numbers are [u32], src/ast1/chunk.rs:17-20 *)
Definition two32 : N := 4294967296.

(** [as u32], e.g. src/ast1/chunkvariant.rs:51-59 *)
Definition as_u32 (n : N) : N := n mod two32.

(** no counterpart in src/: the two behaviours of an overflowing operation *)
Definition overflow32 {E} (p : profile) (wrapped : N) : outcome E N :=
  match p with Debug => Panic | Release => Ok wrapped end.

(** u32 [+], e.g. src/ast1/document.rs:57 *)
Definition add32 {E} (p : profile) (a b : N) : outcome E N :=
  if a + b <? two32 then Ok (a + b) else overflow32 p ((a + b) mod two32).
(** u32 [-], e.g. src/ast1/document.rs:57 *)
Definition sub32 {E} (p : profile) (a b : N) : outcome E N :=
  if b <=? a then Ok (a - b) else overflow32 p ((a + two32 - b) mod two32).
(** u32 [*], src/ast2/environment.rs:121 and src/ast3/environment.rs:132 *)
Definition mul32 {E} (p : profile) (a b : N) : outcome E N :=
  if a * b <? two32 then Ok (a * b) else overflow32 p ((a * b) mod two32).

(** [iter.sum::<u32>()] over already computed values, e.g. src/ast1/document.rs:133-141 *)
Definition sum32 {E} (p : profile) (l : list N) : outcome E N := foldM (add32 p) 0 l.

(** i32 [+= 1] (used by one counter whose type is the integer default), src/ast3/paragraph.rs:23 and 37. *)
Definition inc_i32 {E} (p : profile) (z : Z) : outcome E Z :=
  if (z + 1 <? 2147483648)%Z then Ok (z + 1)%Z
  else match p with Debug => Panic | Release => Ok (-2147483648)%Z end.
