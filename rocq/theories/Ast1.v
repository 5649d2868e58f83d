(** * Ast1: model of src/ast1 (types, Display, Validate, Lines, push operations),
      src/error.rs and src/internal_error.rs *)

From Verif Require Import Base.

(** ** Errors *)

(** src/ast1/scopevariant.rs:3-12 [ast1::ScopeVariant] *)
Inductive sv1 := Curly1 | Round1 | Square1.

(** src/internal_error.rs:3-21 [InternalError] *)
Inductive internal_error :=
| UnsanitisedCharInString (c : char)
| IncorrectChunkLineNumber (expected got : N)
| ParagraphBreakTooShort
| ParagraghBreakNonwhitespace
| BeginCommand
| EndCommand
| UnbrokenParagraph.

(** src/error.rs:22-49 [ErrorType] *)
Inductive error_type :=
| UnexpectedClosing (v : sv1)
| UnclosedArgument (v : sv1)
| UnclosedScope (v : sv1)
| NoEnvironmentLabel
| UnexpectedEnd (s : str)
| UnclosedEnvironment (s : str)
| TooManyArgsEnd
| TooManyArgsDocumentClass
| DoubleDocumentClass
| UnexpectedMathsEnd
| UnclosedMaths
| Internal (e : internal_error).

(** src/error.rs:8-19 [Error] *)
Record error := mkError { err_line : N; err_type : error_type }.

(** ** Scope variants, src/ast1/scopevariant.rs *)

(** src/ast1/scopevariant.rs:25-33 *)
Definition open1 (v : sv1) : char :=
  match v with Curly1 => c_lcurly | Round1 => c_lround | Square1 => c_lsquare end.

(** src/ast1/scopevariant.rs:35-43 *)
Definition close1 (v : sv1) : char :=
  match v with Curly1 => c_rcurly | Round1 => c_rround | Square1 => c_rsquare end.

(** src/ast1/scopevariant.rs:45-48 *)
Definition is_opening (c : char) : bool :=
  (c =? c_lcurly) || (c =? c_lsquare) || (c =? c_lround).

(** src/ast1/scopevariant.rs:50-53 *)
Definition is_closing (c : char) : bool :=
  (c =? c_rcurly) || (c =? c_rsquare) || (c =? c_rround).

(** src/ast1/scopevariant.rs:55-63; [Panic] is [unreachable!] *)
Definition from_opening {E} (c : char) : outcome E sv1 :=
  if c =? c_lcurly then Ok Curly1
  else if c =? c_lsquare then Ok Square1
  else if c =? c_lround then Ok Round1
  else Panic.

(** src/ast1/scopevariant.rs:65-73; [Panic] is [unreachable!] *)
Definition from_closing {E} (c : char) : outcome E sv1 :=
  if c =? c_rcurly then Ok Curly1
  else if c =? c_rsquare then Ok Square1
  else if c =? c_rround then Ok Round1
  else Panic.

(** src/ast1/scopevariant.rs:4 derived [PartialEq] *)
Definition sv1_eqb (a b : sv1) : bool :=
  match a, b with
  | Curly1, Curly1 | Round1, Round1 | Square1, Square1 => true
  | _, _ => false
  end.

(** ** Tree types *)

(** src/ast1/chunk.rs:17-20 [Chunk], src/ast1/chunkvariant.rs:11-18 [ChunkVariant],
    src/ast1/command.rs:16-23 [Command], src/ast1/scope.rs:17-20 [Scope] *)
Inductive chunk1 :=
| mkChunk1 (line_no : N) (variant : variant1)
(** src/ast1/chunkvariant.rs:11-18 *)
with variant1 :=
| Text1 (s : str)
| Command1 (c : command1)
| Scope1 (sc : scope1)
(** src/ast1/command.rs:16-23 *)
with command1 :=
| mkCommand1 (label : str) (arguments : list (str * scope1))
(** src/ast1/scope.rs:17-20 *)
with scope1 :=
| mkScope1 (chunks : list chunk1) (variant : sv1).

(** src/ast1/chunk.rs:35-43 accessors *)
Definition line_no1 (c : chunk1) : N := match c with mkChunk1 l _ => l end.
(** src/ast1/chunk.rs:41-43 *)
Definition variant_of1 (c : chunk1) : variant1 := match c with mkChunk1 _ v => v end.
(** src/ast1/command.rs:38-46 accessors *)
Definition label1 (c : command1) : str := match c with mkCommand1 l _ => l end.
(** src/ast1/command.rs:44-46 *)
Definition arguments1 (c : command1) : list (str * scope1) := match c with mkCommand1 _ a => a end.
(** src/ast1/scope.rs:35-48 accessors *)
Definition chunks1 (s : scope1) : list chunk1 := match s with mkScope1 cs _ => cs end.
(** src/ast1/scope.rs:46-48 *)
Definition scope_variant1 (s : scope1) : sv1 := match s with mkScope1 _ v => v end.

(** src/ast1/document.rs:17-20: [Document(Vec<Chunk>)] *)
Definition document1 := list chunk1.

(** ** Display
    src/ast1/chunk.rs:61-65, chunkvariant.rs:20-28, command.rs:64-77,
    scope.rs:56-69, document.rs:106-110 *)
Fixpoint show_chunk1 (c : chunk1) : str :=
  match c with mkChunk1 _ v => show_variant1 v end
(** src/ast1/chunkvariant.rs:20-28 *)
with show_variant1 (v : variant1) : str :=
  match v with
  | Text1 s => s
  | Command1 c => show_command1 c
  | Scope1 sc => show_scope1 sc
  end
(** src/ast1/command.rs:64-77 *)
with show_command1 (c : command1) : str :=
  match c with
  | mkCommand1 label args =>
      c_bslash :: label ++ concat (map (fun a => match a with (pre, sc) => pre ++ show_scope1 sc end) args)
  end
(** src/ast1/scope.rs:56-69 *)
with show_scope1 (s : scope1) : str :=
  match s with
  | mkScope1 cs v => open1 v :: concat (map show_chunk1 cs) ++ [close1 v]
  end.

(** the arguments part of src/ast1/command.rs:65-76 *)
Definition show_args1 (args : list (str * scope1)) : str :=
  concat (map (fun a => match a with (pre, sc) => pre ++ show_scope1 sc end) args).
(** src/ast1/document.rs:106-110 *)
Definition show1 (d : document1) : str := concat (map show_chunk1 d).

(** ** Validate *)

(** The character test shared by all validators, e.g. src/ast1/chunkvariant.rs:35-40 *)
Definition unsanitised (c : char) : bool :=
  (c =? c_bslash) || (c =? c_percent) || is_opening c || is_closing c.

(** The loop [for c in s.chars() { if .. return Err(UnsanitisedCharInString(c)) }],
    e.g. src/ast1/chunkvariant.rs:34-41 *)
Fixpoint check_chars (s : str) : outcome internal_error unit :=
  match s with
  | [] => Ok tt
  | c :: s' => if unsanitised c then Err (UnsanitisedCharInString c) else check_chars s'
  end.

(** src/ast1/chunk.rs:67-71, chunkvariant.rs:30-49, command.rs:79-98, scope.rs:71-79 *)
Fixpoint validate_chunk1 (c : chunk1) : outcome internal_error unit :=
  match c with mkChunk1 _ v => validate_variant1 v end
(** src/ast1/chunkvariant.rs:30-49 *)
with validate_variant1 (v : variant1) : outcome internal_error unit :=
  match v with
  | Text1 s => check_chars s
  | Command1 c => validate_command1 c
  | Scope1 sc => validate_scope1 sc
  end
(** src/ast1/command.rs:79-98 *)
with validate_command1 (c : command1) : outcome internal_error unit :=
  match c with
  | mkCommand1 label args =>
      let* _ := (if str_len label =? 1 then Ok tt else check_chars label) in
      iterM (fun a => match a with (_, sc) => validate_scope1 sc end) args
  end
(** src/ast1/scope.rs:71-79 *)
with validate_scope1 (s : scope1) : outcome internal_error unit :=
  match s with mkScope1 cs _ => iterM validate_chunk1 cs end.

(** ** Lines
    src/ast1/chunk.rs:73-77, chunkvariant.rs:51-59, command.rs:100-111, scope.rs:81-89 *)
Section Lines1.
  Context {E : Type} (p : profile).

  (** src/ast1/chunk.rs:73-77 *)
  Fixpoint lines_chunk1 (c : chunk1) : outcome E N :=
    match c with mkChunk1 _ v => lines_variant1 v end
  (** src/ast1/chunkvariant.rs:51-59 *)
  with lines_variant1 (v : variant1) : outcome E N :=
    match v with
    | Text1 s => add32 p (as_u32 (count_newlines s)) 1
    | Command1 c => lines_command1 c
    | Scope1 sc => lines_scope1 sc
    end
  (** src/ast1/command.rs:100-111 *)
  with lines_command1 (c : command1) : outcome E N :=
    match c with
    | mkCommand1 label args =>
        let* total :=
          foldM (fun total a => match a with (prec, arg) =>
                   let* total := add32 p total (as_u32 (count_newlines prec)) in
                   let* l := lines_scope1 arg in
                   let* l := sub32 p l 1 in
                   add32 p total l end)
                (as_u32 (count_newlines label)) args in
        add32 p total 1
    end
  (** src/ast1/scope.rs:81-89 *)
  with lines_scope1 (s : scope1) : outcome E N :=
    match s with
    | mkScope1 cs _ =>
        let* ls := mapM (fun c => let* l := lines_chunk1 c in sub32 p l 1) cs in
        let* t := sum32 p ls in
        add32 p t 1
    end.

  (** src/ast1/document.rs:133-141 *)
  Definition lines1 (d : document1) : outcome E N :=
    let* ls := mapM (fun c => let* l := lines_chunk1 c in sub32 p l 1) d in
    let* t := sum32 p ls in
    add32 p t 1.
End Lines1.

(** src/ast1/document.rs:112-131 [Validate for Document] *)
Fixpoint validate_from1 (p : profile) (expected_line : N) (d : list chunk1) : outcome internal_error unit :=
  match d with
  | [] => Ok tt
  | chunk :: d' =>
      if negb (line_no1 chunk =? expected_line)
      then Err (IncorrectChunkLineNumber expected_line (line_no1 chunk))
      else
        let* _ := validate_chunk1 chunk in
        let* l := lines_chunk1 p chunk in
        let* l := sub32 p l 1 in
        let* expected_line := add32 p expected_line l in
        validate_from1 p expected_line d'
  end.
(** src/ast1/document.rs:113-130: the loop starts at line 1 *)
Definition validate1 (p : profile) (d : document1) : outcome internal_error unit :=
  validate_from1 p 1 d.

(** src/ast1/document.rs:33-38 [Document::new]; [Chunk::new] chunk.rs:24-28,
    [Command::new] command.rs:27-31, [Scope::new] scope.rs:24-28 *)
Definition document1_new (p : profile) (d : list chunk1) : outcome internal_error document1 :=
  let* _ := validate1 p d in Ok d.
(** src/ast1/chunk.rs:24-28 *)
Definition chunk1_new (line : N) (v : variant1) : outcome internal_error chunk1 :=
  let* _ := validate_chunk1 (mkChunk1 line v) in Ok (mkChunk1 line v).
(** src/ast1/command.rs:27-31 *)
Definition command1_new (label : str) (args : list (str * scope1)) : outcome internal_error command1 :=
  let* _ := validate_command1 (mkCommand1 label args) in Ok (mkCommand1 label args).
(** src/ast1/scope.rs:24-28 *)
Definition scope1_new (cs : list chunk1) (v : sv1) : outcome internal_error scope1 :=
  let* _ := validate_scope1 (mkScope1 cs v) in Ok (mkScope1 cs v).

(** ** Pushing *)

(** src/ast1/document.rs:83-95 [push_chunk_unchecked]: merges a text into a
    preceding text *)
Fixpoint push_chunk_unchecked1 (d : document1) (chunk : chunk1) : document1 :=
  match d with
  | [] => [chunk]
  | [last] =>
      match variant_of1 chunk, last with
      | Text1 s, mkChunk1 l (Text1 last_s) => [mkChunk1 l (Text1 (last_s ++ s))]
      | _, _ => [last; chunk]
      end
  | x :: d' => x :: push_chunk_unchecked1 d' chunk
  end.

(** [self.chunks().last().map(|last| last.line_no() + last.lines() - 1).unwrap_or(1)],
    src/ast1/document.rs:54-58 and 66-70 *)
Definition end_line1 {E} (p : profile) (d : document1) : outcome E N :=
  match rev d with
  | [] => Ok 1
  | last :: _ =>
      let* l := lines_chunk1 p last in
      let* x := add32 p (line_no1 last) l in
      sub32 p x 1
  end.

(** src/ast1/document.rs:52-60 *)
Definition push_unchecked1 {E} (p : profile) (d : document1) (v : variant1) : outcome E document1 :=
  let* line := end_line1 p d in
  Ok (push_chunk_unchecked1 d (mkChunk1 line v)).

(** src/ast1/document.rs:45-50 *)
Definition push1 (p : profile) (d : document1) (v : variant1) : outcome internal_error document1 :=
  let* _ := validate_variant1 v in
  push_unchecked1 p d v.

(** src/ast1/document.rs:62-81 *)
Definition push_chunk1 (p : profile) (d : document1) (chunk : chunk1) : outcome internal_error document1 :=
  let* _ := validate_chunk1 chunk in
  let* expected_line := end_line1 p d in
  if negb (expected_line =? line_no1 chunk)
  then Err (IncorrectChunkLineNumber expected_line (line_no1 chunk))
  else Ok (push_chunk_unchecked1 d chunk).

(** ** [#[derive(PartialEq)]] on chunks (src/ast1/chunk.rs:16, chunkvariant.rs:10,
    command.rs:15, scope.rs:15), used by the stage-2 label comparison *)
Section ListEqb.
  Context {A : Type} (eqb : A -> A -> bool).
  (** [==] on vectors (standard library), used by every derived [PartialEq] below, e.g. src/ast1/scope.rs:15 *)
  Fixpoint list_eqb (a b : list A) : bool :=
    match a, b with
    | [], [] => true
    | x :: a', y :: b' => eqb x y && list_eqb a' b'
    | _, _ => false
    end.
End ListEqb.

(** src/ast1/chunk.rs:16 derived [PartialEq] *)
Fixpoint chunk1_eqb (a b : chunk1) : bool :=
  match a, b with mkChunk1 la va, mkChunk1 lb vb => (la =? lb) && variant1_eqb va vb end
(** src/ast1/chunkvariant.rs:10 derived [PartialEq] *)
with variant1_eqb (a b : variant1) : bool :=
  match a, b with
  | Text1 x, Text1 y => str_eqb x y
  | Command1 x, Command1 y => command1_eqb x y
  | Scope1 x, Scope1 y => scope1_eqb x y
  | _, _ => false
  end
(** src/ast1/command.rs:15 derived [PartialEq] *)
with command1_eqb (a b : command1) : bool :=
  match a, b with
  | mkCommand1 la aa, mkCommand1 lb ab =>
      str_eqb la lb &&
      list_eqb (fun x y => match x, y with (px, sx), (py, sy) => str_eqb px py && scope1_eqb sx sy end) aa ab
  end
(** src/ast1/scope.rs:15 derived [PartialEq] *)
with scope1_eqb (a b : scope1) : bool :=
  match a, b with
  | mkScope1 ca va, mkScope1 cb vb => list_eqb chunk1_eqb ca cb && sv1_eqb va vb
  end.
(** src/ast1/document.rs:19 derived [PartialEq]; [==] on [Vec<ast1::Chunk>] *)
Definition chunks1_eqb : list chunk1 -> list chunk1 -> bool := list_eqb chunk1_eqb.
