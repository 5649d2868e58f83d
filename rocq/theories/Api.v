(** * Api: the rest of the public surface

    Equality tests of stages 2 and 3, constructors, unchecked pushes and [decompose] that the other model files
    do not need.  Trivial accessors ([line_no], [variant], [label], [chunks], ...) return a field and are the
    projections of Ast1.v, Ast2.v and Ast3.v. *)
From Verif Require Import Base Ast1 Parse1 Ast2 Ast3.

(** ** [#[derive(PartialEq)]] at stage 2: src/ast2/chunk.rs:18-22, chunkvariant.rs:13-23, command.rs:15-23,
    scope.rs:18-22, environment.rs:15-23, scopevariant.rs:2, document.rs:16-17.  A derived [==] compares the
    variants and then the fields in order; a pair [(String, Scope)] compares both components. *)
Definition sv2_eqb (a b : sv2) : bool :=
  match a, b with Curly2, Curly2 | Round2, Round2 | Square2, Square2 => true | _, _ => false end.
(** src/ast2/chunk.rs:18 *)
Fixpoint chunk2_eqb (a b : chunk2) : bool :=
  match a, b with mkChunk2 la va, mkChunk2 lb vb => (la =? lb) && variant2_eqb va vb end
(** src/ast2/chunkvariant.rs:13 *)
with variant2_eqb (a b : variant2) : bool :=
  match a, b with
  | Text2 x, Text2 y => str_eqb x y
  | Command2 x, Command2 y => command2_eqb x y
  | Scope2 x, Scope2 y => scope2_eqb x y
  | Environment2 x, Environment2 y => env2_eqb x y
  | _, _ => false
  end
(** src/ast2/command.rs:15 *)
with command2_eqb (a b : command2) : bool :=
  match a, b with
  | mkCommand2 la aa, mkCommand2 lb ab =>
      str_eqb la lb &&
      list_eqb (fun x y => match x, y with (px, sx), (py, sy) => str_eqb px py && scope2_eqb sx sy end) aa ab
  end
(** src/ast2/scope.rs:18 *)
with scope2_eqb (a b : scope2) : bool :=
  match a, b with
  | mkScope2 ca va, mkScope2 cb vb => list_eqb chunk2_eqb ca cb && sv2_eqb va vb
  end
(** src/ast2/environment.rs:15 *)
with env2_eqb (a b : environment2) : bool :=
  match a, b with
  | mkEnv2 la aa ca ba ea, mkEnv2 lb ab cb bb eb =>
      str_eqb la lb &&
      list_eqb (fun x y => match x, y with (px, sx), (py, sy) => str_eqb px py && scope2_eqb sx sy end) aa ab &&
      list_eqb chunk2_eqb ca cb && str_eqb ba bb && str_eqb ea eb
  end.
(** src/ast2/document.rs:16 *)
Definition document2_eqb : document2 -> document2 -> bool := list_eqb chunk2_eqb.

(** ** [#[derive(PartialEq)]] at stage 3: src/ast3/chunk.rs:17-21, chunkvariant.rs:13-27, command.rs:15-23,
    scope.rs:17-21, environment.rs:15-23, mathsblock.rs:15-20, mathsvariant.rs:4-10, mathstype.rs:4-10,
    scopevariant.rs:4, document.rs:17-31 *)
Definition sv3_eqb (a b : sv3) : bool :=
  match a, b with Curly3, Curly3 | Round3, Round3 | Square3, Square3 => true | _, _ => false end.
(** src/ast3/mathsvariant.rs:4 *)
Definition mv_eqb (a b : maths_variant) : bool :=
  match a, b with Brackets, Brackets | Dollars, Dollars => true | _, _ => false end.
(** src/ast3/mathstype.rs:4 *)
Definition mt_eqb (a b : maths_type) : bool :=
  match a, b with Inline, Inline | Outline, Outline => true | _, _ => false end.
(** src/ast3/chunk.rs:17 *)
Fixpoint chunk3_eqb (a b : chunk3) : bool :=
  match a, b with mkChunk3 la va, mkChunk3 lb vb => (la =? lb) && variant3_eqb va vb end
(** src/ast3/chunkvariant.rs:13 *)
with variant3_eqb (a b : variant3) : bool :=
  match a, b with
  | Text3 x, Text3 y => str_eqb x y
  | ParagraphBreak3 x, ParagraphBreak3 y => str_eqb x y
  | Maths3 x, Maths3 y => maths3_eqb x y
  | Command3 x, Command3 y => command3_eqb x y
  | Scope3 x, Scope3 y => scope3_eqb x y
  | Environment3 x, Environment3 y => env3_eqb x y
  | _, _ => false
  end
(** src/ast3/command.rs:15 *)
with command3_eqb (a b : command3) : bool :=
  match a, b with
  | mkCommand3 la aa, mkCommand3 lb ab =>
      str_eqb la lb &&
      list_eqb (fun x y => match x, y with (px, sx), (py, sy) => str_eqb px py && scope3_eqb sx sy end) aa ab
  end
(** src/ast3/scope.rs:17 *)
with scope3_eqb (a b : scope3) : bool :=
  match a, b with
  | mkScope3 ca va, mkScope3 cb vb => list_eqb chunk3_eqb ca cb && sv3_eqb va vb
  end
(** src/ast3/environment.rs:15 *)
with env3_eqb (a b : environment3) : bool :=
  match a, b with
  | mkEnv3 la aa ca ba ea, mkEnv3 lb ab cb bb eb =>
      str_eqb la lb &&
      list_eqb (fun x y => match x, y with (px, sx), (py, sy) => str_eqb px py && scope3_eqb sx sy end) aa ab &&
      list_eqb chunk3_eqb ca cb && str_eqb ba bb && str_eqb ea eb
  end
(** src/ast3/mathsblock.rs:15 *)
with maths3_eqb (a b : maths3) : bool :=
  match a, b with
  | mkMaths3 va ta ca, mkMaths3 vb tb cb => mv_eqb va vb && mt_eqb ta tb && list_eqb chunk3_eqb ca cb
  end.
(** the fields of src/ast3/document.rs:18-31 are options, tuples and vectors, with the standard library's [==] *)
Definition opt_eqb {A} (f : A -> A -> bool) (a b : option A) : bool :=
  match a, b with Some x, Some y => f x y | None, None => true | _, _ => false end.
(** an element of [documentoptions], src/ast3/document.rs:18-31 *)
Definition option_entry_eqb (a b : option_entry) : bool :=
  match a, b with
  | (a1, a2, a3, a4), (b1, b2, b3, b4) =>
      str_eqb a1 b1 && str_eqb a2 b2 &&
      opt_eqb (fun x y => match x, y with (x1, x2, x3), (y1, y2, y3) => str_eqb x1 y1 && str_eqb x2 y2 && str_eqb x3 y3 end) a3 b3 &&
      str_eqb a4 b4
  end.
(** src/ast3/document.rs:17 *)
Definition document3_eqb (a b : document3) : bool :=
  opt_eqb str_eqb (d_class a) (d_class b) &&
  list_eqb option_entry_eqb (d_options a) (d_options b) &&
  list_eqb chunk3_eqb (d_preamable a) (d_preamable b) &&
  list_eqb chunk3_eqb (d_body a) (d_body b) &&
  list_eqb (fun x y => match x, y with (px, sx), (py, sy) => str_eqb px py && scope3_eqb sx sy end) (d_body_args a) (d_body_args b) &&
  str_eqb (d_begin_prec a) (d_begin_prec b) &&
  str_eqb (d_end_prec a) (d_end_prec b) &&
  list_eqb chunk3_eqb (d_trailing a) (d_trailing b).

(** ** Constructors of stage 3 *)
(** src/ast3/scope.rs:25-29, environment.rs:27-46, mathsblock.rs:24-32 *)
Definition scope3_new (p : profile) (cs : list chunk3) (v : sv3) : outcome internal_error scope3 :=
  let* _ := validate_scope3 p (mkScope3 cs v) in Ok (mkScope3 cs v).
(** src/ast3/environment.rs:27-46 *)
Definition env3_new (p : profile) (label : str) (args : list (str * scope3)) (content : list chunk3)
  (pb pe : str) : outcome internal_error environment3 :=
  let* _ := validate_env3 p (mkEnv3 label args content pb pe) in Ok (mkEnv3 label args content pb pe).
(** src/ast3/mathsblock.rs:24-32 *)
Definition maths3_new (p : profile) (v : maths_variant) (t : maths_type) (content : list chunk3) : outcome internal_error maths3 :=
  let* _ := validate_maths3 p (mkMaths3 v t content) in Ok (mkMaths3 v t content).
(** src/ast3/document.rs:96-117 [new_unchecked]: note the order of the parameters, which is not that of the fields *)
Definition document3_new_unchecked (preamable : list chunk3) (documentclass : option str) (documentoptions : list option_entry)
  (body : list chunk3) (body_args : list (str * scope3)) (body_begin_prec body_end_prec : str) (trailing : list chunk3) : document3 :=
  mkDoc3 documentclass documentoptions preamable body body_args body_begin_prec body_end_prec trailing.
(** src/ast3/document.rs:70-93 [new] *)
Definition document3_make (p : profile) (preamable : list chunk3) (documentclass : option str) (documentoptions : list option_entry)
  (body : list chunk3) (body_args : list (str * scope3)) (body_begin_prec body_end_prec : str) (trailing : list chunk3)
  : outcome internal_error document3 :=
  document3_new p (document3_new_unchecked preamable documentclass documentoptions body body_args body_begin_prec body_end_prec trailing).
(** src/ast3/document.rs:246-268 [decompose]: in the order of the fields *)
Definition document3_decompose (d : document3) :=
  (d_class d, d_options d, d_preamable d, d_body d, d_body_args d, d_begin_prec d, d_end_prec d, d_trailing d).

(** ** Unchecked pushes *)
(** src/ast1/document.rs:98-103 [push_into_unchecked], with the [into_chunks] of a stage-2 chunk (src/ast2/chunk.rs:30-101) *)
Definition push_into1 {E} (p : profile) (d : document1) (c : chunk2) : outcome E document1 :=
  let* cs := into1_chunk p c None in Ok (fold_left push_chunk_unchecked1 cs d).
(** src/ast3/document.rs:190-192, 200-202, 210-212, 220-222, 230-232, 240-242: the unchecked pushes into one section *)
Definition push_unchecked3 {E} (p : profile) (s : section) (d : document3) (v : variant3) : outcome E document3 :=
  let* cs := push_vec_unchecked p (get_section s d) v in Ok (set_section s d cs).
(** src/ast3/document.rs:200-202, 220-222, 240-242 *)
Definition push_chunk_unchecked3 (s : section) (d : document3) (c : chunk3) : document3 :=
  set_section s d (push_chunk_vec_unchecked (get_section s d) c).

(** ** In-place edits of a chunk: assignment through the reference that an accessor returns *)
(** [*chunk.variant_mut() = v], src/ast1/chunk.rs:45-48 *)
Definition set_variant1 (c : chunk1) (v : variant1) : chunk1 := match c with mkChunk1 l _ => mkChunk1 l v end.
(** [*chunk.variant_mut() = v], src/ast2/chunk.rs:143-146 *)
Definition set_variant2 (c : chunk2) (v : variant2) : chunk2 := match c with mkChunk2 l _ => mkChunk2 l v end.
(** [*chunk.variant_mut() = v], src/ast3/chunk.rs:46-49 *)
Definition set_variant3 (c : chunk3) (v : variant3) : chunk3 := match c with mkChunk3 l _ => mkChunk3 l v end.
(** [*chunk.line_no_mut() = n], src/ast2/chunk.rs:133-136 *)
Definition set_line_no2 (c : chunk2) (n : N) : chunk2 := match c with mkChunk2 _ v => mkChunk2 n v end.
