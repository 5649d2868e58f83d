(** * Ast2: model of src/ast2 (types, Display, Validate, Lines, push operations,
      conversions from and to stage 1) *)

From Verif Require Import Base Ast1 Parse1.

(** src/ast2/scopevariant.rs:2-10 *)
Inductive sv2 := Curly2 | Round2 | Square2.

(** src/ast2/scopevariant.rs:12-20 [From<ast1::ScopeVariant>] *)
Definition sv2_of_sv1 (v : sv1) : sv2 :=
  match v with Curly1 => Curly2 | Round1 => Round2 | Square1 => Square2 end.
(** src/ast1/scopevariant.rs:14-22 [From<ast2::ScopeVariant>] *)
Definition sv1_of_sv2 (v : sv2) : sv1 :=
  match v with Curly2 => Curly1 | Round2 => Round1 | Square2 => Square1 end.
(** src/ast2/scopevariant.rs:33-41 *)
Definition open2 (v : sv2) : char :=
  match v with Curly2 => c_lcurly | Round2 => c_lround | Square2 => c_lsquare end.
(** src/ast2/scopevariant.rs:43-51 *)
Definition close2 (v : sv2) : char :=
  match v with Curly2 => c_rcurly | Round2 => c_rround | Square2 => c_rsquare end.

(** src/ast2/chunk.rs:19-22, chunkvariant.rs:14-23, command.rs:16-23, scope.rs:19-22,
    environment.rs:16-23 *)
Inductive chunk2 :=
| mkChunk2 (line_no : N) (variant : variant2)
(** src/ast2/chunkvariant.rs:14-23 *)
with variant2 :=
| Text2 (s : str)
| Command2 (c : command2)
| Scope2 (sc : scope2)
| Environment2 (e : environment2)
(** src/ast2/command.rs:16-23 *)
with command2 :=
| mkCommand2 (label : str) (arguments : list (str * scope2))
(** src/ast2/scope.rs:19-22 *)
with scope2 :=
| mkScope2 (chunks : list chunk2) (variant : sv2)
(** src/ast2/environment.rs:16-23 *)
with environment2 :=
| mkEnv2 (label : str) (arguments : list (str * scope2)) (content : list chunk2)
         (prec_begin prec_end : str).

(** accessors: src/ast2/chunk.rs:128-141, command.rs:53-61, scope.rs:84-97, environment.rs:143-146 *)
Definition line_no2 (c : chunk2) : N := match c with mkChunk2 l _ => l end.
(** src/ast2/chunk.rs:139-141 *)
Definition variant_of2 (c : chunk2) : variant2 := match c with mkChunk2 _ v => v end.
(** src/ast2/command.rs:54-56 *)
Definition label2 (c : command2) : str := match c with mkCommand2 l _ => l end.
(** src/ast2/command.rs:59-61 *)
Definition arguments2 (c : command2) : list (str * scope2) := match c with mkCommand2 _ a => a end.
(** src/ast2/scope.rs:85-87 *)
Definition chunks2 (s : scope2) : list chunk2 := match s with mkScope2 cs _ => cs end.
(** src/ast2/scope.rs:95-97 *)
Definition scope_variant2 (s : scope2) : sv2 := match s with mkScope2 _ v => v end.
(** src/ast2/environment.rs:144-146 *)
Definition env_label2 (e : environment2) : str := match e with mkEnv2 l _ _ _ _ => l end.

(** src/ast2/document.rs:14-17 *)
Definition document2 := list chunk2.

(** the literal of src/ast2/document.rs:258 and 279, chunk.rs:71, command.rs:98, environment.rs:35 *)
Definition s_begin : str := S! "begin".
(** the literal of src/ast2/document.rs:258, 304 and 318, chunk.rs:90, command.rs:99, environment.rs:35 *)
Definition s_end : str := S! "end".

(** ** Display
    src/ast2/chunk.rs:24-28, chunkvariant.rs:25-34, command.rs:25-38, scope.rs:24-36,
    environment.rs:25-52 (format string [\begin{}{{{}}}{}{}\end{}{{{}}}]), document.rs:103-107 *)
Fixpoint show_chunk2 (c : chunk2) : str :=
  match c with mkChunk2 _ v => show_variant2 v end
(** src/ast2/chunkvariant.rs:25-34 *)
with show_variant2 (v : variant2) : str :=
  match v with
  | Text2 s => s
  | Command2 c => show_command2 c
  | Scope2 sc => show_scope2 sc
  | Environment2 e => show_env2 e
  end
(** src/ast2/command.rs:25-38 *)
with show_command2 (c : command2) : str :=
  match c with
  | mkCommand2 label args =>
      c_bslash :: label ++ concat (map (fun a => match a with (pre, sc) => pre ++ show_scope2 sc end) args)
  end
(** src/ast2/scope.rs:24-36 *)
with show_scope2 (s : scope2) : str :=
  match s with
  | mkScope2 cs v => open2 v :: concat (map show_chunk2 cs) ++ [close2 v]
  end
(** src/ast2/environment.rs:25-52 *)
with show_env2 (e : environment2) : str :=
  match e with
  | mkEnv2 label args content prec_begin prec_end =>
      (c_bslash :: s_begin) ++ prec_begin ++ [c_lcurly] ++ label ++ [c_rcurly]
      ++ concat (map (fun a => match a with (pre, sc) => pre ++ show_scope2 sc end) args)
      ++ concat (map show_chunk2 content)
      ++ (c_bslash :: s_end) ++ prec_end ++ [c_lcurly] ++ label ++ [c_rcurly]
  end.
(** the arguments part of src/ast2/command.rs:26-37 *)
Definition show_args2 (args : list (str * scope2)) : str :=
  concat (map (fun a => match a with (pre, sc) => pre ++ show_scope2 sc end) args).
(** src/ast2/document.rs:103-107 *)
Definition show2 (d : document2) : str := concat (map show_chunk2 d).

(** ** Validate
    src/ast2/chunk.rs:103-107, chunkvariant.rs:36-56, command.rs:95-120, scope.rs:51-59,
    environment.rs:96-117 *)
Fixpoint validate_chunk2 (c : chunk2) : outcome internal_error unit :=
  match c with mkChunk2 _ v => validate_variant2 v end
(** src/ast2/chunkvariant.rs:36-56 *)
with validate_variant2 (v : variant2) : outcome internal_error unit :=
  match v with
  | Text2 s => check_chars s
  | Command2 c => validate_command2 c
  | Scope2 sc => validate_scope2 sc
  | Environment2 e => validate_env2 e
  end
(** src/ast2/command.rs:95-120 *)
with validate_command2 (c : command2) : outcome internal_error unit :=
  match c with
  | mkCommand2 label args =>
      if str_eqb label s_begin then Err BeginCommand
      else if str_eqb label s_end then Err EndCommand
      else
        let* _ := (if str_len label =? 1 then Ok tt else check_chars label) in
        iterM (fun a => match a with (_, sc) => validate_scope2 sc end) args
  end
(** src/ast2/scope.rs:51-59 *)
with validate_scope2 (s : scope2) : outcome internal_error unit :=
  match s with mkScope2 cs _ => iterM validate_chunk2 cs end
(** src/ast2/environment.rs:96-117 *)
with validate_env2 (e : environment2) : outcome internal_error unit :=
  match e with
  | mkEnv2 label args content _ _ =>
      let* _ := check_chars label in
      let* _ := iterM (fun a => match a with (_, sc) => validate_scope2 sc end) args in
      iterM validate_chunk2 content
  end.

(** ** Lines
    src/ast2/chunk.rs:109-113, chunkvariant.rs:58-67, command.rs:122-133, scope.rs:61-69,
    environment.rs:119-140, document.rs:130-138 *)
Section Lines2.
  Context {E : Type} (p : profile).

  (** src/ast2/chunk.rs:109-113 *)
  Fixpoint lines_chunk2 (c : chunk2) : outcome E N :=
    match c with mkChunk2 _ v => lines_variant2 v end
  (** src/ast2/chunkvariant.rs:58-67 *)
  with lines_variant2 (v : variant2) : outcome E N :=
    match v with
    | Text2 s => add32 p (as_u32 (count_newlines s)) 1
    | Command2 c => lines_command2 c
    | Scope2 sc => lines_scope2 sc
    | Environment2 e => lines_env2 e
    end
  (** src/ast2/command.rs:122-133 *)
  with lines_command2 (c : command2) : outcome E N :=
    match c with
    | mkCommand2 label args =>
        let* total :=
          foldM (fun total a => match a with (prec, arg) =>
                   let* total := add32 p total (as_u32 (count_newlines prec)) in
                   let* l := lines_scope2 arg in
                   let* l := sub32 p l 1 in
                   add32 p total l end)
                (as_u32 (count_newlines label)) args in
        add32 p total 1
    end
  (** src/ast2/scope.rs:61-69 *)
  with lines_scope2 (s : scope2) : outcome E N :=
    match s with
    | mkScope2 cs _ =>
        let* ls := mapM (fun c => let* l := lines_chunk2 c in sub32 p l 1) cs in
        let* t := sum32 p ls in
        add32 p t 1
    end
  (** src/ast2/environment.rs:119-140 *)
  with lines_env2 (e : environment2) : outcome E N :=
    match e with
    | mkEnv2 label args content prec_begin prec_end =>
        let* lines := mul32 p (as_u32 (count_newlines label)) 2 in
        let* lines := add32 p lines (as_u32 (count_newlines (prec_begin ++ prec_end))) in
        let* lines :=
          foldM (fun lines a => match a with (prec, arg) =>
                   let* lines := add32 p lines (as_u32 (count_newlines prec)) in
                   let* l := lines_scope2 arg in
                   let* l := sub32 p l 1 in
                   add32 p lines l end)
                lines args in
        let* lines :=
          foldM (fun lines c =>
                   let* l := lines_chunk2 c in
                   let* l := sub32 p l 1 in
                   add32 p lines l)
                lines content in
        add32 p lines 1
    end.

  (** src/ast2/document.rs:130-138 *)
  Definition lines2 (d : document2) : outcome E N :=
    let* ls := mapM (fun c => let* l := lines_chunk2 c in sub32 p l 1) d in
    let* t := sum32 p ls in
    add32 p t 1.
End Lines2.

(** src/ast2/document.rs:109-128 [Validate for Document] *)
Fixpoint validate_from2 (p : profile) (expected_line : N) (d : list chunk2) : outcome internal_error unit :=
  match d with
  | [] => Ok tt
  | chunk :: d' =>
      if negb (line_no2 chunk =? expected_line)
      then Err (IncorrectChunkLineNumber expected_line (line_no2 chunk))
      else
        let* _ := validate_chunk2 chunk in
        let* l := lines_chunk2 p chunk in
        let* l := sub32 p l 1 in
        let* expected_line := add32 p expected_line l in
        validate_from2 p expected_line d'
  end.
(** src/ast2/document.rs:110-127: the loop starts at line 1 *)
Definition validate2 (p : profile) (d : document2) : outcome internal_error unit :=
  validate_from2 p 1 d.

(** [new]: src/ast2/document.rs:20-25, chunk.rs:117-121, command.rs:42-46, scope.rs:73-77,
    environment.rs:56-75 *)
Definition document2_new (p : profile) (d : list chunk2) : outcome internal_error document2 :=
  let* _ := validate2 p d in Ok d.
(** src/ast2/chunk.rs:117-121 *)
Definition chunk2_new (line : N) (v : variant2) : outcome internal_error chunk2 :=
  let* _ := validate_chunk2 (mkChunk2 line v) in Ok (mkChunk2 line v).
(** src/ast2/command.rs:42-46 *)
Definition command2_new (label : str) (args : list (str * scope2)) : outcome internal_error command2 :=
  let* _ := validate_command2 (mkCommand2 label args) in Ok (mkCommand2 label args).
(** src/ast2/scope.rs:73-77 *)
Definition scope2_new (cs : list chunk2) (v : sv2) : outcome internal_error scope2 :=
  let* _ := validate_scope2 (mkScope2 cs v) in Ok (mkScope2 cs v).
(** src/ast2/environment.rs:56-75 *)
Definition env2_new (label : str) (args : list (str * scope2)) (content : list chunk2)
  (pb pe : str) : outcome internal_error environment2 :=
  let* _ := validate_env2 (mkEnv2 label args content pb pe) in Ok (mkEnv2 label args content pb pe).

(** ** Pushing: src/ast2/document.rs:42-92 *)
Fixpoint push_chunk_unchecked2 (d : document2) (chunk : chunk2) : document2 :=
  match d with
  | [] => [chunk]
  | [last] =>
      match variant_of2 chunk, last with
      | Text2 s, mkChunk2 l (Text2 last_s) => [mkChunk2 l (Text2 (last_s ++ s))]
      | _, _ => [last; chunk]
      end
  | x :: d' => x :: push_chunk_unchecked2 d' chunk
  end.

(** the expected line, src/ast2/document.rs:51-55 and 63-67 *)
Definition end_line2 {E} (p : profile) (d : document2) : outcome E N :=
  match rev d with
  | [] => Ok 1
  | last :: _ =>
      let* l := lines_chunk2 p last in
      let* x := add32 p (line_no2 last) l in
      sub32 p x 1
  end.

(** src/ast2/document.rs:50-57 *)
Definition push_unchecked2 {E} (p : profile) (d : document2) (v : variant2) : outcome E document2 :=
  let* line := end_line2 p d in
  Ok (push_chunk_unchecked2 d (mkChunk2 line v)).

(** src/ast2/document.rs:43-47 *)
Definition push2 (p : profile) (d : document2) (v : variant2) : outcome internal_error document2 :=
  let* _ := validate_variant2 v in
  push_unchecked2 p d v.

(** src/ast2/document.rs:60-78 *)
Definition push_chunk2 (p : profile) (d : document2) (chunk : chunk2) : outcome internal_error document2 :=
  let* _ := validate_chunk2 chunk in
  let* expected_line := end_line2 p d in
  if negb (expected_line =? line_no2 chunk)
  then Err (IncorrectChunkLineNumber expected_line (line_no2 chunk))
  else Ok (push_chunk_unchecked2 d chunk).

(** ** Stage 1 to stage 2: [TryFrom<ast1::Document>], src/ast2/document.rs:196-373 *)
Section TryFrom2.
  Context (p : profile).
  (** The recursive call [Document::try_from]. *)
  Context (rec : list chunk1 -> outcome error document2).

  (** src/ast2/scope.rs:105-115 [TryFrom<ast1::Scope>] *)
  Definition scope2_try_from (s : scope1) : outcome error scope2 :=
    let* cs := rec (chunks1 s) in
    Ok (mkScope2 cs (sv2_of_sv1 (scope_variant1 s))).

  (** [for (prec, scope) in args { v.push((prec, scope.try_into()?)) }],
      src/ast2/command.rs:87-89 and document.rs:334-336 *)
  Definition args2_try_from (args : list (str * scope1)) : outcome error (list (str * scope2)) :=
    mapM (fun a => match a with (prec, sc) =>
            let* sc := scope2_try_from sc in Ok (prec, sc) end) args.

  (** src/ast2/command.rs:79-93 [TryFrom<ast1::Command>] *)
  Definition command2_try_from (c : command1) : outcome error command2 :=
    let* args := args2_try_from (arguments1 c) in
    Ok (mkCommand2 (label1 c) args).

  (** Local variables of the conversion, src/ast2/document.rs:200-207.  The vector
      [buffer_stack] is kept with its last element first. *)
  Record tstate := mkT {
    ts_chunks : list chunk2;
    ts_stack : list (list chunk1);       (* buffer_stack, top first *)
    ts_start : N;                        (* buffer_start *)
    ts_args : list (str * scope1);       (* env_args *)
    ts_buffer : list chunk1;
    ts_prec : str;                       (* prec_begin *)
  }.

  (** initial values, src/ast2/document.rs:200-207 *)
  Definition tinit : tstate := mkT [] [] 0 [] [] [].

  (** src/ast2/document.rs:212-216 [push_chunks!] *)
  Definition t_push_chunk (st : tstate) (c : chunk2) : tstate :=
    mkT (ts_chunks st ++ [c]) (ts_stack st) (ts_start st) (ts_args st) (ts_buffer st) (ts_prec st).

  (** src/ast2/document.rs:218-222 [push_buffer!] *)
  Definition t_push_buffer (st : tstate) (line_no : N) (v : variant1) : outcome error tstate :=
    let* l := sub32 p line_no (ts_start st) in
    let* l := add32 p l 1 in
    Ok (mkT (ts_chunks st) (ts_stack st) (ts_start st) (ts_args st)
            (ts_buffer st ++ [mkChunk1 l v]) (ts_prec st)).

  (** src/ast2/document.rs:224-246 [map_e!], [map_env_e!]: [e.line += off] *)
  Definition shift_err {A} (off : N) (x : outcome error A) : outcome error A :=
    map_err (fun e => let* l := add32 p (err_line e) off in Ok (mkError l (err_type e))) x.

  (** [buffer_stack.last() == Some(..)], src/ast2/document.rs:305-306 *)
  Definition opt_chunks_eqb (a : option (list chunk1)) (b : list chunk1) : bool :=
    match a with Some x => chunks1_eqb x b | None => false end.

  (** src/ast2/document.rs:209-360, body of [for original in originals] *)
  Definition tstep (st : tstate) (original : chunk1) : outcome error tstate :=
    match original with
    | mkChunk1 line_no variant =>
      match variant with
      | Text1 s =>
          if is_empty (ts_stack st) then Ok (t_push_chunk st (mkChunk2 line_no (Text2 s)))
          else t_push_buffer st line_no (Text1 s)
      | Scope1 s =>
          if is_empty (ts_stack st) then
            let* sc := shift_err line_no (scope2_try_from s) in
            Ok (t_push_chunk st (mkChunk2 line_no (Scope2 sc)))
          else t_push_buffer st line_no (Scope1 s)
      | Command1 c =>
          if negb (str_eqb (label1 c) s_begin || str_eqb (label1 c) s_end) then
            (* 258-265 *)
            if is_empty (ts_stack st) then
              let* c' := command2_try_from c in
              Ok (t_push_chunk st (mkChunk2 line_no (Command2 c')))
            else t_push_buffer st line_no (Command1 c)
          else
            (* 267-276 *)
            match arguments1 c with
            | [] => Err (mkError line_no NoEnvironmentLabel)
            | (prec, content) :: rest =>
              if negb (sv1_eqb (scope_variant1 content) Curly1)
              then Err (mkError line_no NoEnvironmentLabel)
              else if str_eqb (label1 c) s_begin then
                (* 279-303 *)
                let st' := mkT (ts_chunks st) (chunks1 content :: ts_stack st) (ts_start st)
                               (ts_args st) (ts_buffer st) (ts_prec st) in
                if is_empty (ts_stack st) then
                  let* start :=
                    add32 p line_no
                      (as_u32 (fold_right N.add 0
                         (map (fun a => match a with (prec, arg) =>
                                 count_newlines prec + count_newlines (show_scope1 arg) end)
                              (arguments1 c)))) in
                  Ok (mkT (ts_chunks st') (ts_stack st') start rest (ts_buffer st') prec)
                else t_push_buffer st' line_no (Command1 c)
              else if negb (opt_chunks_eqb (hd_error (ts_stack st)) (chunks1 content)) then
                (* 304-317 *)
                Err (mkError line_no (UnexpectedEnd (show1 (chunks1 content))))
              else if 1 <? N.of_nat (length (arguments1 c)) then
                (* 319-324 *)
                Err (mkError line_no TooManyArgsEnd)
              else
                (* 326-354; [buffer_stack.pop().unwrap()] *)
                match ts_stack st with
                | [] => Panic
                | _ :: stack =>
                  let st' := mkT (ts_chunks st) stack (ts_start st) (ts_args st) (ts_buffer st) (ts_prec st) in
                  if is_empty stack then
                    let* args_new := args2_try_from (ts_args st) in
                    let* body := shift_err (ts_start st) (rec (ts_buffer st)) in
                    Ok (mkT (ts_chunks st ++
                               [mkChunk2 (ts_start st)
                                  (Environment2 (mkEnv2 (show1 (chunks1 content)) args_new body
                                                        (ts_prec st) prec))])
                            stack (ts_start st) [] [] [])
                  else t_push_buffer st' line_no (Command1 c)
                end
            end
      end
    end.

  (** src/ast2/document.rs:362-371 *)
  Definition tfinish (st : tstate) : outcome error document2 :=
    match last_opt (ts_stack st) with
    | Some label => Err (mkError (ts_start st) (UnclosedEnvironment (show1 label)))
    | None => Ok (ts_chunks st)
    end.
End TryFrom2.

(** src/ast2/document.rs:199-372, with fuel for the recursion *)
Fixpoint try_from2_fuel (fuel : nat) (p : profile) (d : list chunk1) : outcome error document2 :=
  match fuel with
  | O => OutOfFuel
  | S fuel =>
      let rec := try_from2_fuel fuel p in
      let* st := foldM (tstep p rec) tinit d in
      tfinish st
  end.

(** no counterpart in src/: size of stage-1 trees, only used to provide recursion fuel *)
Fixpoint size_chunk1 (c : chunk1) : nat :=
  match c with mkChunk1 _ v => S (size_variant1 v) end
(** no counterpart in src/: fuel *)
with size_variant1 (v : variant1) : nat :=
  match v with
  | Text1 _ => O
  | Command1 c => size_command1 c
  | Scope1 sc => size_scope1 sc
  end
(** no counterpart in src/: fuel *)
with size_command1 (c : command1) : nat :=
  match c with
  | mkCommand1 _ args => S (list_sum (map (fun a => match a with (_, sc) => size_scope1 sc end) args))
  end
(** no counterpart in src/: fuel *)
with size_scope1 (s : scope1) : nat :=
  match s with mkScope1 cs _ => S (list_sum (map size_chunk1 cs)) end.
(** no counterpart in src/: fuel *)
Definition size1 (d : list chunk1) : nat := list_sum (map size_chunk1 d).

(** src/ast2/document.rs:197-373 [TryFrom<ast1::Document>] *)
Definition try_from2 (p : profile) (d : document1) : outcome error document2 :=
  try_from2_fuel (S (size1 d)) p d.

(** src/ast2/document.rs:95-101 [FromStr for Document] *)
Definition from_str2 (p : profile) (s : str) : outcome error document2 :=
  let* d := from_str1 p s in try_from2 p d.

(** ** Stage 2 to stage 1 *)

(** src/ast2/chunk.rs:30-101 [ast1::IntoChunks for Chunk], src/ast2/scope.rs:38-49
    [to_ast1_scope] (same as src/ast1/scope.rs:91-102), src/ast1/command.rs:113-124
    [From<ast2::Command>].  The chunk's own line is passed separately because the
    environment case re-bases the line of each content chunk before converting it
    ([chunk.line_no += self.line_no - 1]). *)
Section Into1.
  Context {E : Type} (p : profile).

  (** src/ast2/chunk.rs:31-100 *)
  Fixpoint into1_chunk (c : chunk2) (shift : option N) : outcome E (list chunk1) :=
    match c with
    | mkChunk2 line0 v =>
        (* [shift = Some self_line]: [chunk.line_no += self_line - 1] *)
        let* line := match shift with
                     | None => Ok line0
                     | Some self_line => let* o := sub32 p self_line 1 in add32 p line0 o
                     end in
        into1_variant v line
    end
  (** src/ast2/chunk.rs:31-100, the match on the variant *)
  with into1_variant (v : variant2) (line : N) : outcome E (list chunk1) :=
    match v with
    | Text2 s => Ok [mkChunk1 line (Text1 s)]
    | Scope2 sc => let* sc := into1_scope sc in Ok [mkChunk1 line (Scope1 sc)]
    | Command2 c => let* c := into1_command c in Ok [mkChunk1 line (Command1 c)]
    | Environment2 e => into1_env e line
    end
  (** src/ast1/command.rs:113-124 *)
  with into1_command (c : command2) : outcome E command1 :=
    match c with
    | mkCommand2 label args =>
        let* args := mapM (fun a => match a with (s, sc) =>
                             let* sc := into1_scope sc in Ok (s, sc) end) args in
        Ok (mkCommand1 label args)
    end
  (** src/ast2/scope.rs:38-49, src/ast1/scope.rs:91-102 *)
  with into1_scope (s : scope2) : outcome E scope1 :=
    match s with
    | mkScope2 cs v =>
        let* css := mapM (fun c => into1_chunk c None) cs in
        Ok (mkScope1 (concat css) (sv1_of_sv2 v))
    end
  (** src/ast2/chunk.rs:31-100, the environment case *)
  with into1_env (e : environment2) (line : N) : outcome E (list chunk1) :=
    match e with
    | mkEnv2 label args content prec_begin prec_end =>
        let* end_line :=
          add32 p line
            (as_u32 (count_newlines prec_begin + count_newlines label
                     + count_newlines (concat (map show_chunk2 content))
                     + fold_right N.add 0
                         (map (fun a => match a with (prec, arg) =>
                                 count_newlines prec + count_newlines (show_scope2 arg) end) args))) in
        let* lab := unwrap (from_str1 p label) in
        let lab := mkScope1 lab Curly1 in
        let* args1 := mapM (fun a => match a with (prec, arg) =>
                              let* sc := into1_scope arg in Ok (prec, sc) end) args in
        let* css := mapM (fun c => into1_chunk c (Some line)) content in
        Ok ([mkChunk1 line (Command1 (mkCommand1 s_begin ((prec_begin, lab) :: args1)))]
            ++ concat css
            ++ [mkChunk1 end_line (Command1 (mkCommand1 s_end [(prec_end, lab)]))])
    end.

  (** src/ast1/document.rs:143-153 [From<ast2::Document>], 97-103 [push_into_unchecked] *)
  Definition from2_to1 (d : document2) : outcome E document1 :=
    foldM (fun out c => let* cs := into1_chunk c None in
                        Ok (fold_left push_chunk_unchecked1 cs out)) [] d.
End Into1.
