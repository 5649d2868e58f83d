(** * Ast3: model of src/ast3 (types, Display, Validate, Lines, push operations,
      paragraphs, maths blocks, conversions from and to stage 2) *)

From Verif Require Import Base Ast1 Parse1 Ast2.

(** src/ast3/scopevariant.rs:3-12 *)
Inductive sv3 := Curly3 | Round3 | Square3.
(** src/ast3/scopevariant.rs:14-22 [From<ast2::ScopeVariant>] *)
Definition sv3_of_sv2 (v : sv2) : sv3 :=
  match v with Curly2 => Curly3 | Round2 => Round3 | Square2 => Square3 end.
(** src/ast2/scopevariant.rs:22-30 [From<ast3::ScopeVariant>] *)
Definition sv2_of_sv3 (v : sv3) : sv2 :=
  match v with Curly3 => Curly2 | Round3 => Round2 | Square3 => Square2 end.
(** src/ast3/scopevariant.rs:25-43 *)
Definition open3 (v : sv3) : char :=
  match v with Curly3 => c_lcurly | Round3 => c_lround | Square3 => c_lsquare end.
(** src/ast3/scopevariant.rs:37-42 *)
Definition close3 (v : sv3) : char :=
  match v with Curly3 => c_rcurly | Round3 => c_rround | Square3 => c_rsquare end.

(** src/ast3/mathsvariant.rs:5-10, mathstype.rs:5-10 *)
Inductive maths_variant := Brackets | Dollars.
(** src/ast3/mathstype.rs:5-10 *)
Inductive maths_type := Inline | Outline.

(** src/ast3/chunk.rs:18-21, chunkvariant.rs:14-27, command.rs:16-23, scope.rs:18-21,
    environment.rs:16-23, mathsblock.rs:16-20 *)
Inductive chunk3 :=
| mkChunk3 (line_no : N) (variant : variant3)
(** src/ast3/chunkvariant.rs:14-27 *)
with variant3 :=
| Text3 (s : str)
| ParagraphBreak3 (s : str)
| Maths3 (m : maths3)
| Command3 (c : command3)
| Scope3 (sc : scope3)
| Environment3 (e : environment3)
(** src/ast3/command.rs:16-23 *)
with command3 :=
| mkCommand3 (label : str) (arguments : list (str * scope3))
(** src/ast3/scope.rs:18-21 *)
with scope3 :=
| mkScope3 (chunks : list chunk3) (variant : sv3)
(** src/ast3/environment.rs:16-23 *)
with environment3 :=
| mkEnv3 (label : str) (arguments : list (str * scope3)) (content : list chunk3)
         (prec_begin prec_end : str)
(** src/ast3/mathsblock.rs:16-20 *)
with maths3 :=
| mkMaths3 (variant : maths_variant) (type : maths_type) (content : list chunk3).

(** src/ast3/chunk.rs:37-39 *)
Definition line_no3 (c : chunk3) : N := match c with mkChunk3 l _ => l end.
(** src/ast3/chunk.rs:42-44 *)
Definition variant_of3 (c : chunk3) : variant3 := match c with mkChunk3 _ v => v end.

(** the element type of [documentoptions], src/ast3/document.rs:18-31 *)
Definition option_entry : Type := str * str * option (str * str * str) * str.

(** src/ast3/document.rs:18-31 *)
Record document3 := mkDoc3 {
  d_class : option str;
  d_options : list option_entry;
  d_preamable : list chunk3;
  d_body : list chunk3;
  d_body_args : list (str * scope3);
  d_begin_prec : str;
  d_end_prec : str;
  d_trailing : list chunk3;
}.
(** [#[derive(Default)]], src/ast3/document.rs:15 *)
Definition document3_default : document3 := mkDoc3 None [] [] [] [] [] [] [].

(** src/ast3/mathsblock.rs:404-409: opening and closing delimiters *)
Definition maths_delims (v : maths_variant) (t : maths_type) : str * str :=
  match v, t with
  | Brackets, Outline => ([c_bslash; c_lsquare], [c_bslash; c_rsquare])
  | Brackets, Inline => ([c_bslash; c_lround], [c_bslash; c_rround])
  | Dollars, Outline => ([c_dollar; c_dollar], [c_dollar; c_dollar])
  | Dollars, Inline => ([c_dollar], [c_dollar])
  end.

(** ** Display
    src/ast3/chunk.rs:111-115, chunkvariant.rs:92-102, command.rs:120-133, scope.rs:90-102,
    environment.rs:153-173, mathsblock.rs:402-419 *)
Fixpoint show_chunk3 (c : chunk3) : str :=
  match c with mkChunk3 _ v => show_variant3 v end
(** src/ast3/chunkvariant.rs:92-102 *)
with show_variant3 (v : variant3) : str :=
  match v with
  | Text3 s => s
  | ParagraphBreak3 s => s
  | Maths3 m => show_maths3 m
  | Command3 c => show_command3 c
  | Scope3 sc => show_scope3 sc
  | Environment3 e => show_env3 e
  end
(** src/ast3/command.rs:120-133 *)
with show_command3 (c : command3) : str :=
  match c with
  | mkCommand3 label args =>
      c_bslash :: label ++ concat (map (fun a => match a with (pre, sc) => pre ++ show_scope3 sc end) args)
  end
(** src/ast3/scope.rs:90-102 *)
with show_scope3 (s : scope3) : str :=
  match s with
  | mkScope3 cs v => open3 v :: concat (map show_chunk3 cs) ++ [close3 v]
  end
(** src/ast3/environment.rs:153-173 *)
with show_env3 (e : environment3) : str :=
  match e with
  | mkEnv3 label args content prec_begin prec_end =>
      (c_bslash :: s_begin) ++ prec_begin ++ [c_lcurly] ++ label ++ [c_rcurly]
      ++ concat (map (fun a => match a with (pre, sc) => pre ++ show_scope3 sc end) args)
      ++ concat (map show_chunk3 content)
      ++ (c_bslash :: s_end) ++ prec_end ++ [c_lcurly] ++ label ++ [c_rcurly]
  end
(** src/ast3/mathsblock.rs:402-419 *)
with show_maths3 (m : maths3) : str :=
  match m with
  | mkMaths3 v t content =>
      fst (maths_delims v t) ++ concat (map show_chunk3 content) ++ snd (maths_delims v t)
  end.
(** the arguments part of src/ast3/command.rs:121-132 *)
Definition show_args3 (args : list (str * scope3)) : str :=
  concat (map (fun a => match a with (pre, sc) => pre ++ show_scope3 sc end) args).
(** printing a vector of chunks, src/ast3/document.rs:449-500 *)
Definition show_chunks3 (cs : list chunk3) : str := concat (map show_chunk3 cs).

(** the literal of src/ast3/document.rs:292 and 449-500 *)
Definition s_document : str := S! "document".

(** src/ast3/document.rs:448-501 [Display for Document]; note that both the
    [\begin] and the [\end] line use [body_begin_prec] (lines 459 and 482) *)
Definition show3 (d : document3) : str :=
  let doc_scope := mkScope3 [mkChunk3 1 (Text3 s_document)] Curly3 in
  concat (map show_chunk3
    (d_preamable d
     ++ [mkChunk3 1 (Command3 (mkCommand3 s_begin ((d_begin_prec d, doc_scope) :: d_body_args d)))]
     ++ d_body d
     ++ [mkChunk3 1 (Command3 (mkCommand3 s_end [(d_begin_prec d, doc_scope)]))]
     ++ d_trailing d)).

(** ** Validate *)

(** src/ast3/chunkvariant.rs:32-50 *)
Fixpoint check_text3 (consec : bool) (s : str) : outcome internal_error unit :=
  match s with
  | [] => Ok tt
  | c :: s' =>
      if unsanitised c then Err (UnsanitisedCharInString c)
      else if c =? c_newline then
        if consec then Err UnbrokenParagraph else check_text3 true s'
      else if negb (is_whitespace c) then check_text3 false s'
      else check_text3 consec s'
  end.

(** src/ast3/chunkvariant.rs:51-67 *)
Fixpoint check_break3 (p : profile) (new_lines : N) (s : str) : outcome internal_error unit :=
  match s with
  | [] => if new_lines <? 2 then Err ParagraphBreakTooShort else Ok tt
  | c :: s' =>
      if negb (is_whitespace c) then Err ParagraghBreakNonwhitespace
      else if c =? c_newline then
        let* n := add32 p new_lines 1 in check_break3 p n s'
      else check_break3 p new_lines s'
  end.

(** src/ast3/chunk.rs:62-66, chunkvariant.rs:29-76, command.rs:80-105, scope.rs:70-78,
    environment.rs:107-128, mathsblock.rs:44-52 *)
Section Validate3.
  Context (p : profile).
  (** src/ast3/chunk.rs:62-66 *)
  Fixpoint validate_chunk3 (c : chunk3) : outcome internal_error unit :=
    match c with mkChunk3 _ v => validate_variant3 v end
  (** src/ast3/chunkvariant.rs:29-76 *)
  with validate_variant3 (v : variant3) : outcome internal_error unit :=
    match v with
    | Text3 s => check_text3 false s
    | ParagraphBreak3 s => check_break3 p 0 s
    | Maths3 m => validate_maths3 m
    | Command3 c => validate_command3 c
    | Scope3 sc => validate_scope3 sc
    | Environment3 e => validate_env3 e
    end
  (** src/ast3/command.rs:80-105 *)
  with validate_command3 (c : command3) : outcome internal_error unit :=
    match c with
    | mkCommand3 label args =>
        if str_eqb label s_begin then Err BeginCommand
        else if str_eqb label s_end then Err EndCommand
        else
          let* _ := (if str_len label =? 1 then Ok tt else check_chars label) in
          iterM (fun a => match a with (_, sc) => validate_scope3 sc end) args
    end
  (** src/ast3/scope.rs:70-78 *)
  with validate_scope3 (s : scope3) : outcome internal_error unit :=
    match s with mkScope3 cs _ => iterM validate_chunk3 cs end
  (** src/ast3/environment.rs:107-128 *)
  with validate_env3 (e : environment3) : outcome internal_error unit :=
    match e with
    | mkEnv3 label args content _ _ =>
        let* _ := check_chars label in
        let* _ := iterM (fun a => match a with (_, sc) => validate_scope3 sc end) args in
        iterM validate_chunk3 content
    end
  (** src/ast3/mathsblock.rs:44-52 *)
  with validate_maths3 (m : maths3) : outcome internal_error unit :=
    match m with mkMaths3 _ _ content => iterM validate_chunk3 content end.
End Validate3.

(** ** Lines
    src/ast3/chunk.rs:68-72, chunkvariant.rs:78-90, command.rs:107-118, scope.rs:80-88,
    environment.rs:130-151, mathsblock.rs:54-62 *)
Section Lines3.
  Context {E : Type} (p : profile).

  (** src/ast3/chunk.rs:68-72 *)
  Fixpoint lines_chunk3 (c : chunk3) : outcome E N :=
    match c with mkChunk3 _ v => lines_variant3 v end
  (** src/ast3/chunkvariant.rs:78-90 *)
  with lines_variant3 (v : variant3) : outcome E N :=
    match v with
    | Text3 s => add32 p (as_u32 (count_newlines s)) 1
    | ParagraphBreak3 s => add32 p (as_u32 (count_newlines s)) 1
    | Command3 c => lines_command3 c
    | Scope3 sc => lines_scope3 sc
    | Environment3 e => lines_env3 e
    | Maths3 m => lines_maths3 m
    end
  (** src/ast3/command.rs:107-118 *)
  with lines_command3 (c : command3) : outcome E N :=
    match c with
    | mkCommand3 label args =>
        let* total :=
          foldM (fun total a => match a with (prec, arg) =>
                   let* total := add32 p total (as_u32 (count_newlines prec)) in
                   let* l := lines_scope3 arg in
                   let* l := sub32 p l 1 in
                   add32 p total l end)
                (as_u32 (count_newlines label)) args in
        add32 p total 1
    end
  (** src/ast3/scope.rs:80-88 *)
  with lines_scope3 (s : scope3) : outcome E N :=
    match s with
    | mkScope3 cs _ =>
        let* ls := mapM (fun c => let* l := lines_chunk3 c in sub32 p l 1) cs in
        let* t := sum32 p ls in
        add32 p t 1
    end
  (** src/ast3/environment.rs:130-151 *)
  with lines_env3 (e : environment3) : outcome E N :=
    match e with
    | mkEnv3 label args content prec_begin prec_end =>
        let* lines := mul32 p (as_u32 (count_newlines label)) 2 in
        let* lines := add32 p lines (as_u32 (count_newlines (prec_begin ++ prec_end))) in
        let* lines :=
          foldM (fun lines a => match a with (prec, arg) =>
                   let* lines := add32 p lines (as_u32 (count_newlines prec)) in
                   let* l := lines_scope3 arg in
                   let* l := sub32 p l 1 in
                   add32 p lines l end)
                lines args in
        let* lines :=
          foldM (fun lines c =>
                   let* l := lines_chunk3 c in
                   let* l := sub32 p l 1 in
                   add32 p lines l)
                lines content in
        add32 p lines 1
    end
  (** src/ast3/mathsblock.rs:54-62 *)
  with lines_maths3 (m : maths3) : outcome E N :=
    match m with
    | mkMaths3 _ _ content =>
        let* ls := mapM (fun c => let* l := lines_chunk3 c in sub32 p l 1) content in
        let* t := sum32 p ls in
        add32 p t 1
    end.

  (** src/ast3/document.rs:56-66 *)
  Definition lines3 (d : document3) : outcome E N :=
    let* ls := mapM (fun c => let* l := lines_chunk3 c in sub32 p l 1)
                    (d_preamable d ++ d_body d ++ d_trailing d) in
    let* t := sum32 p ls in
    add32 p t 1.
End Lines3.

(** src/ast3/document.rs:33-54 [Validate for Document] *)
Fixpoint validate_from3 (p : profile) (expected_line : N) (d : list chunk3) : outcome internal_error unit :=
  match d with
  | [] => Ok tt
  | chunk :: d' =>
      if negb (line_no3 chunk =? expected_line)
      then Err (IncorrectChunkLineNumber expected_line (line_no3 chunk))
      else
        let* _ := validate_chunk3 p chunk in
        let* l := lines_chunk3 p chunk in
        let* l := sub32 p l 1 in
        let* expected_line := add32 p expected_line l in
        validate_from3 p expected_line d'
  end.
(** src/ast3/document.rs:33-54: the three sections *)
Definition validate3 (p : profile) (d : document3) : outcome internal_error unit :=
  let* _ := validate_from3 p 1 (d_preamable d) in
  let* _ := validate_from3 p 1 (d_body d) in
  validate_from3 p 1 (d_trailing d).

(** [new]: src/ast3/document.rs:69-93, chunk.rs:25-29, command.rs:27-31, mathsblock.rs:24-32 *)
Definition document3_new (p : profile) (d : document3) : outcome internal_error document3 :=
  let* _ := validate3 p d in Ok d.
(** src/ast3/chunk.rs:25-29 *)
Definition chunk3_new (p : profile) (line : N) (v : variant3) : outcome internal_error chunk3 :=
  let* _ := validate_chunk3 p (mkChunk3 line v) in Ok (mkChunk3 line v).
(** src/ast3/command.rs:27-31 *)
Definition command3_new (p : profile) (label : str) (args : list (str * scope3)) : outcome internal_error command3 :=
  let* _ := validate_command3 p (mkCommand3 label args) in Ok (mkCommand3 label args).

(** ** Pushing into a section, src/ast3/document.rs:134-182.  The public
    [push_body*], [push_preamable*], [push_trailing*] (184-242) apply these to one of
    the three vectors; see [section_update] below. *)
Fixpoint push_chunk_vec_unchecked (d : list chunk3) (chunk : chunk3) : list chunk3 :=
  match d with
  | [] => [chunk]
  | [last] =>
      match variant_of3 chunk, last with
      | Text3 s, mkChunk3 l (Text3 last_s) => [mkChunk3 l (Text3 (last_s ++ s))]
      | _, _ => [last; chunk]
      end
  | x :: d' => x :: push_chunk_vec_unchecked d' chunk
  end.

(** the expected line, src/ast3/document.rs:152-155 and 170-173 *)
Definition end_line3 {E} (p : profile) (d : list chunk3) : outcome E N :=
  match rev d with
  | [] => Ok 1
  | last :: _ =>
      let* l := lines_chunk3 p last in
      let* x := add32 p (line_no3 last) l in
      sub32 p x 1
  end.

(** src/ast3/document.rs:169-175 *)
Definition push_vec_unchecked {E} (p : profile) (d : list chunk3) (v : variant3) : outcome E (list chunk3) :=
  let* line := end_line3 p d in
  Ok (push_chunk_vec_unchecked d (mkChunk3 line v)).

(** src/ast3/document.rs:178-182 *)
Definition push_vec (p : profile) (d : list chunk3) (v : variant3) : outcome internal_error (list chunk3) :=
  let* _ := validate_variant3 p v in
  push_vec_unchecked p d v.

(** src/ast3/document.rs:149-166 *)
Definition push_chunk_vec (p : profile) (d : list chunk3) (chunk : chunk3) : outcome internal_error (list chunk3) :=
  let* _ := validate_chunk3 p chunk in
  let* expected_line := end_line3 p d in
  if negb (expected_line =? line_no3 chunk)
  then Err (IncorrectChunkLineNumber expected_line (line_no3 chunk))
  else Ok (push_chunk_vec_unchecked d chunk).

(** which vector of src/ast3/document.rs:18-31: [preamable], [body] or [trailing] *)
Inductive section := Preamable | Body | Trailing.
(** a field of src/ast3/document.rs:18-31 *)
Definition get_section (s : section) (d : document3) : list chunk3 :=
  match s with Preamable => d_preamable d | Body => d_body d | Trailing => d_trailing d end.
(** [&mut] to a field of src/ast3/document.rs:18-31 *)
Definition set_section (s : section) (d : document3) (cs : list chunk3) : document3 :=
  match s with
  | Preamable => mkDoc3 (d_class d) (d_options d) cs (d_body d) (d_body_args d) (d_begin_prec d) (d_end_prec d) (d_trailing d)
  | Body => mkDoc3 (d_class d) (d_options d) (d_preamable d) cs (d_body_args d) (d_begin_prec d) (d_end_prec d) (d_trailing d)
  | Trailing => mkDoc3 (d_class d) (d_options d) (d_preamable d) (d_body d) (d_body_args d) (d_begin_prec d) (d_end_prec d) cs
  end.
(** src/ast3/document.rs:184-187, 204-207, 224-227 *)
Definition push3 (p : profile) (s : section) (d : document3) (v : variant3) : outcome internal_error document3 :=
  let* cs := push_vec p (get_section s d) v in Ok (set_section s d cs).
(** src/ast3/document.rs:194-197, 214-217, 234-237 *)
Definition push_chunk3 (p : profile) (s : section) (d : document3) (c : chunk3) : outcome internal_error document3 :=
  let* cs := push_chunk_vec p (get_section s d) c in Ok (set_section s d cs).

(** ** Paragraphs, src/ast3/paragraph.rs:6-107 *)

(** Local variables for one chunk, src/ast3/paragraph.rs:12-17, plus the output
    vector [new]. *)
Record parstate := mkPar {
  pa_new : list chunk3;
  pa_line : N;                (* line_no *)
  pa_text : str;              (* text_buffer *)
  pa_text_line : N;           (* text_buffer_line *)
  pa_buf : str;               (* buffer *)
  pa_buf_line : N;            (* buffer_line *)
  pa_consec : Z;              (* consec_newlines, an i32 *)
}.

(** src/ast3/paragraph.rs:20-72, body of [for c in s.chars()] *)
Definition par_step {E} (p : profile) (st : parstate) (c : char) : outcome E parstate :=
  match st with
  | mkPar new line text tline buf bline consec =>
    if (c =? c_newline) && (consec =? 1)%Z then
      let* consec := inc_i32 p consec in
      let* line := add32 p line 1 in
      let new := if negb (is_empty text) then new ++ [mkChunk3 tline (Text3 text)] else new in
      Ok (mkPar new line [] tline (buf ++ [c]) bline consec)
    else if c =? c_newline then
      let bline := line in
      let* consec := inc_i32 p consec in
      let* line := add32 p line 1 in
      Ok (mkPar new line text tline (buf ++ [c]) bline consec)
    else if is_whitespace c && (consec =? 0)%Z then
      Ok (mkPar new line (text ++ [c]) tline buf bline consec)
    else if is_whitespace c then
      Ok (mkPar new line text tline (buf ++ [c]) bline consec)
    else if (consec =? 0)%Z then
      let tline := if is_empty text then line else tline in
      Ok (mkPar new line (text ++ [c]) tline buf bline consec)
    else if (consec =? 1)%Z then
      let tline := if is_empty text then bline else tline in
      Ok (mkPar new line (text ++ buf ++ [c]) tline [] bline 0%Z)
    else
      Ok (mkPar (new ++ [mkChunk3 bline (ParagraphBreak3 buf)]) line (text ++ [c]) line [] bline 0%Z)
  end.

(** src/ast3/paragraph.rs:74-99 *)
Definition par_finish (st : parstate) : list chunk3 :=
  match st with
  | mkPar new line text tline buf bline consec =>
    if negb (is_empty buf) then
      if (consec >? 1)%Z then new ++ [mkChunk3 bline (ParagraphBreak3 buf)]
      else
        let text := text ++ buf in
        if negb (is_empty text) then new ++ [mkChunk3 tline (Text3 text)] else new
    else if negb (is_empty text) then
      let text := text ++ buf in
      if negb (is_empty text) then new ++ [mkChunk3 tline (Text3 text)] else new
    else new
  end.

(** src/ast3/paragraph.rs:8-106 *)
Definition par_chunk {E} (p : profile) (new : list chunk3) (c : chunk3) : outcome E (list chunk3) :=
  match c with
  | mkChunk3 line v =>
      match v with
      | Text3 s =>
          let* st := foldM (par_step p) (mkPar new line [] line [] line 0%Z) s in
          Ok (par_finish st)
      | _ => Ok (new ++ [c])
      end
  end.
(** src/ast3/paragraph.rs:8-106 [Paragraph::from_chunks]: the loop over the chunks *)
Definition paragraph_from_chunks {E} (p : profile) (cs : list chunk3) : outcome E (list chunk3) :=
  foldM (par_chunk p) [] cs.

(** ** Maths blocks, src/ast3/mathsblock.rs:64-313 *)

(** src/ast3/mathsblock.rs:67-73 *)
Inductive maths_mode :=
| SingleDollar (v : maths_variant)
| DoubleDollar (v : maths_variant)
| DoubleClosing
| MNone.

Section FromChunks3.
  Context (p : profile).
  (** The recursive call [MathsBlock::from_chunks]. *)
  Context (rec : list chunk2 -> outcome error (list chunk3)).

  (** src/ast3/scope.rs:57-68 [TryFrom<ast2::Scope>] *)
  Definition scope3_try_from (s : scope2) : outcome error scope3 :=
    match s with
    | mkScope2 cs v =>
        let* cs := rec cs in
        let* cs := paragraph_from_chunks p cs in
        Ok (mkScope3 cs (sv3_of_sv2 v))
    end.
  (** the loop over the arguments, src/ast3/command.rs:67-77 and environment.rs:88-104 *)
  Definition args3_try_from (args : list (str * scope2)) : outcome error (list (str * scope3)) :=
    mapM (fun a => match a with (prec, sc) =>
            let* sc := scope3_try_from sc in Ok (prec, sc) end) args.
  (** src/ast3/command.rs:64-78 [TryFrom<ast2::Command>] *)
  Definition command3_try_from (c : command2) : outcome error command3 :=
    match c with
    | mkCommand2 label args => let* args := args3_try_from args in Ok (mkCommand3 label args)
    end.
  (** src/ast3/environment.rs:85-105 [TryFrom<ast2::Environment>] *)
  Definition env3_try_from (e : environment2) : outcome error environment3 :=
    match e with
    | mkEnv2 label args content pb pe =>
        let* args := args3_try_from args in
        let* cs := rec content in
        let* cs := paragraph_from_chunks p cs in
        Ok (mkEnv3 label args cs pb pe)
    end.

  (** Local variables, src/ast3/mathsblock.rs:75-80 *)
  Record mstate := mkM {
    ms_out : list chunk3;
    ms_mode : maths_mode;
    ms_depth : N;
    ms_buffer : list chunk2;
    ms_bline : N;               (* buffer_line *)
  }.
  (** initial values, src/ast3/mathsblock.rs:75-80 *)
  Definition minit : mstate := mkM [] MNone 0 [] 0.

  (** [out.push(..)], src/ast3/mathsblock.rs:165-180 *)
  Definition m_push_out (st : mstate) (c : chunk3) : mstate :=
    mkM (ms_out st ++ [c]) (ms_mode st) (ms_depth st) (ms_buffer st) (ms_bline st).
  (** [buffer.push(..)], src/ast3/mathsblock.rs:298 *)
  Definition m_push_buffer (st : mstate) (c : chunk2) : mstate :=
    mkM (ms_out st) (ms_mode st) (ms_depth st) (ms_buffer st ++ [c]) (ms_bline st).

  (** Inner loop over the characters of a text, src/ast3/mathsblock.rs:189-294.
      Extra locals: [cursor_line_no], [text_buffer], [text_buffer_line]. *)
  Record mtext := mkMT {
    mt_st : mstate;
    mt_cursor : N;
    mt_text : str;
    mt_line : N;
  }.

  (** src/ast3/mathsblock.rs:193-202 [push_str!] *)
  Definition mt_push_str (m : mtext) : mtext :=
    if negb (is_empty (mt_text m))
    then mkMT (m_push_out (mt_st m) (mkChunk3 (mt_line m) (Text3 (mt_text m))))
              (mt_cursor m) [] (mt_line m)
    else m.

  (** src/ast3/mathsblock.rs:227-254 and 259-286: close a dollar block *)
  Definition mt_close (m : mtext) (t : maths_type) : outcome error mtext :=
    let st := mt_st m in
    let buffer := if negb (is_empty (mt_text m))
                  then ms_buffer st ++ [mkChunk2 (mt_line m) (Text2 (mt_text m))]
                  else ms_buffer st in
    let* shifted :=
      mapM (fun c => match c with mkChunk2 l v =>
              let* o := sub32 p (mt_line m) 1 in
              let* l := sub32 p l o in
              Ok (mkChunk2 l v) end) buffer in
    let* content := rec shifted in
    Ok (mkMT (mkM (ms_out st ++ [mkChunk3 (mt_line m) (Maths3 (mkMaths3 Dollars t content))])
                  MNone (ms_depth st) [] (ms_bline st))
             (mt_cursor m) [] (mt_cursor m)).

  (** assignment to [mode], src/ast3/mathsblock.rs:210-287 *)
  Definition mt_set_mode (m : mtext) (mode : maths_mode) : mtext :=
    let st := mt_st m in
    mkMT (mkM (ms_out st) mode (ms_depth st) (ms_buffer st) (ms_bline st))
         (mt_cursor m) (mt_text m) (mt_line m).

  (** src/ast3/mathsblock.rs:204-294 *)
  Definition mt_step (m : mtext) (c : char) : outcome error mtext :=
    let* m := (if c =? c_newline then
                 let* l := add32 p (mt_cursor m) 1 in
                 Ok (mkMT (mt_st m) l (mt_text m) (mt_line m))
               else Ok m) in
    if c =? c_dollar then
      match ms_mode (mt_st m) with
      | MNone =>
          let m := mt_set_mode (mt_push_str m) (SingleDollar Dollars) in
          Ok (mkMT (mt_st m) (mt_cursor m) (mt_text m) (mt_cursor m))
      | SingleDollar Dollars =>
          if is_empty (mt_text m) && is_empty (ms_buffer (mt_st m))
          then Ok (mt_set_mode m (DoubleDollar Dollars))
          else mt_close m Inline
      | DoubleDollar Dollars => Ok (mt_set_mode m DoubleClosing)
      | DoubleClosing => mt_close m Outline
      | SingleDollar Brackets | DoubleDollar Brackets => Ok m
      end
    else Ok (mkMT (mt_st m) (mt_cursor m) (mt_text m ++ [c]) (mt_line m)).

  (** src/ast3/mathsblock.rs:182-297 *)
  Definition m_text (st : mstate) (line_no : N) (s : str) : outcome error mstate :=
    let* m := foldM mt_step (mkMT st line_no [] line_no) s in
    Ok (mt_st (mt_push_str m)).

  (** [mode == MathsMode::None], e.g. src/ast3/mathsblock.rs:87 *)
  Definition is_none (m : maths_mode) : bool := match m with MNone => true | _ => false end.
  (** [mode == SingleDollar(Brackets)], e.g. src/ast3/mathsblock.rs:110 *)
  Definition is_single_br (m : maths_mode) : bool :=
    match m with SingleDollar Brackets => true | _ => false end.
  (** [mode == DoubleDollar(Brackets)], e.g. src/ast3/mathsblock.rs:116 *)
  Definition is_double_br (m : maths_mode) : bool :=
    match m with DoubleDollar Brackets => true | _ => false end.

  (** src/ast3/mathsblock.rs:125-134 and 141-150 *)
  Definition m_close_brackets (st : mstate) (t : maths_type) : outcome error mstate :=
    let* content := rec (ms_buffer st) in
    Ok (mkM (ms_out st ++ [mkChunk3 (ms_bline st) (Maths3 (mkMaths3 Brackets t content))])
            MNone 0 [] (ms_bline st)).

  (** assignment to [depth], src/ast3/mathsblock.rs:112-162 *)
  Definition m_set_depth (st : mstate) (d : N) : mstate :=
    mkM (ms_out st) (ms_mode st) d (ms_buffer st) (ms_bline st).

  (** src/ast3/mathsblock.rs:82-300, body of [for chunk in chunks] *)
  Definition m_step (st : mstate) (chunk : chunk2) : outcome error mstate :=
    match chunk with
    | mkChunk2 line_no variant =>
      let mode := ms_mode st in
      match variant with
      | Command2 cmd =>
          let lab := label2 cmd in
          if is_none mode && (str_eqb lab [c_rround] || str_eqb lab [c_rsquare])
          then Err (mkError line_no UnexpectedMathsEnd)
          else if str_eqb lab [c_lround] && is_none mode then
            Ok (mkM (ms_out st) (SingleDollar Brackets) 1 (ms_buffer st) line_no)
          else if str_eqb lab [c_lsquare] && is_none mode then
            Ok (mkM (ms_out st) (DoubleDollar Brackets) 1 (ms_buffer st) line_no)
          else if str_eqb lab [c_lround] && is_single_br mode then
            let* d := add32 p (ms_depth st) 1 in Ok (m_set_depth st d)
          else if str_eqb lab [c_lsquare] && is_double_br mode then
            let* d := add32 p (ms_depth st) 1 in Ok (m_set_depth st d)
          else if str_eqb lab [c_rround] && is_single_br mode && (ms_depth st =? 1) then
            m_close_brackets st Inline
          else if str_eqb lab [c_rsquare] && is_double_br mode && (ms_depth st =? 1) then
            m_close_brackets st Outline
          else if str_eqb lab [c_rround] && is_single_br mode then
            let* d := sub32 p (ms_depth st) 1 in Ok (m_set_depth st d)
          else if str_eqb lab [c_rsquare] && is_double_br mode then
            let* d := sub32 p (ms_depth st) 1 in Ok (m_set_depth st d)
          else if is_none mode then
            let* c := command3_try_from cmd in
            Ok (m_push_out st (mkChunk3 line_no (Command3 c)))
          else Ok (m_push_buffer st chunk)
      | Scope2 s =>
          if is_none mode then
            let* s := scope3_try_from s in
            Ok (m_push_out st (mkChunk3 line_no (Scope3 s)))
          else Ok (m_push_buffer st chunk)
      | Environment2 e =>
          if is_none mode then
            let* e := env3_try_from e in
            Ok (m_push_out st (mkChunk3 line_no (Environment3 e)))
          else Ok (m_push_buffer st chunk)
      | Text2 s =>
          if negb (is_single_br mode || is_double_br mode) then m_text st line_no s
          else Ok (m_push_buffer st chunk)
      end
    end.

  (** src/ast3/mathsblock.rs:302-311 *)
  Definition m_finish (st : mstate) : outcome error (list chunk3) :=
    if negb (is_none (ms_mode st)) then Err (mkError (ms_bline st) UnclosedMaths)
    else paragraph_from_chunks p (ms_out st).
End FromChunks3.

(** src/ast3/mathsblock.rs:66-312, with fuel for the recursion *)
Fixpoint maths_fuel (fuel : nat) (p : profile) (cs : list chunk2) : outcome error (list chunk3) :=
  match fuel with
  | O => OutOfFuel
  | S fuel =>
      let rec := maths_fuel fuel p in
      let* st := foldM (m_step p rec) minit cs in
      m_finish p st
  end.

(** no counterpart in src/: size of stage-2 trees, only used to provide recursion fuel *)
Fixpoint size_chunk2 (c : chunk2) : nat :=
  match c with mkChunk2 _ v => S (size_variant2 v) end
(** no counterpart in src/: fuel *)
with size_variant2 (v : variant2) : nat :=
  match v with
  | Text2 s => length s
  | Command2 c => size_command2 c
  | Scope2 sc => size_scope2 sc
  | Environment2 e => size_env2 e
  end
(** no counterpart in src/: fuel *)
with size_command2 (c : command2) : nat :=
  match c with
  | mkCommand2 _ args => S (list_sum (map (fun a => match a with (_, sc) => size_scope2 sc end) args))
  end
(** no counterpart in src/: fuel *)
with size_scope2 (s : scope2) : nat :=
  match s with mkScope2 cs _ => S (list_sum (map size_chunk2 cs)) end
(** no counterpart in src/: fuel *)
with size_env2 (e : environment2) : nat :=
  match e with
  | mkEnv2 _ args content _ _ =>
      S (list_sum (map (fun a => match a with (_, sc) => size_scope2 sc end) args)
         + list_sum (map size_chunk2 content))
  end.
(** no counterpart in src/: fuel *)
Definition size2 (d : list chunk2) : nat := list_sum (map size_chunk2 d).

(** src/ast3/mathsblock.rs:66-312 [MathsBlock::from_chunks] *)
Definition maths_from_chunks (p : profile) (cs : list chunk2) : outcome error (list chunk3) :=
  maths_fuel (S (size2 cs)) p cs.

(** ** Document class and options, src/ast3/document.rs:300-425 *)

(** [str::split(c)] (standard library), src/ast3/document.rs:326 *)
Fixpoint split_on (sep : char) (s : str) : list str :=
  match s with
  | [] => [[]]
  | c :: s' =>
      if c =? sep then [] :: split_on sep s'
      else match split_on sep s' with
           | [] => [[c]]
           | x :: xs => (c :: x) :: xs
           end
  end.

(** [str::split_once(c)] (standard library), src/ast3/document.rs:370 *)
Fixpoint split_once (sep : char) (s : str) : option (str * str) :=
  match s with
  | [] => None
  | c :: s' =>
      if c =? sep then Some ([], s')
      else match split_once sep s' with
           | None => None
           | Some (a, b) => Some (c :: a, b)
           end
  end.

(** src/ast3/document.rs:332-336 *)
Inductive buffer_mode := BmPrec | BmArg | BmPotentialPost.

(** src/ast3/document.rs:328-364: (prec, arg, buffer, mode); the first non-blank
    character is consumed without being recorded (344-348) *)
Definition opt_step (st : str * str * str * buffer_mode) (c : char) : str * str * str * buffer_mode :=
  match st with
  | (prec, arg, buffer, mode) =>
      match mode with
      | BmPrec => if is_whitespace c then (prec, arg, buffer ++ [c], BmPrec)
                  else (prec ++ buffer, arg, [], BmArg)
      | BmArg => if negb (is_whitespace c) then (prec, arg ++ [c], buffer, BmArg)
                 else (prec, arg, buffer ++ [c], BmPotentialPost)
      | BmPotentialPost => if is_whitespace c then (prec, arg, buffer ++ [c], BmPotentialPost)
                           else (prec, (arg ++ buffer) ++ [c], [], BmArg)
      end
  end.

(** src/ast3/document.rs:376-394: (key, buffer) *)
Definition key_step (st : str * str) (c : char) : str * str :=
  match st with
  | (key, buffer) =>
      if is_whitespace c then (key, buffer ++ [c]) else (key ++ buffer ++ [c], [])
  end.

(** src/ast3/document.rs:396-410: (equal_post, val); [val_started] is never set to
    true, and the loop runs over [k], not [v] *)
Definition val_step (st : str * str) (c : char) : str * str :=
  match st with
  | (equal_post, val) =>
      if is_whitespace c then (equal_post ++ [c], val) else (equal_post, val ++ [c])
  end.

(** src/ast3/document.rs:328-419: one option *)
Definition parse_option (opt : str) : option_entry :=
  match fold_left opt_step opt ([], [], [], BmPrec) with
  | (prec, arg, buffer, _) =>
      let post := buffer in
      match split_once c_equal arg with
      | Some (k, _) =>
          let '(key, equal_prec) := fold_left key_step k ([], []) in
          let '(equal_post, val) := fold_left val_step k ([], []) in
          (prec, key, Some (equal_prec, equal_post, val), post)
      | None => (prec, arg, None, post)
      end
  end.

(** src/ast3/document.rs:310-423: loop over the arguments of [\documentclass];
    state (documentclass, documentoptions) *)
Definition class_arg_step (line_no : N) (st : option str * list option_entry) (a : str * scope2)
  : outcome error (option str * list option_entry) :=
  match a, st with
  | (_, mkScope2 cs v), (cls, opts) =>
      match v with
      | Curly2 =>
          match cls with
          | Some _ => Err (mkError line_no TooManyArgsDocumentClass)
          | None => Ok (Some (show2 cs), opts)
          end
      | _ => Ok (cls, opts ++ map parse_option (split_on c_comma (show2 cs)))
      end
  end.

(** ** Stage 2 to stage 3: [TryFrom<ast2::Document>], src/ast3/document.rs:271-438 *)

(** the literal of src/ast3/document.rs:301 *)
Definition s_documentclass : str := S! "documentclass".

(** [construct] plus the local vectors, src/ast3/document.rs:275-286 *)
Record dstate := mkD {
  ds_construct : document3;
  ds_pre : list chunk2;
  ds_trail : list chunk2;
  ds_trailing : bool;          (* cursor == CursorState::Trailing *)
}.
(** initial values, src/ast3/document.rs:275-286 *)
Definition dinit : dstate := mkD document3_default [] [] false.

(** [preamable.push(..)], src/ast3/document.rs:424 and 427 *)
Definition d_push_pre (st : dstate) (c : chunk2) : dstate :=
  mkD (ds_construct st) (ds_pre st ++ [c]) (ds_trail st) (ds_trailing st).
(** src/ast3/document.rs:426-429 *)
Definition d_push_other (st : dstate) (c : chunk2) : dstate :=
  if negb (ds_trailing st) then d_push_pre st c
  else mkD (ds_construct st) (ds_pre st) (ds_trail st ++ [c]) (ds_trailing st).

(** src/ast3/document.rs:288-431 *)
Definition d_step (p : profile) (st : dstate) (chunk : chunk2) : outcome error dstate :=
  match chunk with
  | mkChunk2 line_no variant =>
    match variant with
    | Environment2 env =>
        if str_eqb (env_label2 env) s_document then
          let* e := env3_try_from p (maths_from_chunks p) env in
          match e with
          | mkEnv3 _ args content b e =>
              let c := ds_construct st in
              Ok (mkD (mkDoc3 (d_class c) (d_options c) (d_preamable c) content args b e (d_trailing c))
                      (ds_pre st) (ds_trail st) true)
          end
        else Ok (d_push_other st chunk)
    | Command2 cmd =>
        if str_eqb (label2 cmd) s_documentclass && negb (ds_trailing st) then
          let c := ds_construct st in
          match d_class c with
          | Some _ => Err (mkError line_no DoubleDocumentClass)
          | None =>
              let* co := foldM (class_arg_step line_no) (d_class c, d_options c) (arguments2 cmd) in
              let c := mkDoc3 (fst co) (snd co) (d_preamable c) (d_body c) (d_body_args c)
                              (d_begin_prec c) (d_end_prec c) (d_trailing c) in
              Ok (d_push_pre (mkD c (ds_pre st) (ds_trail st) (ds_trailing st)) chunk)
          end
        else Ok (d_push_other st chunk)
    | _ => Ok (d_push_other st chunk)
    end
  end.

(** src/ast3/document.rs:274-437 *)
Definition try_from3 (p : profile) (d : document2) : outcome error document3 :=
  let* st := foldM (d_step p) dinit d in
  let c := ds_construct st in
  let* pre := maths_from_chunks p (ds_pre st) in
  let* pre := paragraph_from_chunks p pre in
  let* trail := maths_from_chunks p (ds_trail st) in
  let* trail := paragraph_from_chunks p trail in
  Ok (mkDoc3 (d_class c) (d_options c) pre (d_body c) (d_body_args c) (d_begin_prec c) (d_end_prec c) trail).

(** src/ast3/document.rs:440-446 *)
Definition from_str3 (p : profile) (s : str) : outcome error document3 :=
  let* d := from_str2 p s in try_from3 p d.

(** ** Stage 3 to stage 2 *)

(** [*chunk.line_no_mut() += off], src/ast2/document.rs:162 and 188, src/ast3/chunk.rs:95 *)
Definition shift_chunk2 {E} (p : profile) (off : N) (c : chunk2) : outcome E chunk2 :=
  match c with mkChunk2 l v => let* l := add32 p l off in Ok (mkChunk2 l v) end.

(** src/ast3/mathsblock.rs:380-387 *)
Definition prepend_dollars (dollars : str) (out : list chunk2) : list chunk2 :=
  match out with
  | mkChunk2 l (Text2 s) :: out' => mkChunk2 l (Text2 (dollars ++ s)) :: out'
  | _ => mkChunk2 1 (Text2 dollars) :: out
  end.

(** src/ast3/mathsblock.rs:389-396 *)
Fixpoint append_dollars (dollars : str) (lines : N) (out : list chunk2) : list chunk2 :=
  match out with
  | [] => [mkChunk2 lines (Text2 dollars)]
  | [mkChunk2 l (Text2 s)] => [mkChunk2 l (Text2 (s ++ dollars))]
  | [x] => [x; mkChunk2 lines (Text2 dollars)]
  | x :: out' => x :: append_dollars dollars lines out'
  end.

(** src/ast3/chunk.rs:74-109 [ast2::IntoChunks for Chunk], mathsblock.rs:315-400
    [IntoChunks for MathsBlock], src/ast2/scope.rs:117-128, src/ast2/command.rs:135-146,
    src/ast2/environment.rs:160-178 *)
Section Into2.
  Context {E : Type} (p : profile).

  (** src/ast3/chunk.rs:74-109 *)
  Fixpoint into2_chunk (c : chunk3) : outcome E (list chunk2) :=
    match c with
    | mkChunk3 line_no v =>
        match v with
        | Text3 s => Ok [mkChunk2 line_no (Text2 s)]
        | ParagraphBreak3 s => Ok [mkChunk2 line_no (Text2 s)]
        | Scope3 sc => let* sc := into2_scope sc in Ok [mkChunk2 line_no (Scope2 sc)]
        | Command3 c => let* c := into2_command c in Ok [mkChunk2 line_no (Command2 c)]
        | Environment3 e => let* e := into2_env e in Ok [mkChunk2 line_no (Environment2 e)]
        | Maths3 m =>
            let* cs := into2_maths m in
            mapM (fun c => let* off := sub32 p line_no 1 in shift_chunk2 p off c) cs
        end
    end
  (** src/ast2/command.rs:135-146 *)
  with into2_command (c : command3) : outcome E command2 :=
    match c with
    | mkCommand3 label args =>
        let* args := mapM (fun a => match a with (s, sc) =>
                             let* sc := into2_scope sc in Ok (s, sc) end) args in
        Ok (mkCommand2 label args)
    end
  (** src/ast2/scope.rs:117-128 *)
  with into2_scope (s : scope3) : outcome E scope2 :=
    match s with
    | mkScope3 cs v =>
        let* css := mapM into2_chunk cs in
        Ok (mkScope2 (concat css) (sv2_of_sv3 v))
    end
  (** src/ast2/environment.rs:160-178 *)
  with into2_env (e : environment3) : outcome E environment2 :=
    match e with
    | mkEnv3 label args content pb pe =>
        let* args := mapM (fun a => match a with (s, sc) =>
                             let* sc := into2_scope sc in Ok (s, sc) end) args in
        let* css := mapM into2_chunk content in
        Ok (mkEnv2 label args (concat css) pb pe)
    end
  (** src/ast3/mathsblock.rs:315-400 *)
  with into2_maths (m : maths3) : outcome E (list chunk2) :=
    match m with
    | mkMaths3 v t content =>
        (* 317: self.lines() *)
        let* ls := mapM (fun c => let* l := lines_chunk3 p c in sub32 p l 1) content in
        let* sum := sum32 p ls in
        let* lines := add32 p sum 1 in
        let* css := mapM into2_chunk content in
        match v with
        | Brackets =>
            let '(o, c) := match t with
                           | Inline => (c_lround, c_rround)
                           | Outline => (c_lsquare, c_rsquare)
                           end in
            Ok ([mkChunk2 1 (Command2 (mkCommand2 [o] []))] ++ concat css
                ++ [mkChunk2 lines (Command2 (mkCommand2 [c] []))])
        | Dollars =>
            let dollars := match t with Inline => [c_dollar] | Outline => [c_dollar; c_dollar] end in
            let out := concat css in
            match out with
            | [] => Ok [mkChunk2 1 (Text2 (dollars ++ dollars))]
            | _ => Ok (append_dollars dollars lines (prepend_dollars dollars out))
            end
        end
    end.

  (** src/ast2/document.rs:140-194 [From<ast3::Document>] *)
  Definition from3_to2 (d : document3) : outcome E document2 :=
    let* pre := mapM into2_chunk (d_preamable d) in
    let pre := concat pre in
    let* ls := mapM (fun c => let* l := lines_chunk2 p c in sub32 p l 1) pre in
    let* prem_lines := sum32 p ls in
    let* offs := mapM (fun a => match a with (s, arg) =>
                         let* l := lines_scope3 p arg in
                         let* x := add32 p (as_u32 (count_newlines s)) l in
                         sub32 p x 1 end) (d_body_args d) in
    let* off := sum32 p offs in
    let* body_offset := add32 p off (as_u32 (count_newlines (d_begin_prec d))) in
    let* body := mapM into2_chunk (d_body d) in
    let* body_chunks := mapM (shift_chunk2 p body_offset) (concat body) in
    let* args := mapM (fun a => match a with (s, sc) =>
                         let* sc := into2_scope sc in Ok (s, sc) end) (d_body_args d) in
    let body := mkChunk2 prem_lines
                  (Environment2 (mkEnv2 s_document args body_chunks (d_begin_prec d) (d_end_prec d))) in
    let* bl := lines_chunk2 p body in
    let* x := add32 p bl prem_lines in
    let* trailing_offset := sub32 p x 2 in
    let out := push_chunk_unchecked2 pre body in
    let* trail := mapM into2_chunk (d_trailing d) in
    let* trail := mapM (shift_chunk2 p trailing_offset) (concat trail) in
    Ok (fold_left push_chunk_unchecked2 trail out).
End Into2.
