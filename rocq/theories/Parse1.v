(** * Parse1: model of [FromStr for ast1::Document], src/ast1/document.rs:155-496 *)

From Verif Require Import Base Ast1.

(** src/ast1/document.rs:155-179 [Buffer].  [b_scopes] holds (content, variant,
    preceding string), in source order. *)
Inductive buffer :=
| BScope (content : str) (variant : sv1) (depth : N)
| BCommand (label : str) (scopes : list (str * sv1 * str)) (depth : N) (trailing : str)
| BText (content : str).

(** [v.last()], src/ast1/document.rs:313, 458 and 459 *)
Definition last_opt {A} (l : list A) : option A :=
  match rev l with [] => None | x :: _ => Some x end.

(** [*v.last_mut().unwrap()] updated in place; only reached with [l] non-empty
    (the callers test [is_empty] in the same match), src/ast1/document.rs:221 and 231. *)
Fixpoint modify_last {A} (f : A -> A) (l : list A) : list A :=
  match l with
  | [] => []
  | [x] => [f x]
  | x :: l' => x :: modify_last f l'
  end.

(** src/ast1/document.rs:182-188 [no_scope]; [Panic] is [unreachable!] *)
Definition no_scope {E} (b : buffer) : outcome E bool :=
  match b with
  | BCommand _ scopes _ _ => Ok (is_empty scopes)
  | _ => Panic
  end.

(** src/ast1/document.rs:190-214 constructors *)
Definition buffer_scope (v : sv1) : buffer := BScope [] v 1.
(** src/ast1/document.rs:199-207 [command] *)
Definition buffer_command : buffer := BCommand [] [] 0 [].
(** src/ast1/document.rs:209-214 [text] *)
Definition buffer_text : buffer := BText [].

(** src/ast1/document.rs:226-234 [push_str]; [push] (216-224) is the same on a
    one-character string *)
Definition buffer_push_str (b : buffer) (s : str) : buffer :=
  match b with
  | BScope content v d => BScope (content ++ s) v d
  | BCommand label scopes d t =>
      if is_empty scopes then BCommand (label ++ s) scopes d t
      else BCommand label
             (modify_last (fun x => match x with (content, v, prec) => (content ++ s, v, prec) end) scopes) d t
  | BText content => BText (content ++ s)
  end.
(** src/ast1/document.rs:216-224 [push] *)
Definition buffer_push (b : buffer) (c : char) : buffer := buffer_push_str b [c].

(** src/ast1/document.rs:236-253 [push_scope]; [Panic] is [unreachable!] *)
Definition buffer_push_scope {E} (b : buffer) (v : sv1) : outcome E buffer :=
  match b with
  | BCommand label scopes _ trailing =>
      Ok (BCommand label (scopes ++ [([], v, trailing)]) 1 [])
  | _ => Panic
  end.

Section Parser.
  Context (p : profile).
  (** The recursive call [Document::from_str]. *)
  Context (rec : str -> outcome error document1).

  (** src/ast1/document.rs:278-337 inner [fn flush].  The Rust function also empties
      the flushed buffer ([mem::take]); every caller overwrites or drops the
      buffer afterwards, so only the new chunk vector is returned here. *)
  Definition flush (b : buffer) (buffer_line_no : N) (chunks : list chunk1)
    : outcome error (list chunk1) :=
    match b with
    | BText content =>
        if negb (is_empty content)
        then Ok (chunks ++ [mkChunk1 buffer_line_no (Text1 content)])
        else Ok chunks
    | BScope content variant depth =>
        if negb (depth =? 0) then Err (mkError 1 (UnclosedScope variant))
        else
          let* inner := rec content in
          Ok (chunks ++ [mkChunk1 buffer_line_no (Scope1 (mkScope1 inner Curly1))])
    | BCommand label scopes depth _ =>
        if negb (depth =? 0) then
          match last_opt scopes with
          | Some (_, v, _) => Err (mkError 1 (UnclosedArgument v))
          | None => Panic
          end
        else
          let* arguments :=
            mapM (fun x => match x with (content, variant, preceding) =>
                    let* inner := rec content in
                    Ok (preceding, mkScope1 inner variant) end) scopes in
          Ok (chunks ++ [mkChunk1 buffer_line_no (Command1 (mkCommand1 label arguments))])
    end.

  (** Local variables of [from_str], src/ast1/document.rs:260-275 *)
  Record pstate := mkP {
    ps_chunks : list chunk1;
    ps_line : N;            (* line_no *)
    ps_escaped : bool;
    ps_comment : bool;
    ps_bline : N;           (* buffer_line_no *)
    ps_buf : buffer;
  }.

  (** initial values, src/ast1/document.rs:260-275 *)
  Definition pinit : pstate := mkP [] 1 false false 1 (BText []).

  (** assignment to [buffer], a local of src/ast1/document.rs:273 *)
  Definition set_buf (st : pstate) (b : buffer) : pstate :=
    mkP (ps_chunks st) (ps_line st) (ps_escaped st) (ps_comment st) (ps_bline st) b.
  (** assignment to [buffer_line_no], src/ast1/document.rs:272 *)
  Definition set_bline (st : pstate) (l : N) : pstate :=
    mkP (ps_chunks st) (ps_line st) (ps_escaped st) (ps_comment st) l (ps_buf st).
  (** assignment to [chunks], src/ast1/document.rs:260 *)
  Definition set_chunks (st : pstate) (cs : list chunk1) : pstate :=
    mkP cs (ps_line st) (ps_escaped st) (ps_comment st) (ps_bline st) (ps_buf st).
  (** assignment to [escaped], src/ast1/document.rs:266 *)
  Definition set_escaped (st : pstate) (b : bool) : pstate :=
    mkP (ps_chunks st) (ps_line st) b (ps_comment st) (ps_bline st) (ps_buf st).
  (** assignment to [comment], src/ast1/document.rs:269 *)
  Definition set_comment (st : pstate) (b : bool) : pstate :=
    mkP (ps_chunks st) (ps_line st) (ps_escaped st) b (ps_bline st) (ps_buf st).
  (** assignment to [line_no], src/ast1/document.rs:263 *)
  Definition set_line (st : pstate) (l : N) : pstate :=
    mkP (ps_chunks st) l (ps_escaped st) (ps_comment st) (ps_bline st) (ps_buf st).

  (** src/ast1/document.rs:339-351 [flush!] *)
  Definition flush_bang (st : pstate) : outcome error pstate :=
    let* chunks :=
      map_err (fun e =>
                 let* off := sub32 p (ps_bline st) 1 in
                 let* l := add32 p (err_line e) off in
                 Ok (mkError l (err_type e)))
              (flush (ps_buf st) (ps_bline st) (ps_chunks st)) in
    Ok (set_bline (set_chunks st chunks) (ps_line st)).

  (** [buffer = Buffer::command(); buffer.push(c); if !c.is_ascii_alphabetic() { flush!();
      buffer = Buffer::text(); }], src/ast1/document.rs:375-381 and 437-442 *)
  Definition start_command (st : pstate) (c : char) : outcome error pstate :=
    let st := set_buf st (buffer_push buffer_command c) in
    if negb (is_ascii_alphabetic c) then
      let* st := flush_bang st in
      Ok (set_buf st buffer_text)
    else Ok st.

  (** src/ast1/document.rs:371-473, the second [match] of the loop body *)
  Definition step_main (st : pstate) (c : char) : outcome error pstate :=
    let escaped := ps_escaped st in
    match ps_buf st with
    | BText _ =>
        (* 372-388 *)
        if escaped then
          let* st := flush_bang st in
          start_command st c
        else if is_opening c then
          let* st := flush_bang st in
          let* v := from_opening c in
          Ok (set_buf st (buffer_scope v))
        else Ok (set_buf st (buffer_push (ps_buf st) c))
    | BScope content variant depth =>
        (* 389-408 *)
        if negb (depth =? 0) && escaped then
          Ok (set_buf st (buffer_push (buffer_push (ps_buf st) c_bslash) c))
        else if open1 variant =? c then
          let* depth := add32 p depth 1 in
          Ok (set_buf st (buffer_push (BScope content variant depth) c))
        else if close1 variant =? c then
          let* depth := sub32 p depth 1 in
          let st := set_buf st (BScope content variant depth) in
          if depth =? 0 then
            let* st := flush_bang st in
            Ok (set_buf st buffer_text)
          else Ok (set_buf st (buffer_push (ps_buf st) c))
        else Ok (set_buf st (buffer_push (ps_buf st) c))
    | BCommand label scopes depth trailing =>
        (* 409-472 *)
        if (depth =? 0) && is_opening c then
          let* v := from_opening c in
          let* b := buffer_push_scope (ps_buf st) v in
          Ok (set_buf st b)
        else if (depth =? 0) && is_whitespace c then
          Ok (set_buf st (BCommand label scopes depth (trailing ++ [c])))
        else if (depth =? 0) && escaped then
          let* st := flush_bang st in
          let* st :=
            (if negb (is_empty trailing) then
               let st := set_buf st (buffer_push_str buffer_text trailing) in
               let* l := sub32 p (ps_bline st) (as_u32 (count_newlines trailing)) in
               let* chunks := flush (ps_buf st) l (ps_chunks st) in
               Ok (set_chunks st chunks)
             else Ok st) in
          let st := set_bline st (ps_line st) in
          start_command st c
        else if negb (depth =? 0) && escaped then
          Ok (set_buf st (buffer_push (buffer_push (ps_buf st) c_bslash) c))
        else if (depth =? 0) && negb (is_empty trailing) then
          let* st := flush_bang st in
          let st := set_buf st (buffer_push (buffer_push_str buffer_text trailing) c) in
          let* l := sub32 p (ps_line st) (as_u32 (count_newlines trailing)) in
          Ok (set_bline st l)
        else
          (* [scopes.last().unwrap()] is evaluated only when depth <> 0 *)
          let* bracket :=
            (if negb (depth =? 0) then
               match last_opt scopes with
               | Some (_, v, _) => Ok (open1 v =? c, close1 v =? c)
               | None => Panic
               end
             else Ok (false, false)) in
          if fst bracket then
            let* depth := add32 p depth 1 in
            Ok (set_buf st (BCommand label scopes depth trailing))
          else if snd bracket then
            let* depth := sub32 p depth 1 in
            Ok (set_buf st (BCommand label scopes depth trailing))
          else if (depth =? 0) && is_closing c then
            let* v := from_closing c in
            Err (mkError (ps_line st) (UnexpectedClosing v))
          else
            let* ns := no_scope (ps_buf st) in
            if (depth =? 0) && negb ns then
              let* st := flush_bang st in
              Ok (set_buf st (buffer_push buffer_text c))
            else Ok (set_buf st (buffer_push (ps_buf st) c))
    end.

  (** src/ast1/document.rs:353-476, the body of [for c in s.chars()] *)
  Definition step (st : pstate) (c : char) : outcome error pstate :=
    if c =? c_newline then
      let* l := add32 p (ps_line st) 1 in
      let* st := step_main (set_line (set_comment st false) l) c in
      Ok (set_escaped st false)
    else if (c =? c_percent) && negb (ps_escaped st) then Ok (set_comment st true)
    else if (c =? c_bslash) && negb (ps_escaped st) then Ok (set_escaped st true)
    else if ps_comment st then Ok st
    else
      let* st := step_main st c in
      Ok (set_escaped st false).

  (** src/ast1/document.rs:478-494 *)
  Definition finish (st : pstate) : outcome error document1 :=
    match ps_buf st with
    | BCommand _ _ _ trailing =>
        if negb (is_empty trailing) then
          let* st := flush_bang st in
          let st := set_buf st (buffer_push_str buffer_text trailing) in
          let* st := flush_bang st in
          Ok (ps_chunks st)
        else
          let* st := flush_bang st in
          Ok (ps_chunks st)
    | _ =>
        let* st := flush_bang st in
        Ok (ps_chunks st)
    end.
End Parser.

(** src/ast1/document.rs:256-496 [Document::from_str] with explicit recursion fuel *)
Fixpoint from_str1_fuel (fuel : nat) (p : profile) (s : str) : outcome error document1 :=
  match fuel with
  | O => OutOfFuel
  | S fuel =>
      let rec := from_str1_fuel fuel p in
      let* st := foldM (step p rec) pinit s in
      finish p rec st
  end.

(** The recursive calls are on strictly shorter strings, so this fuel is enough
    (theorem [C01_parse_total]).  src/ast1/document.rs:259-495. *)
Definition from_str1 (p : profile) (s : str) : outcome error document1 :=
  from_str1_fuel (S (length s)) p s.
