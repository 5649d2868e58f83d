(** * SpecFail1: which sources stage-1 parsing rejects, with which error, on which line

    Declarative, in the vocabulary of the grammar of Spec1.v; nothing here refers to the parser. *)
From Verif Require Import Base Ast1 Spec1.

(** No closing bracket of variant [v] closes the bracket opened just before [ts]. *)
Definition never_closed (v : sv1) (ts : list token) : Prop :=
  forall body rest, ts = body ++ Plain (close1 v) :: rest -> ~ balanced v body.

(** [bracketed ts bodies]: [ts] is a sequence of arguments (blanks, bracket, balanced body, bracket);
    [bodies] are their variants and bodies. *)
Inductive bracketed : list token -> list (sv1 * list token) -> Prop :=
| B_nil : bracketed [] []
| B_cons pre o v body rest bodies :
    forallb (fun t => is_whitespace (tchar t)) pre = true ->
    tchar o = open1 v -> balanced v body -> bracketed rest bodies ->
    bracketed (pre ++ o :: body ++ Plain (close1 v) :: rest) ((v, body) :: bodies).

(** The error [e] of an inner document that starts on line [L] of the outer one *)
Definition moved (L : N) (e : error) : error := mkError (err_line e + (L - 1)) (err_type e).

(** [fails L ts e]: the tokens [ts], starting on line [L], are rejected with error [e]. *)
Inductive fails : N -> list token -> error -> Prop :=
| F_text L run rest e :
    run <> [] -> forallb is_text_tok run = true ->
    match rest with [] => True | t :: _ => is_text_tok t = false end ->
    fails (L + nl run) rest e -> fails L (run ++ rest) e
| F_scope_open L v ts :
    (* an unclosed scope: the line of its bracket *)
    never_closed v ts -> fails L (Plain (open1 v) :: ts) (mkError L (UnclosedScope v))
| F_scope_inside L v body rest e :
    balanced v body -> fails 1 body e ->
    fails L (Plain (open1 v) :: body ++ Plain (close1 v) :: rest) (moved L e)
| F_scope_after L v body rest inner e :
    balanced v body -> parses 1 body inner -> fails (L + nl body) rest e ->
    fails L (Plain (open1 v) :: body ++ Plain (close1 v) :: rest) e
| F_symbol L c rest e :
    is_ascii_alphabetic c = false -> fails (L + nl [Esc c]) rest e -> fails L (Esc c :: rest) e
| F_command_open L a lab argtoks bodies pre o v ts :
    (* an unclosed argument: the line of the command *)
    is_ascii_alphabetic a = true -> forallb is_label_char lab = true -> bracketed argtoks bodies ->
    forallb (fun t => is_whitespace (tchar t)) pre = true -> tchar o = open1 v -> never_closed v ts ->
    fails L (Esc a :: map Plain lab ++ argtoks ++ pre ++ o :: ts) (mkError L (UnclosedArgument v))
| F_command_closing L a lab argtoks bodies v rest :
    (* a closing bracket right after a command: its own line *)
    is_ascii_alphabetic a = true -> forallb is_label_char lab = true -> bracketed argtoks bodies ->
    fails L (Esc a :: map Plain lab ++ argtoks ++ Plain (close1 v) :: rest)
            (mkError (L + nl argtoks) (UnexpectedClosing v))
| F_command_inside L a lab argtoks bodies before v body after inners ws rest e :
    (* the first argument that is rejected *)
    is_ascii_alphabetic a = true -> forallb is_label_char lab = true -> bracketed argtoks bodies ->
    bodies = before ++ (v, body) :: after ->
    Forall2 (fun x inner => parses 1 (drop_own (fst x) (snd x)) inner) before inners ->
    fails 1 (drop_own v body) e ->
    forallb (fun t => is_whitespace (tchar t)) ws = true ->
    follow_ok true ws rest = true ->
    fails L (Esc a :: map Plain lab ++ argtoks ++ ws ++ rest) (moved L e)
| F_command_after L a lab argtoks args ws rest e :
    is_ascii_alphabetic a = true -> forallb is_label_char lab = true -> parses_args argtoks args ->
    forallb (fun t => is_whitespace (tchar t)) ws = true ->
    follow_ok (negb (is_empty args)) ws rest = true -> rest <> [] ->
    fails (L + nl argtoks) (map Plain (chars ws) ++ rest) e ->
    fails L (Esc a :: map Plain lab ++ argtoks ++ ws ++ rest) e.
