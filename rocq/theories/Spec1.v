(** * Spec1: independent, declarative specification of the stage-1 language

    Nothing here refers to the parser of Parse1.v: this file only uses the
    characters of Base.v and the tree types of Ast1.v. *)

From Verif Require Import Base Ast1.

(** ** Lexical level: plain characters and escaped characters; comments vanish *)

Inductive token := Plain (c : char) | Esc (c : char).

Definition tchar (t : token) : char := match t with Plain c | Esc c => c end.
Definition is_esc (t : token) : bool := match t with Plain _ => false | Esc _ => true end.

(** [lex escaped comment s]: an unescaped [\ ] escapes the next character that is not
    inside a comment; an unescaped [%] starts a comment, which extends up to, and does
    not include, the next newline.  A backslash inside a comment escapes that newline
    (the code behaves so).  A backslash at the end of input is dropped. *)
Fixpoint lex (escaped comment : bool) (s : str) : list token :=
  match s with
  | [] => []
  | c :: s' =>
      if c =? c_newline then (if escaped then Esc c else Plain c) :: lex false false s'
      else if (c =? c_percent) && negb escaped then lex escaped true s'
      else if (c =? c_bslash) && negb escaped then lex true comment s'
      else if comment then lex escaped comment s'
      else (if escaped then Esc c else Plain c) :: lex false false s'
  end.
Definition tokens (s : str) : list token := lex false false s.

(** Source text of tokens *)
Definition untok (t : token) : str := match t with Plain c => [c] | Esc c => [c_bslash; c] end.
Definition untoks (ts : list token) : str := concat (map untok ts).
(** The characters without the escaping backslashes *)
Definition chars (ts : list token) : str := map tchar ts.
(** Newlines among tokens *)
Definition nl (ts : list token) : N := count_newlines (chars ts).

(** Tokens a source can contain: a plain token is never [\ ] or [%] *)
Definition wf_token (t : token) : Prop :=
  match t with Plain c => c <> c_bslash /\ c <> c_percent | Esc _ => True end.

(** ** Grammar *)

(** Plain opening bracket / closing bracket of variant [v] *)
Definition is_open_tok (v : sv1) (t : token) : bool :=
  match t with Plain c => c =? open1 v | Esc _ => false end.
Definition is_close_tok (v : sv1) (t : token) : bool :=
  match t with Plain c => c =? close1 v | Esc _ => false end.

(** Bodies in which the unescaped brackets of variant [v] are balanced; brackets of
    other variants are ordinary tokens. *)
Inductive balanced (v : sv1) : list token -> Prop :=
| bal_nil : balanced v []
| bal_tok t ts : is_open_tok v t = false -> is_close_tok v t = false ->
    balanced v ts -> balanced v (t :: ts)
| bal_nest ts1 ts2 : balanced v ts1 -> balanced v ts2 ->
    balanced v (Plain (open1 v) :: ts1 ++ Plain (close1 v) :: ts2).

(** The code forgets the nested brackets of the argument's own variant. *)
Definition drop_own (v : sv1) (ts : list token) : list token :=
  filter (fun t => negb (is_open_tok v t || is_close_tok v t)) ts.

(** Tokens of running text *)
Definition is_text_tok (t : token) : bool :=
  match t with Plain c => negb (is_opening c) | Esc _ => false end.
(** Continuation of a command label *)
Definition is_label_char (c : char) : bool :=
  negb (is_whitespace c) && negb (is_opening c) && negb (is_closing c).

(** What may follow a command's last argument (or its label) and the blanks [ws] after
    it: not an opening bracket or a blank (they would have been consumed); without
    blanks, neither a closing bracket nor a label character that belongs to the label. *)
Definition follow_ok (has_args : bool) (ws rest : list token) : bool :=
  match rest with
  | [] => true
  | t :: _ =>
      negb (is_whitespace (tchar t)) && negb (is_opening (tchar t))
      && match t with
         | Plain c => negb (is_empty ws) || (negb (is_closing c) && has_args)
         | Esc _ => true
         end
  end.

(** [parses L ts d]: the tokens [ts], starting on line [L], are the chunks [d]. *)
Inductive parses : N -> list token -> list chunk1 -> Prop :=
| P_nil L : parses L [] []
| P_text L run rest cs :
    (* maximal run of plain text *)
    run <> [] -> forallb is_text_tok run = true ->
    match rest with [] => True | t :: _ => is_text_tok t = false end ->
    parses (L + nl run) rest cs ->
    parses L (run ++ rest) (mkChunk1 L (Text1 (chars run)) :: cs)
| P_scope L v body rest inner cs :
    (* a top level bracket of any variant; recorded as Curly *)
    balanced v body -> parses 1 body inner ->
    parses (L + nl body) rest cs ->
    parses L (Plain (open1 v) :: body ++ Plain (close1 v) :: rest)
             (mkChunk1 L (Scope1 (mkScope1 inner Curly1)) :: cs)
| P_symbol L c rest cs :
    (* control symbol *)
    is_ascii_alphabetic c = false ->
    parses (L + nl [Esc c]) rest cs ->
    parses L (Esc c :: rest)
             (mkChunk1 (L + nl [Esc c]) (Command1 (mkCommand1 [c] [])) :: cs)
| P_command L a lab argtoks args ws rest cs :
    (* control word; blanks after it (escaped or not) become plain text *)
    is_ascii_alphabetic a = true -> forallb is_label_char lab = true ->
    parses_args argtoks args ->
    forallb (fun t => is_whitespace (tchar t)) ws = true ->
    follow_ok (negb (is_empty args)) ws rest = true ->
    (ws = [] \/ rest <> []) ->
    parses (L + nl argtoks) (map Plain (chars ws) ++ rest) cs ->
    parses L (Esc a :: map Plain lab ++ argtoks ++ ws ++ rest)
             (mkChunk1 L (Command1 (mkCommand1 (a :: lab) args)) :: cs)
| P_command_eof L a lab argtoks args ws :
    (* the same at the end of input: the blanks carry the last line number *)
    is_ascii_alphabetic a = true -> forallb is_label_char lab = true ->
    parses_args argtoks args ->
    forallb (fun t => is_whitespace (tchar t)) ws = true -> ws <> [] ->
    parses L (Esc a :: map Plain lab ++ argtoks ++ ws)
             [mkChunk1 L (Command1 (mkCommand1 (a :: lab) args));
              mkChunk1 (L + nl argtoks + nl ws) (Text1 (chars ws))]
(** [parses_args ts args]: blanks, bracket (escaped or not), balanced body, bracket *)
with parses_args : list token -> list (str * scope1) -> Prop :=
| PA_nil : parses_args [] []
| PA_cons pre o v body inner rest args :
    forallb (fun t => is_whitespace (tchar t)) pre = true ->
    tchar o = open1 v -> balanced v body ->
    parses 1 (drop_own v body) inner ->
    parses_args rest args ->
    parses_args (pre ++ o :: body ++ Plain (close1 v) :: rest)
                ((chars pre, mkScope1 inner v) :: args).
