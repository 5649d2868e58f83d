(** * SpecNested: sources whose brackets nest

    Declarative, in the vocabulary of Spec1.v and SpecDoc1.v; nothing here refers to the parser. *)
From Verif Require Import Base Ast1 Spec1 SpecDoc1.

Definition is_bracket_tok (t : token) : bool :=
  match t with Plain c => is_opening c || is_closing c | Esc _ => false end.
(** the unescaped brackets, of all three variants, match and nest *)
Inductive nested : list token -> Prop :=
| N_nil : nested []
| N_tok t ts : is_bracket_tok t = false -> nested ts -> nested (t :: ts)
| N_group v ts us : nested ts -> nested us -> nested (Plain (open1 v) :: ts ++ Plain (close1 v) :: us).

Definition is_letter_tok (t : token) : bool :=
  match t with Esc c => is_ascii_alphabetic c | Plain _ => false end.
Definition is_closing_tok (t : token) : bool :=
  match t with Plain c => is_closing c | Esc _ => false end.
(** [harmless pre]: after [pre] an escaped opening bracket is an ordinary control symbol, because [pre] contains
    no control word, or because a new word has begun since the last control word and the last closing bracket *)
Definition harmless (pre : list token) : Prop :=
  existsb is_letter_tok pre = false \/
  exists a b x m, pre = a ++ [Plain b; Plain x] ++ m /\ is_whitespace b = true /\
    is_whitespace x = false /\ is_bracket_tok (Plain x) = false /\
    existsb is_letter_tok m = false /\ existsb is_closing_tok m = false.
(** the escaped opening brackets of a source are harmless *)
Definition harmless_escapes (ts : list token) : Prop :=
  forall pre o post, ts = pre ++ Esc o :: post -> is_opening o = true -> harmless pre.

(** ** Documents: the blanks before arguments contain no special character, no label is empty, and no
    control symbol is an opening bracket, at any depth *)
Definition plain_parts (c : chunk1) : Prop :=
  match variant_of1 c with
  | Command1 (mkCommand1 lab args) =>
      lab <> [] /\ (forall o, lab = [o] -> is_opening o = false) /\
      Forall (fun a => existsb special (fst a) = false) args
  | _ => True
  end.
