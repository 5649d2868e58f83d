(** * SpecCanon1: the stage-1 documents that parsing their own Display gives back

    Only the characters of Base.v, the tree types and Display of Ast1.v and the vocabulary
    of SpecDoc1.v are used; [is_label_char] (Spec1.v) is "not blank, not a bracket". *)

From Verif Require Import Base Ast1 Spec1 SpecDoc1.

(** A property of the chunks at every depth of a document *)
Definition everywhere (Q : chunk1 -> Prop) (d : list chunk1) : Prop :=
  forall cs, within1 d cs -> Forall Q cs.

(** no raw closing bracket of variant [v] in a text *)
Definition no_close (v : sv1) (c : chunk1) : Prop :=
  match variant_of1 c with Text1 s => ~ In (close1 v) s | _ => True end.
(** no bracket of variant [v] at all: neither in a text, nor around an argument, nor
    around a scope *)
Definition no_bracket (v : sv1) (c : chunk1) : Prop :=
  match variant_of1 c with
  | Text1 s => ~ In (close1 v) s
  | Command1 (mkCommand1 _ args) => Forall (fun a => scope_variant1 (snd a) <> v) args
  | Scope1 sc => scope_variant1 sc <> v
  end.

(** characters that mean nothing in running text (a closing bracket may stand there) *)
Definition text_char (c : char) : bool :=
  negb (is_opening c) && negb (c =? c_bslash) && negb (c =? c_percent).
(** characters of a label after its first letter *)
Definition label_char (c : char) : bool :=
  is_label_char c && negb (c =? c_bslash) && negb (c =? c_percent).

(** [c] may come next to a control word (possibly after blanks): not a scope, which would
    be an argument, and not an escaped blank or opening bracket, which the control word
    would swallow. *)
Definition next_ok (c : chunk1) : bool :=
  match variant_of1 c with
  | Text1 _ => true
  | Scope1 _ => false
  | Command1 (mkCommand1 [] _) => false
  | Command1 (mkCommand1 (x :: _) _) => negb (is_whitespace x) && negb (is_opening x)
  end.
(** [d] may follow a control word, with or without arguments *)
Definition after_word (has_args : bool) (d : list chunk1) : bool :=
  match d with
  | [] => true
  | c :: d' =>
      match variant_of1 c with
      | Text1 s =>
          match s with
          | [] => false
          | x :: _ =>
              if forallb is_whitespace s then match d' with [] => false | c' :: _ => next_ok c' end
              else is_whitespace x || (has_args && negb (is_closing x))
          end
      | _ => next_ok c
      end
  end.
Definition text_first (d : list chunk1) : bool :=
  match d with c :: _ => is_text1 c | [] => false end.

(** [canonical L d]: the chunks [d], the first of which starts on line [L] *)
Inductive canonical : N -> list chunk1 -> Prop :=
| cn_nil L : canonical L []
| cn_text L s d :
    s <> [] -> forallb text_char s = true -> text_first d = false ->
    canonical (L + count_newlines s) d ->
    canonical L (mkChunk1 L (Text1 s) :: d)
| cn_scope L inner d :
    canonical 1 inner -> everywhere (no_close Curly1) inner ->
    canonical (L + count_newlines (show1 inner)) d ->
    canonical L (mkChunk1 L (Scope1 (mkScope1 inner Curly1)) :: d)
| cn_symbol L c d :
    is_ascii_alphabetic c = false ->
    canonical (L + count_newlines [c]) d ->
    canonical L (mkChunk1 (L + count_newlines [c]) (Command1 (mkCommand1 [c] [])) :: d)
| cn_word L a lab args d :
    is_ascii_alphabetic a = true -> forallb label_char lab = true -> canonical_args args ->
    after_word (negb (is_empty args)) d = true ->
    canonical (L + count_newlines (show_args1 args)) d ->
    canonical L (mkChunk1 L (Command1 (mkCommand1 (a :: lab) args)) :: d)
| cn_word_eof L a lab args s :
    (* a last, blank text after a control word carries the number of its last line *)
    is_ascii_alphabetic a = true -> forallb label_char lab = true -> canonical_args args ->
    s <> [] -> forallb is_whitespace s = true ->
    canonical L [mkChunk1 L (Command1 (mkCommand1 (a :: lab) args));
                 mkChunk1 (L + count_newlines (show_args1 args) + count_newlines s) (Text1 s)]
with canonical_args : list (str * scope1) -> Prop :=
| cna_nil : canonical_args []
| cna_cons pre inner v args :
    forallb is_whitespace pre = true ->
    canonical 1 inner -> everywhere (no_bracket v) inner ->
    canonical_args args ->
    canonical_args ((pre, mkScope1 inner v) :: args).

(** What can go wrong with the Display of a document obtained by parsing: a raw closing
    curly bracket inside a scope, or a scope (written with round or square brackets)
    inside a curly argument. *)
Definition reparse_safe (c : chunk1) : Prop :=
  match variant_of1 c with
  | Text1 _ => True
  | Scope1 (mkScope1 inner _) => everywhere (no_close Curly1) inner
  | Command1 (mkCommand1 _ args) =>
      Forall (fun a => scope_variant1 (snd a) = Curly1 ->
                       everywhere (fun c => is_scope1 c = false) (chunks1 (snd a))) args
  end.
