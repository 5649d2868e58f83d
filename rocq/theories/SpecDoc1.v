(** * SpecDoc1: independent vocabulary for statements about stage-1 documents

    Only the characters of Base.v and the tree types and Display of Ast1.v are used. *)

From Verif Require Import Base Ast1.

(** [within1 d cs]: [cs] is the chunk list of the document [d] itself, or the chunk list
    of a scope or of a command argument of [d], at any depth. *)
Inductive within1 (d : list chunk1) : list chunk1 -> Prop :=
| w1_self : within1 d d
| w1_scope cs l inner v :
    within1 d cs -> In (mkChunk1 l (Scope1 (mkScope1 inner v))) cs -> within1 d inner
| w1_arg cs l lab args pre inner v :
    within1 d cs -> In (mkChunk1 l (Command1 (mkCommand1 lab args))) cs ->
    In (pre, mkScope1 inner v) args -> within1 d inner.

(** ** Comments *)

(** [strip_from escaped comment s]: [s] without its comments.  A comment starts at an
    unescaped [%] and extends up to, not including, the next newline.  [escaped]: the
    previous character was an unescaped backslash. *)
Fixpoint strip_from (escaped comment : bool) (s : str) : str :=
  match s with
  | [] => []
  | c :: s' =>
      if c =? c_newline then c :: strip_from false false s'
      else if comment then strip_from escaped comment s'
      else if escaped then c :: strip_from false false s'
      else if c =? c_percent then strip_from false true s'
      else if c =? c_bslash then c :: strip_from true false s'
      else c :: strip_from false false s'
  end.
Definition strip_comments (s : str) : str := strip_from false false s.

(** State of the scanner after a prefix: is the next character escaped / inside a
    comment? *)
Fixpoint scan (escaped comment : bool) (s : str) : bool * bool :=
  match s with
  | [] => (escaped, comment)
  | c :: s' =>
      if c =? c_newline then scan false false s'
      else if comment then scan (escaped || (c =? c_bslash)) comment s'
      else if escaped then scan false false s'
      else if c =? c_percent then scan false true s'
      else if c =? c_bslash then scan true false s'
      else scan false false s'
  end.

(** ** Loss of information *)

Definition is_bracket (c : char) : bool := is_opening c || is_closing c.
(** Everything but brackets and backslashes *)
Definition content (s : str) : str := filter (fun c => negb (is_bracket c) && negb (c =? c_bslash)) s.
Definition count_char (x : char) (s : str) : nat := length (filter (fun c => c =? x) s).

(** [degrades a b]: [b] is [a] with some characters deleted and some brackets turned
    into curly ones. *)
Inductive degrades : str -> str -> Prop :=
| dg_nil : degrades [] []
| dg_keep c a b : degrades a b -> degrades (c :: a) (c :: b)
| dg_drop c a b : degrades a b -> degrades (c :: a) b
| dg_open c a b : is_opening c = true -> degrades a b -> degrades (c :: a) (c_lcurly :: b)
| dg_close c a b : is_closing c = true -> degrades a b -> degrades (c :: a) (c_rcurly :: b).

(** ** Chunk classes *)
Definition is_text1 (c : chunk1) : bool :=
  match variant_of1 c with Text1 _ => true | _ => false end.
Definition is_scope1 (c : chunk1) : bool :=
  match variant_of1 c with Scope1 _ => true | _ => false end.
(** control word: a command whose label starts with an ASCII letter *)
Definition is_word1 (c : chunk1) : bool :=
  match variant_of1 c with
  | Command1 (mkCommand1 (a :: _) _) => is_ascii_alphabetic a
  | _ => false
  end.
(** text made of blanks only *)
Definition is_blank1 (c : chunk1) : bool :=
  match variant_of1 c with Text1 s => forallb is_whitespace s | _ => false end.

(** The number of newlines in a chunk's Display *)
Definition nls (cs : list chunk1) : N := count_newlines (show1 cs).

(** ** Line numbers *)

(** [extra_line pre c post]: by how many lines the code's line number for chunk [c],
    between [pre] and [post], exceeds the line [c] starts on.  It is zero except
    (1) for a backslash-newline command, reported on the line after it, and
    (2) for a last, blank text after a control word, reported on its own last line. *)
Definition extra_line (pre : list chunk1) (c : chunk1) (post : list chunk1) : N :=
  match variant_of1 c, post with
  | Command1 (mkCommand1 [x] _), _ => if x =? c_newline then 1 else 0
  | Text1 s, [] =>
      match rev pre with
      | w :: _ => if is_word1 w && is_blank1 c then count_newlines s else 0
      | [] => 0
      end
  | _, _ => 0
  end.

(** ** Well-formedness *)

(** The characters with a meaning in the syntax *)
Definition special (c : char) : bool := existsb (N.eqb c) (S! "\%()[]{}").
(** Labels: one byte of anything, or no special character at all *)
Definition clean_label (lab : str) : bool :=
  (str_len lab =? 1) || negb (existsb special lab).
(** A chunk's own text or label is acceptable *)
Definition clean1 (c : chunk1) : Prop :=
  match variant_of1 c with
  | Text1 s => existsb special s = false
  | Command1 (mkCommand1 lab _) => clean_label lab = true
  | Scope1 _ => True
  end.
(** Line numbers accumulate from line 1 *)
Definition lines_add_up1 (d : list chunk1) : Prop :=
  forall pre c post, d = pre ++ c :: post -> line_no1 c = 1 + count_newlines (show1 pre).
(** What [validate] promises: texts and labels are clean at every depth, and the line
    numbers of the document's own chunks add up (those of nested chunks are not
    constrained). *)
Definition well_formed1 (d : list chunk1) : Prop :=
  lines_add_up1 d /\ forall cs, within1 d cs -> Forall clean1 cs.

(** ** Histories of pushes.  A push that returns an error leaves the document as it is. *)
Inductive op1 := OpPush1 (v : variant1) | OpPushChunk1 (c : chunk1).
Definition apply_op1 (p : profile) (d : document1) (o : op1) : outcome internal_error document1 :=
  match (match o with OpPush1 v => push1 p d v | OpPushChunk1 c => push_chunk1 p d c end) with
  | Err _ => Ok d
  | r => r
  end.
Definition run_ops1 (p : profile) (d : document1) (ops : list op1) : outcome internal_error document1 :=
  foldM (apply_op1 p) d ops.
Definition op_text1 (o : op1) : str :=
  match o with OpPush1 v => show_variant1 v | OpPushChunk1 c => show_chunk1 c end.

(** Sources whose length fits the [u32] line counter: less than 2^32 - 1 characters. *)
Definition source_fits (s : str) : Prop := N.of_nat (length s) + 1 < two32.

(** ** What a push does *)

(** the line on which a document ends: that of its last chunk plus the newlines in it *)
Definition ends_at1 (d : list chunk1) (L : N) : Prop :=
  (d = [] /\ L = 1) \/
  exists d0 x, d = d0 ++ [x] /\ L = line_no1 x + count_newlines (show_chunk1 x).
(** [d'] is [d] with [c] added at the end: a text is joined to a last text, which keeps
    its line number; anything else becomes a new last chunk *)
Inductive joined1 : list chunk1 -> chunk1 -> list chunk1 -> Prop :=
| joined_text1 d0 l s l' s' :
    joined1 (d0 ++ [mkChunk1 l (Text1 s)]) (mkChunk1 l' (Text1 s')) (d0 ++ [mkChunk1 l (Text1 (s ++ s'))])
| joined_other1 d c :
    ~ (exists d0 l s l' s', d = d0 ++ [mkChunk1 l (Text1 s)] /\ c = mkChunk1 l' (Text1 s')) ->
    joined1 d c (d ++ [c]).
