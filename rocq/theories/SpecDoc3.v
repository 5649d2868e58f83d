(** * SpecDoc3: independent vocabulary for statements about stage-3 documents *)

From Verif Require Import Base Ast1 Parse1 Ast2 Ast3 SpecDoc1.

(** [within3 d cs]: as [within2], with the contents of maths blocks *)
Inductive within3 (d : list chunk3) : list chunk3 -> Prop :=
| w3_self : within3 d d
| w3_scope cs l inner v :
    within3 d cs -> In (mkChunk3 l (Scope3 (mkScope3 inner v))) cs -> within3 d inner
| w3_arg cs l lab args pre inner v :
    within3 d cs -> In (mkChunk3 l (Command3 (mkCommand3 lab args))) cs ->
    In (pre, mkScope3 inner v) args -> within3 d inner
| w3_env_arg cs l lab args content pb pe pre inner v :
    within3 d cs -> In (mkChunk3 l (Environment3 (mkEnv3 lab args content pb pe))) cs ->
    In (pre, mkScope3 inner v) args -> within3 d inner
| w3_env cs l lab args content pb pe :
    within3 d cs -> In (mkChunk3 l (Environment3 (mkEnv3 lab args content pb pe))) cs ->
    within3 d content
| w3_maths cs l mv mt content :
    within3 d cs -> In (mkChunk3 l (Maths3 (mkMaths3 mv mt content))) cs ->
    within3 d content.

(** A paragraph break inside a text: two newlines separated by blanks only *)
Definition has_break (s : str) : Prop :=
  exists a w b, s = a ++ [c_newline] ++ w ++ [c_newline] ++ b /\ forallb is_whitespace w = true.

(** A chunk's own text or label is acceptable *)
Definition clean3 (c : chunk3) : Prop :=
  match variant_of3 c with
  | Text3 s => existsb special s = false /\ ~ has_break s
  | ParagraphBreak3 s => forallb is_whitespace s = true /\ 2 <= count_newlines s
  | Command3 (mkCommand3 lab _) => lab <> S! "begin" /\ lab <> S! "end" /\ clean_label lab = true
  | Scope3 _ => True
  | Environment3 (mkEnv3 lab _ _ _ _) => existsb special lab = false
  | Maths3 _ => True
  end.
Definition lines_add_up3 (d : list chunk3) : Prop :=
  forall pre c post, d = pre ++ c :: post -> line_no3 c = 1 + count_newlines (show_chunks3 pre).
(** one section of a stage-3 document *)
Definition well_formed_vec3 (d : list chunk3) : Prop :=
  lines_add_up3 d /\ forall cs, within3 d cs -> Forall clean3 cs.
(** the three sections are numbered separately *)
Definition well_formed3 (d : document3) : Prop :=
  well_formed_vec3 (d_preamable d) /\ well_formed_vec3 (d_body d) /\ well_formed_vec3 (d_trailing d).

(** ** Histories of pushes into the sections of a document *)
Inductive op3 := OpPush3 (s : section) (v : variant3) | OpPushChunk3 (s : section) (c : chunk3).
Definition apply_op3 (p : profile) (d : document3) (o : op3) : outcome internal_error document3 :=
  match (match o with OpPush3 s v => push3 p s d v | OpPushChunk3 s c => push_chunk3 p s d c end) with
  | Err _ => Ok d
  | r => r
  end.
Definition run_ops3 (p : profile) (d : document3) (ops : list op3) : outcome internal_error document3 :=
  foldM (apply_op3 p) d ops.

(** Pushing [v] onto [d] does not join two texts into one with a paragraph break *)
Definition joins_cleanly (d : list chunk3) (v : variant3) : Prop :=
  forall d0 l s' s, d = d0 ++ [mkChunk3 l (Text3 s')] -> v = Text3 s -> ~ has_break (s' ++ s).
Definition op_variant3 (o : op3) : variant3 :=
  match o with OpPush3 _ v => v | OpPushChunk3 _ c => variant_of3 c end.

(** ** What a push does *)

(** the line on which a document ends: that of its last chunk plus the newlines in it *)
Definition ends_at3 (d : list chunk3) (L : N) : Prop :=
  (d = [] /\ L = 1) \/
  exists d0 x, d = d0 ++ [x] /\ L = line_no3 x + count_newlines (show_chunk3 x).
(** [d'] is [d] with [c] added at the end: a text is joined to a last text, which keeps
    its line number; anything else becomes a new last chunk *)
Inductive joined3 : list chunk3 -> chunk3 -> list chunk3 -> Prop :=
| joined_text3 d0 l s l' s' :
    joined3 (d0 ++ [mkChunk3 l (Text3 s)]) (mkChunk3 l' (Text3 s')) (d0 ++ [mkChunk3 l (Text3 (s ++ s'))])
| joined_other3 d c :
    ~ (exists d0 l s l' s', d = d0 ++ [mkChunk3 l (Text3 s)] /\ c = mkChunk3 l' (Text3 s')) ->
    joined3 d c (d ++ [c]).
