(** * SpecDoc2: independent vocabulary for statements about stage-2 documents *)

From Verif Require Import Base Ast1 Parse1 Ast2 SpecDoc1.

(** [within2 d cs]: [cs] is the chunk list of [d] itself, of a scope, of a command or
    environment argument, or of an environment body of [d], at any depth. *)
Inductive within2 (d : list chunk2) : list chunk2 -> Prop :=
| w2_self : within2 d d
| w2_scope cs l inner v :
    within2 d cs -> In (mkChunk2 l (Scope2 (mkScope2 inner v))) cs -> within2 d inner
| w2_arg cs l lab args pre inner v :
    within2 d cs -> In (mkChunk2 l (Command2 (mkCommand2 lab args))) cs ->
    In (pre, mkScope2 inner v) args -> within2 d inner
| w2_env_arg cs l lab args content pb pe pre inner v :
    within2 d cs -> In (mkChunk2 l (Environment2 (mkEnv2 lab args content pb pe))) cs ->
    In (pre, mkScope2 inner v) args -> within2 d inner
| w2_env cs l lab args content pb pe :
    within2 d cs -> In (mkChunk2 l (Environment2 (mkEnv2 lab args content pb pe))) cs ->
    within2 d content.

(** A chunk's own text or label is acceptable *)
Definition clean2 (c : chunk2) : Prop :=
  match variant_of2 c with
  | Text2 s => existsb special s = false
  | Command2 (mkCommand2 lab _) => lab <> S! "begin" /\ lab <> S! "end" /\ clean_label lab = true
  | Scope2 _ => True
  | Environment2 (mkEnv2 lab _ _ _ _) => existsb special lab = false
  end.
Definition lines_add_up2 (d : list chunk2) : Prop :=
  forall pre c post, d = pre ++ c :: post -> line_no2 c = 1 + count_newlines (show2 pre).
Definition well_formed2 (d : list chunk2) : Prop :=
  lines_add_up2 d /\ forall cs, within2 d cs -> Forall clean2 cs.

(** ** Histories of pushes *)
Inductive op2 := OpPush2 (v : variant2) | OpPushChunk2 (c : chunk2).
Definition apply_op2 (p : profile) (d : document2) (o : op2) : outcome internal_error document2 :=
  match (match o with OpPush2 v => push2 p d v | OpPushChunk2 c => push_chunk2 p d c end) with
  | Err _ => Ok d
  | r => r
  end.
Definition run_ops2 (p : profile) (d : document2) (ops : list op2) : outcome internal_error document2 :=
  foldM (apply_op2 p) d ops.
Definition op_text2 (o : op2) : str :=
  match o with OpPush2 v => show_variant2 v | OpPushChunk2 c => show_chunk2 c end.

(** ** What a push does *)

(** the line on which a document ends: that of its last chunk plus the newlines in it *)
Definition ends_at2 (d : list chunk2) (L : N) : Prop :=
  (d = [] /\ L = 1) \/
  exists d0 x, d = d0 ++ [x] /\ L = line_no2 x + count_newlines (show_chunk2 x).
(** [d'] is [d] with [c] added at the end: a text is joined to a last text, which keeps
    its line number; anything else becomes a new last chunk *)
Inductive joined2 : list chunk2 -> chunk2 -> list chunk2 -> Prop :=
| joined_text2 d0 l s l' s' :
    joined2 (d0 ++ [mkChunk2 l (Text2 s)]) (mkChunk2 l' (Text2 s')) (d0 ++ [mkChunk2 l (Text2 (s ++ s'))])
| joined_other2 d c :
    ~ (exists d0 l s l' s', d = d0 ++ [mkChunk2 l (Text2 s)] /\ c = mkChunk2 l' (Text2 s')) ->
    joined2 d c (d ++ [c]).
