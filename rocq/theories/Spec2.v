(** * Spec2: declarative description of stage 2

    Environments are matched [\begin{label}] ... [\end{label}] pairs.  Independent of the
    conversion's loop, stacks and buffers. *)
From Verif Require Import Base Ast1 Parse1 Ast2 SpecDoc1.

(** [\begin{lab}args] with blanks [pb] before the label *)
Definition begin_cmd (l : N) (pb : str) (lab : list chunk1) (args : list (str * scope1)) : chunk1 :=
  mkChunk1 l (Command1 (mkCommand1 (S! "begin") ((pb, mkScope1 lab Curly1) :: args))).
(** [\end{lab}] with blanks [pe] before the label, and nothing more *)
Definition end_cmd (l : N) (pe : str) (lab : list chunk1) : chunk1 :=
  mkChunk1 l (Command1 (mkCommand1 (S! "end") [(pe, mkScope1 lab Curly1)])).

(** Every [\begin] has its [\end] with the same label, properly nested, at every depth:
    inside scopes, arguments of commands and of environments, and environment bodies. *)
Inductive well_nested : list chunk1 -> Prop :=
| wn_nil : well_nested []
| wn_text l s d : well_nested d -> well_nested (mkChunk1 l (Text1 s) :: d)
| wn_scope l cs v d : well_nested cs -> well_nested d ->
    well_nested (mkChunk1 l (Scope1 (mkScope1 cs v)) :: d)
| wn_cmd l lab args d : lab <> S! "begin" -> lab <> S! "end" ->
    well_nested_args args -> well_nested d ->
    well_nested (mkChunk1 l (Command1 (mkCommand1 lab args)) :: d)
| wn_env l pb lab args body l' pe d :
    well_nested_args args -> well_nested body -> well_nested d ->
    well_nested (begin_cmd l pb lab args :: body ++ end_cmd l' pe lab :: d)
with well_nested_args : list (str * scope1) -> Prop :=
| wn_no_args : well_nested_args []
| wn_arg pre cs v args : well_nested cs -> well_nested_args args ->
    well_nested_args ((pre, mkScope1 cs v) :: args).

(** The stage-2 form of a stage-1 chunk list.  [rebase start] renumbers the chunks of a
    body so that line [start] becomes line 1. *)
Definition rebase (start : N) (c : chunk1) : chunk1 :=
  match c with mkChunk1 l v => mkChunk1 (l - start + 1) v end.
Definition args_text (args : list (str * scope1)) : str :=
  concat (map (fun a => match a with (pre, sc) => pre ++ show_scope1 sc end) args).

Inductive converts : list chunk1 -> list chunk2 -> Prop :=
| cs_nil : converts [] []
| cs_text l s d d' : converts d d' -> converts (mkChunk1 l (Text1 s) :: d) (mkChunk2 l (Text2 s) :: d')
| cs_scope l cs v cs' d d' : converts cs cs' -> converts d d' ->
    converts (mkChunk1 l (Scope1 (mkScope1 cs v)) :: d)
             (mkChunk2 l (Scope2 (mkScope2 cs' (sv2_of_sv1 v))) :: d')
| cs_cmd l lab args args' d d' : lab <> S! "begin" -> lab <> S! "end" ->
    converts_args args args' -> converts d d' ->
    converts (mkChunk1 l (Command1 (mkCommand1 lab args)) :: d)
             (mkChunk2 l (Command2 (mkCommand2 lab args')) :: d')
| cs_env l pb lab args args' body content l' pe d d' start :
    (* the line on which the arguments of [\begin] end *)
    start = l + count_newlines (pb ++ show_scope1 (mkScope1 lab Curly1) ++ args_text args) ->
    converts_args args args' -> converts (map (rebase start) body) content -> converts d d' ->
    converts (begin_cmd l pb lab args :: body ++ end_cmd l' pe lab :: d)
             (mkChunk2 start (Environment2 (mkEnv2 (show1 lab) args' content pb pe)) :: d')
with converts_args : list (str * scope1) -> list (str * scope2) -> Prop :=
| cs_no_args : converts_args [] []
| cs_arg pre cs v cs' args args' : converts cs cs' -> converts_args args args' ->
    converts_args ((pre, mkScope1 cs v) :: args) ((pre, mkScope2 cs' (sv2_of_sv1 v)) :: args').

(** ** Errors *)

(** [bad_here open c e]: command [c], met while the environments labelled [open] (innermost
    first) are open, is rejected with [e], at its own line. *)
Inductive bad_here (open : list (list chunk1)) : chunk1 -> error -> Prop :=
| bh_label l lab args :
    lab = S! "begin" \/ lab = S! "end" ->
    (match args with (_, mkScope1 _ Curly1) :: _ => False | _ => True end) ->
    bad_here open (mkChunk1 l (Command1 (mkCommand1 lab args))) (mkError l NoEnvironmentLabel)
| bh_unexpected l pe lab args :
    hd_error open <> Some lab ->
    bad_here open (mkChunk1 l (Command1 (mkCommand1 (S! "end") ((pe, mkScope1 lab Curly1) :: args))))
             (mkError l (UnexpectedEnd (show1 lab)))
| bh_many l pe lab args :
    hd_error open = Some lab -> args <> [] ->
    bad_here open (mkChunk1 l (Command1 (mkCommand1 (S! "end") ((pe, mkScope1 lab Curly1) :: args))))
             (mkError l TooManyArgsEnd).

(** Not a [\begin] or [\end] command *)
Definition plain (c : chunk1) : Prop :=
  match c with
  | mkChunk1 _ (Command1 (mkCommand1 lab _)) => lab <> S! "begin" /\ lab <> S! "end"
  | _ => True
  end.
(** [opens st b]: after the chunks [b] the environments labelled [st] (innermost first)
    are open.  Only the chunks of [b] themselves count, not what is inside them. *)
Inductive opens : list (list chunk1) -> list chunk1 -> Prop :=
| op_nil : opens [] []
| op_plain st b c : opens st b -> plain c -> opens st (b ++ [c])
| op_begin st b l pb lab args : opens st b -> opens (lab :: st) (b ++ [begin_cmd l pb lab args])
| op_end st b l pe lab : opens (lab :: st) b -> opens st (b ++ [end_cmd l pe lab]).

(** The line on which the arguments of [\begin] end *)
Definition begin_end_line (l : N) (pb : str) (lab : list chunk1) (args : list (str * scope1)) : N :=
  l + count_newlines (pb ++ show_scope1 (mkScope1 lab Curly1) ++ args_text args).

(** [rejects d e]: what is wrong with [d] and the error that is reported for it.
    Everything before the fault converts.  An error inside a scope or an environment body
    is moved by the line of the scope or the line the [\begin] ends on; one inside an
    argument is reported with its line inside the argument. *)
Inductive rejects : list chunk1 -> error -> Prop :=
| rj_here pre pre' c post e :
    converts pre pre' -> bad_here [] c e -> rejects (pre ++ c :: post) e
| rj_scope pre pre' l cs v post e :
    converts pre pre' -> rejects cs e ->
    rejects (pre ++ mkChunk1 l (Scope1 (mkScope1 cs v)) :: post) (mkError (err_line e + l) (err_type e))
| rj_cmd pre pre' l lab args post e :
    converts pre pre' -> lab <> S! "begin" -> lab <> S! "end" -> rejects_args args e ->
    rejects (pre ++ mkChunk1 l (Command1 (mkCommand1 lab args)) :: post) e
| rj_open pre pre' l pb lab args b c post e inner :
    converts pre pre' -> opens inner b -> bad_here (inner ++ [lab]) c e ->
    rejects (pre ++ begin_cmd l pb lab args :: b ++ c :: post) e
| rj_unclosed pre pre' l pb lab args b inner :
    converts pre pre' -> opens inner b ->
    rejects (pre ++ begin_cmd l pb lab args :: b)
            (mkError (begin_end_line l pb lab args) (UnclosedEnvironment (show1 lab)))
| rj_env_arg pre pre' l pb lab args b l' pe post e :
    converts pre pre' -> opens [] b -> rejects_args args e ->
    rejects (pre ++ begin_cmd l pb lab args :: b ++ end_cmd l' pe lab :: post) e
| rj_env_body pre pre' l pb lab args args' b l' pe post e :
    converts pre pre' -> opens [] b -> converts_args args args' ->
    rejects (map (rebase (begin_end_line l pb lab args)) b) e ->
    rejects (pre ++ begin_cmd l pb lab args :: b ++ end_cmd l' pe lab :: post)
            (mkError (err_line e + begin_end_line l pb lab args) (err_type e))
with rejects_args : list (str * scope1) -> error -> Prop :=
| ra_here pre cs v args e : rejects cs e -> rejects_args ((pre, mkScope1 cs v) :: args) e
| ra_next pre cs v cs' args e : converts cs cs' -> rejects_args args e ->
    rejects_args ((pre, mkScope1 cs v) :: args) e.

(** Documents that come out of the stage-1 parser *)
Definition parsed (d : document1) : Prop := exists p s, source_fits s /\ from_str1 p s = Ok d.
(** What is inside the scopes and arguments of the chunks of [d] is well nested
    (nothing is said about the chunks of [d] themselves) *)
Definition inside_ok (d : list chunk1) : Prop :=
  (forall l cs v, In (mkChunk1 l (Scope1 (mkScope1 cs v))) d -> well_nested cs) /\
  (forall l lab args pre cs v, In (mkChunk1 l (Command1 (mkCommand1 lab args))) d ->
     In (pre, mkScope1 cs v) args -> well_nested cs).
