(** * SpecFlat: what exactly the conversions back produce, chunk by chunk and line by line

    Independent of [into1_*] and [into2_*]: only the trees, Display, the stage-1 grammar (for labels) and the rule for
    adding a chunk to a document are used. *)
From Verif Require Import Base Ast1 Parse1 Ast2 Ast3 Spec1 SpecDoc1 SpecDoc2 SpecDoc3 Spec2.

(** adding chunks one after the other *)
Inductive joins1 : list chunk1 -> list chunk1 -> list chunk1 -> Prop :=
| js1_nil d : joins1 d [] d
| js1_cons d c d' cs d'' : joined1 d c d' -> joins1 d' cs d'' -> joins1 d (c :: cs) d''.
Inductive joins2 : list chunk2 -> list chunk2 -> list chunk2 -> Prop :=
| js2_nil d : joins2 d [] d
| js2_cons d c d' cs d'' : joined2 d c d' -> joins2 d' cs d'' -> joins2 d (c :: cs) d''.

(** ** Stage 2 to stage 1 *)
(** [unfolds off c out]: the chunk [c], in a list whose lines are counted from [off], is the stage-1 chunks [out].
    Texts, scopes and commands keep their line (moved by [off]); what is inside scopes and arguments keeps its own.
    An environment becomes [\begin{label}args] on its line, its contents, counted from that line, and [\end{label}] as
    many lines further down as there are newlines in what is printed between the two. *)
Inductive unfolds : N -> chunk2 -> list chunk1 -> Prop :=
| uf_text off l s : unfolds off (mkChunk2 l (Text2 s)) [mkChunk1 (l + off) (Text1 s)]
| uf_scope off l cs v v' out :
    open1 v' = open2 v -> unfolds_all 0 cs out ->
    unfolds off (mkChunk2 l (Scope2 (mkScope2 cs v))) [mkChunk1 (l + off) (Scope1 (mkScope1 out v'))]
| uf_command off l lab args args' :
    unfolds_args args args' ->
    unfolds off (mkChunk2 l (Command2 (mkCommand2 lab args))) [mkChunk1 (l + off) (Command1 (mkCommand1 lab args'))]
| uf_env off l lab args content pb pe lab' args' out :
    1 <= l + off -> source_fits lab -> parses 1 (tokens lab) lab' ->
    unfolds_args args args' -> unfolds_all (l + off - 1) content out ->
    unfolds off (mkChunk2 l (Environment2 (mkEnv2 lab args content pb pe)))
      (begin_cmd (l + off) pb lab' args'
         :: out ++ [end_cmd (l + off + count_newlines (pb ++ lab ++ show_args2 args ++ show2 content)) pe lab'])
with unfolds_all : N -> list chunk2 -> list chunk1 -> Prop :=
| ua_nil off : unfolds_all off [] []
| ua_cons off c cs out outs : unfolds off c out -> unfolds_all off cs outs -> unfolds_all off (c :: cs) (out ++ outs)
with unfolds_args : list (str * scope2) -> list (str * scope1) -> Prop :=
| ug_nil : unfolds_args [] []
| ug_cons pre cs v v' args out args' :
    open1 v' = open2 v -> unfolds_all 0 cs out -> unfolds_args args args' ->
    unfolds_args ((pre, mkScope2 cs v) :: args) ((pre, mkScope1 out v') :: args').

(** every line number, at any depth, is a [u32] *)
Definition fits1 (d : list chunk1) : Prop :=
  forall cs, within1 d cs -> Forall (fun c => line_no1 c < two32) cs.
Definition fits2 (d : list chunk2) : Prop :=
  forall cs, within2 d cs -> Forall (fun c => line_no2 c < two32) cs.

(** ** Stage 3 to stage 2 *)
(** [fronted c d d']: [d'] is [d] with the text [c] added at the front: joined to a first text, which keeps its line *)
Inductive fronted : chunk2 -> list chunk2 -> list chunk2 -> Prop :=
| fronted_text l' s' l s d :
    fronted (mkChunk2 l' (Text2 s')) (mkChunk2 l (Text2 s) :: d) (mkChunk2 l (Text2 (s' ++ s)) :: d)
| fronted_other c d :
    ~ (exists l s d0, d = mkChunk2 l (Text2 s) :: d0) -> fronted c d (c :: d).
(** the delimiters of a maths block *)
Definition dollars (t : maths_type) : str := match t with Inline => S! "$" | Outline => S! "$$" end.
Definition opening (t : maths_type) : str := match t with Inline => S! "(" | Outline => S! "[" end.
Definition closing (t : maths_type) : str := match t with Inline => S! ")" | Outline => S! "]" end.

(** [lowers off c out]: the chunk [c], in a list whose lines are counted from [off], is the stage-2 chunks [out].
    A paragraph break is a text.  A bracketed maths block is its opening command on its line, its contents, counted from
    that line, and its closing command where the contents end; the dollars of a dollar block are joined to its first and
    last text, or are texts of their own. *)
Inductive lowers : N -> chunk3 -> list chunk2 -> Prop :=
| lo_text off l s : lowers off (mkChunk3 l (Text3 s)) [mkChunk2 (l + off) (Text2 s)]
| lo_break off l s : lowers off (mkChunk3 l (ParagraphBreak3 s)) [mkChunk2 (l + off) (Text2 s)]
| lo_scope off l cs v v' out :
    open2 v' = open3 v -> lowers_all 0 cs out ->
    lowers off (mkChunk3 l (Scope3 (mkScope3 cs v))) [mkChunk2 (l + off) (Scope2 (mkScope2 out v'))]
| lo_command off l lab args args' :
    lowers_args args args' ->
    lowers off (mkChunk3 l (Command3 (mkCommand3 lab args))) [mkChunk2 (l + off) (Command2 (mkCommand2 lab args'))]
| lo_env off l lab args content pb pe args' out :
    lowers_args args args' -> lowers_all 0 content out ->
    lowers off (mkChunk3 l (Environment3 (mkEnv3 lab args content pb pe)))
               [mkChunk2 (l + off) (Environment2 (mkEnv2 lab args' out pb pe))]
| lo_brackets off l t content out :
    1 <= l -> lowers_all (l + off - 1) content out ->
    lowers off (mkChunk3 l (Maths3 (mkMaths3 Brackets t content)))
      (mkChunk2 (l + off) (Command2 (mkCommand2 (opening t) [])) :: out
         ++ [mkChunk2 (l + off + count_newlines (show_chunks3 content)) (Command2 (mkCommand2 (closing t) []))])
| lo_dollars off l t content inner mid out :
    1 <= l -> lowers_all (l + off - 1) content inner ->
    fronted (mkChunk2 (l + off) (Text2 (dollars t))) inner mid ->
    joined2 mid (mkChunk2 (l + off + count_newlines (show_chunks3 content)) (Text2 (dollars t))) out ->
    lowers off (mkChunk3 l (Maths3 (mkMaths3 Dollars t content))) out
with lowers_all : N -> list chunk3 -> list chunk2 -> Prop :=
| la_nil off : lowers_all off [] []
| la_cons off c cs out outs : lowers off c out -> lowers_all off cs outs -> lowers_all off (c :: cs) (out ++ outs)
with lowers_args : list (str * scope3) -> list (str * scope2) -> Prop :=
| lg_nil : lowers_args [] []
| lg_cons pre cs v v' args out args' :
    open2 v' = open3 v -> lowers_all 0 cs out -> lowers_args args args' ->
    lowers_args ((pre, mkScope3 cs v) :: args) ((pre, mkScope2 out v') :: args').

(** The whole document: the preamble, the [document] environment on line [E], which is the number of newlines of the
    preamble (one less than the line it starts on), its contents counted from the number of newlines between [\begin]
    and them, and the trailing chunks counted from one line before that on which the environment ends.  All the line
    numbers must be [u32]s. *)
Definition document_env (d : document3) : environment3 :=
  mkEnv3 (S! "document") (d_body_args d) (d_body d) (d_begin_prec d) (d_end_prec d).
Inductive lowers_doc (d : document3) : list chunk2 -> Prop :=
| lo_doc pre args body env trail out E :
    E = count_newlines (show_chunks3 (d_preamable d)) ->
    lowers_all 0 (d_preamable d) pre ->
    lowers_args (d_body_args d) args ->
    lowers_all (count_newlines (d_begin_prec d ++ show_args3 (d_body_args d))) (d_body d) body ->
    env = mkChunk2 E (Environment2 (mkEnv2 (S! "document") args body (d_begin_prec d) (d_end_prec d))) ->
    lowers_all (E + count_newlines (show_env3 (document_env d)) - 1) (d_trailing d) trail ->
    fits2 (pre ++ env :: trail) ->
    joins2 (pre ++ [env]) trail out ->
    lowers_doc d out.
