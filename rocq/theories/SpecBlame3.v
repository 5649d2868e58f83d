(** * SpecBlame3: what an error of the conversion to stage 3 points at

    Only the tree types of Ast2.v, [inside], [opener] and [closer] of SpecMaths3.v are used. *)
From Verif Require Import Base Ast1 Ast2 SpecDoc2 SpecMaths3 SpecClass3.

(** [blames low cs e]: the error [e] points at something in [cs]:
    - an unexpected end of maths at a command [\)] or [\\]],
    - unclosed maths at a command [\(] or [\\[], if a bracket is not closed,
    - unclosed maths at line 0 or at some command [\(] or [\\[], if a dollar is not closed,
    - anything of this inside a scope, an argument or an environment, where lines are counted anew,
    - or in what stands between dollars (a text without dollars, and chunks that are not texts), where line [lb] becomes line 1 ([low lb c c']: [c'] is [c] with the new number). *)
Inductive blames (low : N -> chunk2 -> chunk2 -> Prop) : list chunk2 -> error -> Prop :=
| bm_closer cs l t args : In (mkChunk2 l (Command2 (mkCommand2 [closer t] args))) cs -> blames low cs (mkError l UnexpectedMathsEnd)
| bm_opener cs l t args : In (mkChunk2 l (Command2 (mkCommand2 [opener t] args))) cs -> blames low cs (mkError l UnclosedMaths)
| bm_dollar cs l s k : In (mkChunk2 l (Text2 s)) cs -> In c_dollar s ->
    (k = 0 \/ exists t args, In (mkChunk2 k (Command2 (mkCommand2 [opener t] args))) cs) -> blames low cs (mkError k UnclosedMaths)
| bm_inside cs l v inner e : In (mkChunk2 l v) cs -> inside v inner -> blames low inner e -> blames low cs e
| bm_dollars cs lb content e : (exists l s, In (mkChunk2 l (Text2 s)) cs /\ In c_dollar s) ->
    (forall c', In c' content -> (exists l s, c' = mkChunk2 l (Text2 s) /\ ~ In c_dollar s) \/ (exists l v, In (mkChunk2 l v) cs /\ (forall s, v <> Text2 s) /\ low lb (mkChunk2 l v) c')) ->
    blames low content e -> blames low cs e.

(** a wrong [\documentclass] before the first [document] environment: one after another one that declares a class, or
    one with several classes ([curly_texts], SpecClass3.v, lists the classes of a command) *)
Inductive blames_class (d : list chunk2) : error -> Prop :=
| bc_double a l' args' b l args r x :
    d = a ++ mkChunk2 l' (Command2 (mkCommand2 (S! "documentclass") args')) :: b ++ mkChunk2 l (Command2 (mkCommand2 (S! "documentclass") args)) :: r ->
    Forall (fun c => ~ is_document c) (a ++ b) -> curly_texts args' = [x] -> blames_class d (mkError l DoubleDocumentClass)
| bc_many a l args r x y z :
    d = a ++ mkChunk2 l (Command2 (mkCommand2 (S! "documentclass") args)) :: r ->
    Forall (fun c => ~ is_document c) a -> curly_texts args = x :: y :: z -> blames_class d (mkError l TooManyArgsDocumentClass).

(** no line number of a command, scope or environment of [cs] is beyond [k], at any depth *)
Inductive lines_to (k : N) : list chunk2 -> Prop :=
| lt_intro cs : (forall l v, In (mkChunk2 l v) cs -> (forall s, v <> Text2 s) -> l <= k) ->
    (forall l v inner, In (mkChunk2 l v) cs -> inside v inner -> lines_to k inner) -> lines_to k cs.
