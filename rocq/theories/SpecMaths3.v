(** * SpecMaths3: the stage-2 chunk lists in which maths is recognised without loss

    Only the tree types and Display of Ast2.v are used. *)
From Verif Require Import Base Ast1 Ast2 Ast3.

(** The chunks of a list, with the texts taken apart: characters, the edges at both ends of
    every text chunk, and the other chunks. *)
Inductive atom := Ch (c : char) | TextBegin | TextEnd | Other (v : variant2).
Definition atoms_chunk (c : chunk2) : list atom :=
  match c with
  | mkChunk2 _ (Text2 s) => TextBegin :: map Ch s ++ [TextEnd]
  | mkChunk2 _ v => [Other v]
  end.
Definition atoms (cs : list chunk2) : list atom := concat (map atoms_chunk cs).

(** The chunk lists directly inside a command, scope or environment *)
Inductive inside : variant2 -> list chunk2 -> Prop :=
| in_scope cs v : inside (Scope2 (mkScope2 cs v)) cs
| in_arg lab args pre cs v : In (pre, mkScope2 cs v) args -> inside (Command2 (mkCommand2 lab args)) cs
| in_env_arg lab args content pb pe pre cs v : In (pre, mkScope2 cs v) args ->
    inside (Environment2 (mkEnv2 lab args content pb pe)) cs
| in_env lab args content pb pe : inside (Environment2 (mkEnv2 lab args content pb pe)) content.

(** [\(], [\)] (inline) and [\\[], [\\]] (display) *)
Definition opener (t : maths_type) : char := match t with Inline => c_lround | Outline => c_lsquare end.
Definition closer (t : maths_type) : char := match t with Inline => c_rround | Outline => c_rsquare end.
Definition has_label (lab : str) (v : variant2) : Prop := exists args, v = Command2 (mkCommand2 lab args).
(** not one of the four bracket commands *)
Definition plain (v : variant2) : Prop :=
  forall t, ~ has_label [opener t] v /\ ~ has_label [closer t] v.

Definition is_edge (a : atom) : bool := match a with TextBegin | TextEnd => true | _ => false end.
Definition is_other (a : atom) : bool := match a with Other _ => true | _ => false end.
Definition others (A : list atom) : list atom := filter is_other A.
(** the atoms of a text chunk, if there is one *)
Definition text_atoms (p : str) : list atom :=
  match p with [] => [] | _ => TextBegin :: map Ch p ++ [TextEnd] end.

(** [tidy]: every maths block is of one of the forms
    - [\( body \)] or [\\[ body \\]] without arguments, no bracket command of the same kind
      directly in the body, and a tidy body;
    - [$ body $] with a non-empty body, or [$$ body $$] with the two last dollars adjacent,
      where the body is made of commands, scopes and environments and, only at the very
      end, of text; and the body is tidy. *)
Inductive tidy : list atom -> Prop :=
| td_nil : tidy []
| td_char c A : c <> c_dollar -> tidy A -> tidy (Ch c :: A)
| td_edge a A : is_edge a = true -> tidy A -> tidy (a :: A)
| td_other v A : plain v -> (forall cs, inside v cs -> tidy (atoms cs)) -> tidy A -> tidy (Other v :: A)
| td_brackets t body A :
    (forall l v, In (mkChunk2 l v) body -> ~ has_label [opener t] v /\ ~ has_label [closer t] v) ->
    tidy (atoms body) -> tidy A ->
    tidy (Other (Command2 (mkCommand2 [opener t] [])) :: atoms body ++
          Other (Command2 (mkCommand2 [closer t] [])) :: A)
| td_inline B p A :
    forallb (fun a => is_edge a || is_other a) B = true -> ~ In c_dollar p -> others B <> [] \/ p <> [] ->
    tidy (others B ++ text_atoms p) -> tidy A ->
    tidy (Ch c_dollar :: B ++ map Ch p ++ Ch c_dollar :: A)
| td_display e B p e' A :
    forallb is_edge e = true ->
    forallb (fun a => is_edge a || is_other a) B = true -> ~ In c_dollar p ->
    forallb is_edge e' = true -> e' = [] \/ p = [] ->
    tidy (others B ++ text_atoms p) -> tidy A ->
    tidy (Ch c_dollar :: e ++ Ch c_dollar :: B ++ map Ch p ++ Ch c_dollar :: e' ++ Ch c_dollar :: A).

(** [nesting t d body kept d']: reading [body] at depth [d] of brackets of kind [t] leads to
    depth [d'] without leaving the block; [kept] is [body] without the bracket commands of
    that kind. *)
Inductive nesting (t : maths_type) : N -> list chunk2 -> list chunk2 -> N -> Prop :=
| ne_nil d : nesting t d [] [] d
| ne_open d l v body kept d' : has_label [opener t] v -> nesting t (d + 1) body kept d' ->
    nesting t d (mkChunk2 l v :: body) kept d'
| ne_close d l v body kept d' : has_label [closer t] v -> 1 <= d -> nesting t d body kept d' ->
    nesting t (d + 1) (mkChunk2 l v :: body) kept d'
| ne_other d l v body kept d' : ~ has_label [opener t] v -> ~ has_label [closer t] v ->
    nesting t d body kept d' -> nesting t d (mkChunk2 l v :: body) (mkChunk2 l v :: kept) d'.
