(** * SpecSize: how many nodes a document has *)
From Verif Require Import Base Ast1 Ast2 Ast3.

(** the chunks and the arguments, at any depth *)
Fixpoint nodes_chunk1 (c : chunk1) : nat :=
  match c with
  | mkChunk1 _ (Text1 _) => 1
  | mkChunk1 _ (Command1 c) => S (nodes_command1 c)
  | mkChunk1 _ (Scope1 sc) => nodes_scope1 sc
  end
with nodes_command1 (c : command1) : nat :=
  match c with mkCommand1 _ args => list_sum (map (fun a => match a with (_, sc) => nodes_scope1 sc end) args) end
with nodes_scope1 (sc : scope1) : nat :=
  match sc with mkScope1 cs _ => S (list_sum (map nodes_chunk1 cs)) end.
Definition nodes1 (d : list chunk1) : nat := list_sum (map nodes_chunk1 d).

Fixpoint nodes_chunk2 (c : chunk2) : nat :=
  match c with
  | mkChunk2 _ (Text2 _) => 1
  | mkChunk2 _ (Command2 c) => S (nodes_command2 c)
  | mkChunk2 _ (Scope2 sc) => nodes_scope2 sc
  | mkChunk2 _ (Environment2 e) => S (nodes_env2 e)
  end
with nodes_command2 (c : command2) : nat :=
  match c with mkCommand2 _ args => list_sum (map (fun a => match a with (_, sc) => nodes_scope2 sc end) args) end
with nodes_scope2 (sc : scope2) : nat :=
  match sc with mkScope2 cs _ => S (list_sum (map nodes_chunk2 cs)) end
with nodes_env2 (e : environment2) : nat :=
  match e with
  | mkEnv2 _ args content _ _ =>
      list_sum (map (fun a => match a with (_, sc) => nodes_scope2 sc end) args) + list_sum (map nodes_chunk2 content)
  end.
Definition nodes2 (d : list chunk2) : nat := list_sum (map nodes_chunk2 d).

Fixpoint nodes_chunk3 (c : chunk3) : nat :=
  match c with
  | mkChunk3 _ (Text3 _) => 1
  | mkChunk3 _ (ParagraphBreak3 _) => 1
  | mkChunk3 _ (Maths3 m) => S (nodes_maths3 m)
  | mkChunk3 _ (Command3 c) => S (nodes_command3 c)
  | mkChunk3 _ (Scope3 sc) => nodes_scope3 sc
  | mkChunk3 _ (Environment3 e) => S (nodes_env3 e)
  end
with nodes_command3 (c : command3) : nat :=
  match c with mkCommand3 _ args => list_sum (map (fun a => match a with (_, sc) => nodes_scope3 sc end) args) end
with nodes_scope3 (sc : scope3) : nat :=
  match sc with mkScope3 cs _ => S (list_sum (map nodes_chunk3 cs)) end
with nodes_env3 (e : environment3) : nat :=
  match e with
  | mkEnv3 _ args content _ _ =>
      list_sum (map (fun a => match a with (_, sc) => nodes_scope3 sc end) args) + list_sum (map nodes_chunk3 content)
  end
with nodes_maths3 (m : maths3) : nat :=
  match m with mkMaths3 _ _ content => list_sum (map nodes_chunk3 content) end.
Definition nodes3 (d : list chunk3) : nat := list_sum (map nodes_chunk3 d).
(** the nodes of the three parts and of the arguments of the [document] environment *)
Definition document_nodes3 (d : document3) : nat :=
  nodes3 (d_preamable d) + nodes3 (d_body d) + nodes3 (d_trailing d) +
  list_sum (map (fun a => match a with (_, sc) => nodes_scope3 sc end) (d_body_args d)).
