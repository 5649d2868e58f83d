(** * SpecDepth: how deeply a document nests *)
From Verif Require Import Base Ast1 Ast2 Ast3.

(** the number of scopes and arguments the innermost chunk lies in *)
Fixpoint depth_chunk1 (c : chunk1) : nat :=
  match c with
  | mkChunk1 _ (Text1 _) => 0
  | mkChunk1 _ (Command1 c) => depth_command1 c
  | mkChunk1 _ (Scope1 sc) => depth_scope1 sc
  end
with depth_command1 (c : command1) : nat :=
  match c with mkCommand1 _ args => list_max (map (fun a => match a with (_, sc) => depth_scope1 sc end) args) end
with depth_scope1 (sc : scope1) : nat :=
  match sc with mkScope1 cs _ => S (list_max (map depth_chunk1 cs)) end.
Definition depth1 (d : list chunk1) : nat := list_max (map depth_chunk1 d).

(** the number of scopes, arguments and environments; an argument of an environment is not inside it *)
Fixpoint depth_chunk2 (c : chunk2) : nat :=
  match c with
  | mkChunk2 _ (Text2 _) => 0
  | mkChunk2 _ (Command2 c) => depth_command2 c
  | mkChunk2 _ (Scope2 sc) => depth_scope2 sc
  | mkChunk2 _ (Environment2 e) => depth_env2 e
  end
with depth_command2 (c : command2) : nat :=
  match c with mkCommand2 _ args => list_max (map (fun a => match a with (_, sc) => depth_scope2 sc end) args) end
with depth_scope2 (sc : scope2) : nat :=
  match sc with mkScope2 cs _ => S (list_max (map depth_chunk2 cs)) end
with depth_env2 (e : environment2) : nat :=
  match e with
  | mkEnv2 _ args content _ _ =>
      Nat.max (list_max (map (fun a => match a with (_, sc) => depth_scope2 sc end) args))
              (S (list_max (map depth_chunk2 content)))
  end.
Definition depth2 (d : list chunk2) : nat := list_max (map depth_chunk2 d).

(** the number of scopes, arguments, environments and maths blocks *)
Fixpoint depth_chunk3 (c : chunk3) : nat :=
  match c with
  | mkChunk3 _ (Text3 _) => 0
  | mkChunk3 _ (ParagraphBreak3 _) => 0
  | mkChunk3 _ (Maths3 m) => depth_maths3 m
  | mkChunk3 _ (Command3 c) => depth_command3 c
  | mkChunk3 _ (Scope3 sc) => depth_scope3 sc
  | mkChunk3 _ (Environment3 e) => depth_env3 e
  end
with depth_command3 (c : command3) : nat :=
  match c with mkCommand3 _ args => list_max (map (fun a => match a with (_, sc) => depth_scope3 sc end) args) end
with depth_scope3 (sc : scope3) : nat :=
  match sc with mkScope3 cs _ => S (list_max (map depth_chunk3 cs)) end
with depth_env3 (e : environment3) : nat :=
  match e with
  | mkEnv3 _ args content _ _ =>
      Nat.max (list_max (map (fun a => match a with (_, sc) => depth_scope3 sc end) args))
              (S (list_max (map depth_chunk3 content)))
  end
with depth_maths3 (m : maths3) : nat :=
  match m with mkMaths3 _ _ content => S (list_max (map depth_chunk3 content)) end.
Definition depth3 (d : list chunk3) : nat := list_max (map depth_chunk3 d).

(** the number of opening brackets of a source *)
Definition openings (s : str) : nat := length (filter is_opening s).

(** the number of scopes and arguments of a document, at any depth *)
Fixpoint scopes_chunk1 (c : chunk1) : nat :=
  match c with
  | mkChunk1 _ (Text1 _) => 0
  | mkChunk1 _ (Command1 c) => scopes_command1 c
  | mkChunk1 _ (Scope1 sc) => scopes_scope1 sc
  end
with scopes_command1 (c : command1) : nat :=
  match c with mkCommand1 _ args => list_sum (map (fun a => match a with (_, sc) => scopes_scope1 sc end) args) end
with scopes_scope1 (sc : scope1) : nat :=
  match sc with mkScope1 cs _ => S (list_sum (map scopes_chunk1 cs)) end.
Definition scopes1 (d : list chunk1) : nat := list_sum (map scopes_chunk1 d).
