(** * SpecSeen: a stage-2 document as a reader sees it

    The tree of a list of stage-2 chunks without line numbers, and with every text taken apart into its
    characters: where one text chunk ends and the next one begins cannot be seen.  Everything else can: labels,
    arguments with the blanks before them, kinds of brackets, nesting, the blanks of environments.
    Only the tree types of Ast2.v are used. *)
From Verif Require Import Base Ast1 Ast2.

Inductive token :=
| Letter (c : char)
| Com (label : str) (args : list (str * sv2 * list token))
| Sco (v : sv2) (content : list token)
| Env (label : str) (args : list (str * sv2 * list token)) (content : list token) (before_begin before_end : str).

Fixpoint seen_chunk (c : chunk2) : list token :=
  let seen_args := map (fun a => match a with (pre, mkScope2 cs v) => (pre, v, flat_map seen_chunk cs) end) in
  match c with
  | mkChunk2 _ (Text2 s) => map Letter s
  | mkChunk2 _ (Command2 (mkCommand2 lab args)) => [Com lab (seen_args args)]
  | mkChunk2 _ (Scope2 (mkScope2 cs v)) => [Sco v (flat_map seen_chunk cs)]
  | mkChunk2 _ (Environment2 (mkEnv2 lab args content pb pe)) => [Env lab (seen_args args) (flat_map seen_chunk content) pb pe]
  end.
Definition seen (cs : list chunk2) : list token := flat_map seen_chunk cs.

(** no dollar in the texts, and no command is one of the four brackets [\(], [\)], [\\[], [\\]], wherever they stand *)
Definition bracket (lab : str) : bool :=
  match lab with [c] => (c =? c_lround) || (c =? c_rround) || (c =? c_lsquare) || (c =? c_rsquare) | _ => false end.
Fixpoint mathless (c : chunk2) : bool :=
  let args := forallb (fun a => match a with (_, mkScope2 cs _) => forallb mathless cs end) in
  match c with
  | mkChunk2 _ (Text2 s) => negb (existsb (N.eqb c_dollar) s)
  | mkChunk2 _ (Command2 (mkCommand2 lab a)) => negb (bracket lab) && args a
  | mkChunk2 _ (Scope2 (mkScope2 cs _)) => forallb mathless cs
  | mkChunk2 _ (Environment2 (mkEnv2 _ a content _ _)) => args a && forallb mathless content
  end.

(** a document put together from what comes before the first [document] environment, these environments, of which
    the last one counts (an empty one if there is none), and everything else *)
Definition put_together (pre : list chunk2) (envs : list environment2) (trail : list chunk2) : list chunk2 :=
  pre ++ mkChunk2 1 (Environment2 (last envs (mkEnv2 (S! "document") [] [] [] []))) :: trail.
