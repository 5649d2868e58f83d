(** * SpecLost: what the conversion to stage 3 may lose

    Characters are counted in what a document prints.  Only the tree types of Ast2.v and the vocabulary of SpecSeen.v are used. *)
From Verif Require Import Base Ast1 Ast2 SpecSeen.
From Coq Require Import List.

(** how often [x] occurs in [s] *)
Definition occurs (x : char) (s : str) : nat := count_occ N.eq_dec s x.

(** the five characters of [\(], [\)], [\\[] and [\\]] *)
Definition bracketing (x : char) : bool := existsb (N.eqb x) [c_bslash; c_lround; c_rround; c_lsquare; c_rsquare].

(** the four bracket commands have no arguments, wherever they stand *)
Fixpoint bare (c : chunk2) : bool :=
  let args := forallb (fun a => match a with (_, mkScope2 cs _) => forallb bare cs end) in
  match c with
  | mkChunk2 _ (Text2 s) => true
  | mkChunk2 _ (Command2 (mkCommand2 lab a)) => (if bracket lab then match a with [] => true | _ => false end else true) && args a
  | mkChunk2 _ (Scope2 (mkScope2 cs _)) => forallb bare cs
  | mkChunk2 _ (Environment2 (mkEnv2 _ a content _ _)) => args a && forallb bare content
  end.

(** none of the four bracket commands occurs, at any depth *)
Fixpoint bracketless (c : chunk2) : bool :=
  let args := forallb (fun a => match a with (_, mkScope2 cs _) => forallb bracketless cs end) in
  match c with
  | mkChunk2 _ (Text2 s) => true
  | mkChunk2 _ (Command2 (mkCommand2 lab a)) => negb (bracket lab) && args a
  | mkChunk2 _ (Scope2 (mkScope2 cs _)) => forallb bracketless cs
  | mkChunk2 _ (Environment2 (mkEnv2 _ a content _ _)) => args a && forallb bracketless content
  end.

(** an environment with the blanks of [\begin] at [\end] as well *)
Definition alike (e : environment2) : environment2 :=
  match e with mkEnv2 lab args content pb _ => mkEnv2 lab args content pb pb end.
(** what is printed of a document made of these parts: of several [document] environments the last one, an empty
    one if there is none; and the blanks of [\begin] at [\end] *)
Definition reprinted (pre : list chunk2) (envs : list environment2) (trail : list chunk2) : list chunk2 :=
  put_together pre (map alike envs) trail.
