(** * SpecAgain: a stage-2 document after one more way down to stage 1 and up again *)
From Verif Require Import Base Ast1 Parse1 Ast2 Spec1 SpecDoc1 SpecDoc2.

(** the newlines between the backslash of a [\begin] and the body of its environment *)
Definition begin_newlines (lab : str) (args : list (str * scope2)) (pb : str) : N :=
  count_newlines (pb ++ lab ++ show_args2 args).

(** the difference of two numbers below 2^32, as the machine computes it without overflow checks *)
Definition minus32 (a b : N) : N := (a + two32 - b) mod two32.

(** Every environment moves down by its own [begin_newlines]; what is directly in its body moves up by that number.
    Nothing else changes. *)
Fixpoint again_chunk (up : N) (c : chunk2) : chunk2 :=
  match c with
  | mkChunk2 l (Text2 s) => mkChunk2 (minus32 l up) (Text2 s)
  | mkChunk2 l (Command2 c) => mkChunk2 (minus32 l up) (Command2 (again_command c))
  | mkChunk2 l (Scope2 sc) => mkChunk2 (minus32 l up) (Scope2 (again_scope sc))
  | mkChunk2 l (Environment2 (mkEnv2 lab args content pb pe)) =>
      mkChunk2 ((minus32 l up + begin_newlines lab args pb) mod two32)
        (Environment2 (mkEnv2 lab (map (fun a => match a with (pre, sc) => (pre, again_scope sc) end) args)
                         (map (again_chunk (begin_newlines lab args pb)) content) pb pe))
  end
with again_command (c : command2) : command2 :=
  match c with mkCommand2 lab args => mkCommand2 lab (map (fun a => match a with (pre, sc) => (pre, again_scope sc) end) args) end
with again_scope (sc : scope2) : scope2 :=
  match sc with mkScope2 cs v => mkScope2 (map (again_chunk 0) cs) v end.
Definition again2 (d : list chunk2) : list chunk2 := map (again_chunk 0) d.

(** there is room to move up: in every environment, at any depth, the body is below that many lines *)
Definition roomy (d : list chunk2) : Prop :=
  forall cs l lab args content pb pe, within2 d cs ->
  In (mkChunk2 l (Environment2 (mkEnv2 lab args content pb pe))) cs ->
  Forall (fun c => begin_newlines lab args pb < line_no2 c) content.

(** no environment, at any depth, has a newline among its arguments *)
Definition one_line_environments (d : list chunk2) : Prop :=
  forall cs l lab args content pb pe, within2 d cs ->
  In (mkChunk2 l (Environment2 (mkEnv2 lab args content pb pe))) cs -> begin_newlines lab args pb = 0.
