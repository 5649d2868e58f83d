(** * SpecBack2: vocabulary for the way back from stage 2 to stage 1 *)
From Verif Require Import Base Ast1 Parse1 Ast2 SpecDoc1 SpecDoc2 Spec2.

(** every environment label, at any depth, satisfies [P] *)
Definition every_label (P : str -> Prop) (d : list chunk2) : Prop :=
  forall cs l lab args body pb pe, within2 d cs ->
  In (mkChunk2 l (Environment2 (mkEnv2 lab args body pb pe))) cs -> P lab.
(** a label without special characters *)
Definition plain_label (lab : str) : Prop := existsb special lab = false /\ source_fits lab.

(** [restored d d']: [d'] is [d] with the line numbers of every [\begin] and of its
    matching [\end] increased by the number of newlines among the arguments of that
    [\begin] (at every depth). *)
Inductive restored : list chunk1 -> list chunk1 -> Prop :=
| rs_nil : restored [] []
| rs_text l s d d' : restored d d' ->
    restored (mkChunk1 l (Text1 s) :: d) (mkChunk1 l (Text1 s) :: d')
| rs_scope l cs cs' v d d' : restored cs cs' -> restored d d' ->
    restored (mkChunk1 l (Scope1 (mkScope1 cs v)) :: d) (mkChunk1 l (Scope1 (mkScope1 cs' v)) :: d')
| rs_cmd l lab args args' d d' : lab <> S! "begin" -> lab <> S! "end" ->
    restored_args args args' -> restored d d' ->
    restored (mkChunk1 l (Command1 (mkCommand1 lab args)) :: d)
             (mkChunk1 l (Command1 (mkCommand1 lab args')) :: d')
| rs_env l pb lab args args' body body' l' pe d d' k :
    k = count_newlines (pb ++ show1 lab ++ args_text args) ->
    restored_args args args' -> restored body body' -> restored d d' ->
    restored (begin_cmd l pb lab args :: body ++ end_cmd l' pe lab :: d)
             (begin_cmd (l + k) pb lab args' :: body' ++ end_cmd (l' + k) pe lab :: d')
with restored_args : list (str * scope1) -> list (str * scope1) -> Prop :=
| rs_no_args : restored_args [] []
| rs_arg pre cs cs' v args args' : restored cs cs' -> restored_args args args' ->
    restored_args ((pre, mkScope1 cs v) :: args) ((pre, mkScope1 cs' v) :: args').

(** No [\begin] has a newline among its arguments *)
Definition one_line_begins (d : list chunk1) : Prop :=
  forall cs l args, within1 d cs -> In (mkChunk1 l (Command1 (mkCommand1 (S! "begin") args))) cs ->
  ~ In c_newline (args_text args).
