(** * SpecRead3: what a stage-2 document is at stage 3

    The document class and its options are described in SpecClass3.v, the reading of a list of
    chunks in SpecReads.v. *)
From Verif Require Import Base Ast1 Ast2 Ast3 SpecMaths3 SpecPar3 SpecReads SpecClass3.

(** the [document] environments and the other chunks of a list, both in order *)
Inductive divided : list chunk2 -> list environment2 -> list chunk2 -> Prop :=
| dv_nil : divided [] [] []
| dv_document l args content pb pe cs envs rest : divided cs envs rest ->
    divided (mkChunk2 l (Environment2 (mkEnv2 (S! "document") args content pb pe)) :: cs)
            (mkEnv2 (S! "document") args content pb pe :: envs) rest
| dv_other c cs envs rest : ~ is_document c -> divided cs envs rest -> divided (c :: cs) envs (c :: rest).
(** [parts d pr envs trail]: [pr] comes before the first [document] environment, [trail] after it *)
Definition parts (d pr : list chunk2) (envs : list environment2) (trail : list chunk2) : Prop :=
  exists post, d = pr ++ post /\ Forall (fun c => ~ is_document c) pr /\
    (forall c r, post = c :: r -> is_document c) /\ divided post envs trail.

(** the [document] environments are read in order; the last one counts *)
Inductive reads_bodies : list environment2 -> result (option variant3) -> Prop :=
| rb_nil : reads_bodies [] (Good None)
| rb_cons e envs re r : reads_variant (Environment2 e) re -> reads_bodies envs r ->
    reads_bodies (e :: envs) (andthen (fun v last => match last with None => Some v | Some x => Some x end) re r).

Definition document_of (cls : option str) (opts : list option_entry) (body : option variant3) (pre trail : list chunk3) : document3 :=
  match body with
  | Some (Environment3 (mkEnv3 _ args content pb pe)) => mkDoc3 cls opts pre content args pb pe trail
  | _ => mkDoc3 cls opts pre [] [] [] [] trail
  end.

(** A wrong [\documentclass] counts before a failure in a [document] environment, that before one in
    the preamble, and that before one in the trailing part. *)
Inductive reads_document (d : list chunk2) : result document3 -> Prop :=
| rc_class pr envs trail e :
    parts d pr envs trail -> declared_class (class_commands pr) = inl e -> reads_document d (Bad e)
| rc_parts pr envs trail cls pss opts rb rp rt :
    parts d pr envs trail -> declared_class (class_commands pr) = inr cls ->
    Forall2 pieces (all_options (class_commands pr)) pss -> Forall2 read_option (concat pss) opts ->
    reads_bodies envs rb -> reads 0 pr rp -> reads 0 trail rt ->
    reads_document d
      (andthen (fun body f => f body) rb (andthen (fun pre trail body => document_of cls opts body pre trail) rp rt)).
