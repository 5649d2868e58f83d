(** * SpecUnnum: documents without their line numbers *)
From Verif Require Import Base Ast1 Parse1 Ast2 Ast3.

(** every line number is replaced by 0; only inside the labels of [\begin] and [\end] they stay: stage 2 compares
    these labels, line numbers included (src/ast2/document.rs:304) *)
Fixpoint unnumbered_chunk1 (c : chunk1) : chunk1 :=
  match c with mkChunk1 _ v => mkChunk1 0 (unnumbered_variant1 v) end
with unnumbered_variant1 (v : variant1) : variant1 :=
  match v with
  | Text1 s => Text1 s
  | Command1 c => Command1 (unnumbered_command1 c)
  | Scope1 sc => Scope1 (unnumbered_scope1 sc)
  end
with unnumbered_command1 (c : command1) : command1 :=
  match c with
  | mkCommand1 lab args =>
      mkCommand1 lab
        match args with
        | (pre, sc) :: rest =>
            (pre, if str_eqb lab (S! "begin") || str_eqb lab (S! "end") then sc else unnumbered_scope1 sc)
            :: map (fun a => match a with (pre, sc) => (pre, unnumbered_scope1 sc) end) rest
        | [] => []
        end
  end
with unnumbered_scope1 (sc : scope1) : scope1 :=
  match sc with mkScope1 cs v => mkScope1 (map unnumbered_chunk1 cs) v end.
Definition unnumbered1 (d : list chunk1) : list chunk1 := map unnumbered_chunk1 d.

(** every line number is replaced by 0, those of labels too *)
Fixpoint blank_chunk1 (c : chunk1) : chunk1 :=
  match c with mkChunk1 _ v => mkChunk1 0 (blank_variant1 v) end
with blank_variant1 (v : variant1) : variant1 :=
  match v with
  | Text1 s => Text1 s
  | Command1 c => Command1 (blank_command1 c)
  | Scope1 sc => Scope1 (blank_scope1 sc)
  end
with blank_command1 (c : command1) : command1 :=
  match c with mkCommand1 lab args => mkCommand1 lab (map (fun a => match a with (pre, sc) => (pre, blank_scope1 sc) end) args) end
with blank_scope1 (sc : scope1) : scope1 :=
  match sc with mkScope1 cs v => mkScope1 (map blank_chunk1 cs) v end.
Definition blank1 (d : list chunk1) : list chunk1 := map blank_chunk1 d.

Fixpoint unnumbered_chunk2 (c : chunk2) : chunk2 :=
  match c with mkChunk2 _ v => mkChunk2 0 (unnumbered_variant2 v) end
with unnumbered_variant2 (v : variant2) : variant2 :=
  match v with
  | Text2 s => Text2 s
  | Command2 c => Command2 (unnumbered_command2 c)
  | Scope2 sc => Scope2 (unnumbered_scope2 sc)
  | Environment2 e => Environment2 (unnumbered_env2 e)
  end
with unnumbered_command2 (c : command2) : command2 :=
  match c with mkCommand2 lab args => mkCommand2 lab (map (fun a => match a with (pre, sc) => (pre, unnumbered_scope2 sc) end) args) end
with unnumbered_scope2 (sc : scope2) : scope2 :=
  match sc with mkScope2 cs v => mkScope2 (map unnumbered_chunk2 cs) v end
with unnumbered_env2 (e : environment2) : environment2 :=
  match e with
  | mkEnv2 lab args content pb pe =>
      mkEnv2 lab (map (fun a => match a with (pre, sc) => (pre, unnumbered_scope2 sc) end) args) (map unnumbered_chunk2 content) pb pe
  end.
Definition unnumbered2 (d : list chunk2) : list chunk2 := map unnumbered_chunk2 d.

Fixpoint unnumbered_chunk3 (c : chunk3) : chunk3 :=
  match c with mkChunk3 _ v => mkChunk3 0 (unnumbered_variant3 v) end
with unnumbered_variant3 (v : variant3) : variant3 :=
  match v with
  | Text3 s => Text3 s
  | ParagraphBreak3 s => ParagraphBreak3 s
  | Maths3 m => Maths3 (unnumbered_maths3 m)
  | Command3 c => Command3 (unnumbered_command3 c)
  | Scope3 sc => Scope3 (unnumbered_scope3 sc)
  | Environment3 e => Environment3 (unnumbered_env3 e)
  end
with unnumbered_command3 (c : command3) : command3 :=
  match c with mkCommand3 lab args => mkCommand3 lab (map (fun a => match a with (pre, sc) => (pre, unnumbered_scope3 sc) end) args) end
with unnumbered_scope3 (sc : scope3) : scope3 :=
  match sc with mkScope3 cs v => mkScope3 (map unnumbered_chunk3 cs) v end
with unnumbered_env3 (e : environment3) : environment3 :=
  match e with
  | mkEnv3 lab args content pb pe =>
      mkEnv3 lab (map (fun a => match a with (pre, sc) => (pre, unnumbered_scope3 sc) end) args) (map unnumbered_chunk3 content) pb pe
  end
with unnumbered_maths3 (m : maths3) : maths3 :=
  match m with mkMaths3 v t content => mkMaths3 v t (map unnumbered_chunk3 content) end.
Definition unnumbered3 (d : list chunk3) : list chunk3 := map unnumbered_chunk3 d.
Definition unnumbered_document3 (d : document3) : document3 :=
  mkDoc3 (d_class d) (d_options d) (unnumbered3 (d_preamable d)) (unnumbered3 (d_body d))
    (map (fun a => match a with (pre, sc) => (pre, unnumbered_scope3 sc) end) (d_body_args d))
    (d_begin_prec d) (d_end_prec d) (unnumbered3 (d_trailing d)).

(** two outcomes of the same kind: results that agree without their line numbers, errors of the same type *)
Definition alike {A} (f : A -> A) (x y : outcome error A) : Prop :=
  match x, y with
  | Ok a, Ok b => f a = f b
  | Err e, Err e' => err_type e = err_type e'
  | Panic, Panic => True
  | OutOfFuel, OutOfFuel => True
  | _, _ => False
  end.
