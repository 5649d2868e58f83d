(** * SpecRename: replacing characters everywhere in a tree

    Only the characters of Base.v and the tree types are used. *)
From Verif Require Import Base Ast1 Ast2 Ast3.

(** ** the same tree with every character [c] of its strings replaced by [f c]; brackets, which are not
    stored as characters, and line numbers are kept *)
Section Rename.
  Variable f : char -> char.
  Fixpoint rename_chunk1 (c : chunk1) : chunk1 :=
    match c with mkChunk1 l v => mkChunk1 l (rename_variant1 v) end
  with rename_variant1 (v : variant1) : variant1 :=
    match v with
    | Text1 s => Text1 (map f s)
    | Command1 c => Command1 (rename_command1 c)
    | Scope1 sc => Scope1 (rename_scope1 sc)
    end
  with rename_command1 (c : command1) : command1 :=
    match c with mkCommand1 lab args => mkCommand1 (map f lab) (map (fun a => match a with (pre, sc) => (map f pre, rename_scope1 sc) end) args) end
  with rename_scope1 (sc : scope1) : scope1 :=
    match sc with mkScope1 cs v => mkScope1 (map rename_chunk1 cs) v end.
  Definition rename1 (d : document1) : document1 := map rename_chunk1 d.
  Definition rename_args1 (args : list (str * scope1)) : list (str * scope1) :=
    map (fun a => match a with (pre, sc) => (map f pre, rename_scope1 sc) end) args.

  Fixpoint rename_chunk2 (c : chunk2) : chunk2 :=
    match c with mkChunk2 l v => mkChunk2 l (rename_variant2 v) end
  with rename_variant2 (v : variant2) : variant2 :=
    match v with
    | Text2 s => Text2 (map f s)
    | Command2 c => Command2 (rename_command2 c)
    | Scope2 sc => Scope2 (rename_scope2 sc)
    | Environment2 e => Environment2 (rename_env2 e)
    end
  with rename_command2 (c : command2) : command2 :=
    match c with mkCommand2 lab args => mkCommand2 (map f lab) (map (fun a => match a with (pre, sc) => (map f pre, rename_scope2 sc) end) args) end
  with rename_scope2 (sc : scope2) : scope2 :=
    match sc with mkScope2 cs v => mkScope2 (map rename_chunk2 cs) v end
  with rename_env2 (e : environment2) : environment2 :=
    match e with mkEnv2 lab args content pb pe =>
      mkEnv2 (map f lab) (map (fun a => match a with (pre, sc) => (map f pre, rename_scope2 sc) end) args)
        (map rename_chunk2 content) (map f pb) (map f pe) end.
  Definition rename2 (d : document2) : document2 := map rename_chunk2 d.
  Definition rename_args2 (args : list (str * scope2)) : list (str * scope2) :=
    map (fun a => match a with (pre, sc) => (map f pre, rename_scope2 sc) end) args.

  Fixpoint rename_chunk3 (c : chunk3) : chunk3 :=
    match c with mkChunk3 l v => mkChunk3 l (rename_variant3 v) end
  with rename_variant3 (v : variant3) : variant3 :=
    match v with
    | Text3 s => Text3 (map f s)
    | ParagraphBreak3 s => ParagraphBreak3 (map f s)
    | Maths3 m => Maths3 (rename_maths3 m)
    | Command3 c => Command3 (rename_command3 c)
    | Scope3 sc => Scope3 (rename_scope3 sc)
    | Environment3 e => Environment3 (rename_env3 e)
    end
  with rename_maths3 (m : maths3) : maths3 :=
    match m with mkMaths3 v t cs => mkMaths3 v t (map rename_chunk3 cs) end
  with rename_command3 (c : command3) : command3 :=
    match c with mkCommand3 lab args => mkCommand3 (map f lab) (map (fun a => match a with (pre, sc) => (map f pre, rename_scope3 sc) end) args) end
  with rename_scope3 (sc : scope3) : scope3 :=
    match sc with mkScope3 cs v => mkScope3 (map rename_chunk3 cs) v end
  with rename_env3 (e : environment3) : environment3 :=
    match e with mkEnv3 lab args content pb pe =>
      mkEnv3 (map f lab) (map (fun a => match a with (pre, sc) => (map f pre, rename_scope3 sc) end) args)
        (map rename_chunk3 content) (map f pb) (map f pe) end.
  Definition rename_chunks3 (cs : list chunk3) : list chunk3 := map rename_chunk3 cs.
  Definition rename_args3 (args : list (str * scope3)) : list (str * scope3) :=
    map (fun a => match a with (pre, sc) => (map f pre, rename_scope3 sc) end) args.
  Definition rename_option (o : option_entry) : option_entry :=
    match o with
    | (prec, key, None, post) => (map f prec, map f key, None, map f post)
    | (prec, key, Some (eprec, epost, val), post) => (map f prec, map f key, Some (map f eprec, map f epost, map f val), map f post)
    end.
  Definition rename3 (d : document3) : document3 :=
    mkDoc3 (option_map (map f) (d_class d)) (map rename_option (d_options d)) (rename_chunks3 (d_preamable d))
      (rename_chunks3 (d_body d)) (rename_args3 (d_body_args d)) (map f (d_begin_prec d)) (map f (d_end_prec d))
      (rename_chunks3 (d_trailing d)).

  (** the labels in error messages *)
  Definition rename_error (e : error) : error :=
    mkError (err_line e) (match err_type e with
      | UnexpectedEnd s => UnexpectedEnd (map f s)
      | UnclosedEnvironment s => UnclosedEnvironment (map f s)
      | t => t
      end).
  Definition rename_outcome {A} (g : A -> A) (o : outcome error A) : outcome error A :=
    match o with Ok a => Ok (g a) | Err e => Err (rename_error e) | Panic => Panic | OutOfFuel => OutOfFuel end.
End Rename.

(** ** [f] keeps the classes of characters that stage 1 distinguishes: blanks, letters, and each of newline,
    percent, backslash and the six brackets *)
Definition marks : str := [c_newline; c_percent; c_bslash; c_lcurly; c_rcurly; c_lsquare; c_rsquare; c_lround; c_rround].
Definition respects (f : char -> char) : Prop := forall c,
  is_whitespace (f c) = is_whitespace c /\ is_ascii_alphabetic (f c) = is_ascii_alphabetic c /\
  (In c marks \/ In (f c) marks -> f c = c).
(** [f] exchanges characters outside ASCII; a blank stays a blank.  [g] undoes it. *)
Definition renaming (f g : char -> char) : Prop :=
  (forall c, g (f c) = c) /\ (forall c, f (g c) = c) /\
  (forall c, c < 128 -> f c = c) /\ (forall c, is_whitespace (f c) = is_whitespace c).
