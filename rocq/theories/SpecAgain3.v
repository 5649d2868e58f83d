(** * SpecAgain3: what becomes of a stage-3 document that goes down to stage 2 and up again

    Only the tree types of Ast3.v are used, and the notion of a paragraph break of SpecPar3.v. *)
From Verif Require Import Base Ast1 Ast2 Ast3 SpecMaths3 SpecDoc3 SpecPar3 SpecClass3.

(** a text or a paragraph break *)
Definition textual (c : chunk3) : bool :=
  match c with mkChunk3 _ (Text3 _) | mkChunk3 _ (ParagraphBreak3 _) => true | _ => false end.
(** the last element, if there is one *)
Definition last1 {A} (l : list A) : list A := match rev l with [] => [] | x :: _ => [x] end.

(** Everything keeps its place, except in dollar blocks: of the texts and paragraph breaks directly in a
    dollar block the last one becomes the end of its content, and the others move in front of the block. *)
Fixpoint moves_chunk (c : chunk3) : list chunk3 :=
  let args := map (fun a => match a with (pre, mkScope3 cs v) => (pre, mkScope3 (flat_map moves_chunk cs) v) end) in
  match c with
  | mkChunk3 l (Maths3 (mkMaths3 Dollars t content)) =>
      removelast (filter textual content) ++
      [mkChunk3 l (Maths3 (mkMaths3 Dollars t
         (flat_map (fun c => if textual c then [] else moves_chunk c) content ++ last1 (filter textual content))))]
  | mkChunk3 l (Maths3 (mkMaths3 Brackets t content)) => [mkChunk3 l (Maths3 (mkMaths3 Brackets t (flat_map moves_chunk content)))]
  | mkChunk3 l (Command3 (mkCommand3 lab a)) => [mkChunk3 l (Command3 (mkCommand3 lab (args a)))]
  | mkChunk3 l (Scope3 (mkScope3 cs v)) => [mkChunk3 l (Scope3 (mkScope3 (flat_map moves_chunk cs) v))]
  | mkChunk3 l (Environment3 (mkEnv3 lab a content pb pe)) =>
      [mkChunk3 l (Environment3 (mkEnv3 lab (args a) (flat_map moves_chunk content) pb pe))]
  | mkChunk3 l v => [mkChunk3 l v]
  end.
Definition moves (cs : list chunk3) : list chunk3 := flat_map moves_chunk cs.
Definition moves_args (args : list (str * scope3)) : list (str * scope3) :=
  map (fun a => match a with (pre, mkScope3 cs v) => (pre, mkScope3 (moves cs) v) end) args.

(** no text, paragraph break or dollar block, not even in bracket blocks *)
Fixpoint textless (c : chunk3) : bool :=
  match c with
  | mkChunk3 _ (Text3 _) | mkChunk3 _ (ParagraphBreak3 _) | mkChunk3 _ (Maths3 (mkMaths3 Dollars _ _)) => false
  | mkChunk3 _ (Maths3 (mkMaths3 Brackets _ content)) => forallb textless content
  | _ => true
  end.
Definition same_type (a b : maths_type) : bool := match a, b with Inline, Inline | Outline, Outline => true | _, _ => false end.
(** no bracket block of kind [t], not even in other maths blocks *)
Fixpoint without (t : maths_type) (c : chunk3) : bool :=
  match c with
  | mkChunk3 _ (Maths3 (mkMaths3 Brackets t' content)) => negb (same_type t t') && forallb (without t) content
  | mkChunk3 _ (Maths3 (mkMaths3 Dollars _ content)) => forallb (without t) content
  | _ => true
  end.

(** The chunks that maths recognition produces: texts are not empty and have no dollar and no paragraph
    break; no command is one of the four brackets; in a bracket block there is no bracket
    block of the same kind; a dollar block has texts and breaks only at the end of its content. *)
Inductive shaped : chunk3 -> Prop :=
| sh_text l s : s <> [] -> ~ In c_dollar s -> ~ has_break s -> shaped (mkChunk3 l (Text3 s))
| sh_break l b : is_break b -> shaped (mkChunk3 l (ParagraphBreak3 b))
| sh_command l lab args : (forall t, lab <> [opener t] /\ lab <> [closer t]) ->
    (forall pre cs v c, In (pre, mkScope3 cs v) args -> In c cs -> shaped c) ->
    shaped (mkChunk3 l (Command3 (mkCommand3 lab args)))
| sh_scope l cs v : (forall c, In c cs -> shaped c) -> shaped (mkChunk3 l (Scope3 (mkScope3 cs v)))
| sh_env l lab args content pb pe :
    (forall pre cs v c, In (pre, mkScope3 cs v) args -> In c cs -> shaped c) -> (forall c, In c content -> shaped c) ->
    shaped (mkChunk3 l (Environment3 (mkEnv3 lab args content pb pe)))
| sh_brackets l t content : forallb (without t) content = true -> (forall c, In c content -> shaped c) ->
    shaped (mkChunk3 l (Maths3 (mkMaths3 Brackets t content)))
| sh_dollars l t X T : forallb textless X = true -> forallb textual T = true -> (t = Inline -> X ++ T <> []) ->
    (forall c, In c (X ++ T) -> shaped c) -> shaped (mkChunk3 l (Maths3 (mkMaths3 Dollars t (X ++ T)))).

(** no [document] environment, not even in maths blocks *)
Fixpoint no_document (c : chunk3) : bool :=
  match c with
  | mkChunk3 _ (Environment3 (mkEnv3 lab _ _ _ _)) => negb (str_eqb lab (S! "document"))
  | mkChunk3 _ (Maths3 (mkMaths3 _ _ content)) => forallb no_document content
  | _ => true
  end.
(** No two of texts, paragraph breaks and dollar blocks stand next to each other, and the same in maths blocks. *)
Definition touches (c : chunk3) : bool :=
  textual c || match c with mkChunk3 _ (Maths3 (mkMaths3 Dollars _ _)) => true | _ => false end.
Fixpoint no_two {A} (f : A -> bool) (cs : list A) : bool :=
  match cs with a :: ((b :: _) as r) => negb (f a && f b) && no_two f r | _ => true end.
Fixpoint apart (c : chunk3) : bool :=
  match c with
  | mkChunk3 _ (Maths3 (mkMaths3 _ _ content)) => no_two touches content && forallb apart content
  | _ => true
  end.
Definition spaced (cs : list chunk3) : bool := no_two touches cs && forallb apart cs.

(** the arguments of the [\documentclass] commands of a list, those in maths blocks included *)
Fixpoint class_args (c : chunk3) : list (list (str * scope3)) :=
  match c with
  | mkChunk3 _ (Command3 (mkCommand3 lab args)) => if str_eqb lab (S! "documentclass") then [args] else []
  | mkChunk3 _ (Maths3 (mkMaths3 _ _ content)) => flat_map class_args content
  | _ => []
  end.
(** the texts of the curly arguments, and of the other ones *)
Fixpoint curly_texts3 (args : list (str * scope3)) : list str :=
  match args with
  | [] => []
  | (_, mkScope3 cs Curly3) :: r => show_chunks3 cs :: curly_texts3 r
  | _ :: r => curly_texts3 r
  end.
Fixpoint option_texts3 (args : list (str * scope3)) : list str :=
  match args with
  | [] => []
  | (_, mkScope3 cs Curly3) :: r => option_texts3 r
  | (_, mkScope3 cs _) :: r => show_chunks3 cs :: option_texts3 r
  end.
(** the class declared by these commands; [None] if the declarations are wrong *)
Fixpoint declared3 (cmds : list (list (str * scope3))) : option (option str) :=
  match cmds with
  | [] => Some None
  | args :: rest =>
      match curly_texts3 args with
      | [] => declared3 rest
      | [x] => match rest with [] => Some (Some x) | _ => None end
      | _ => None
      end
  end.
(** the class and the options a preamble declares *)
Definition declares (pre : list chunk3) (cls : option str) (opts : list option_entry) : Prop :=
  declared3 (flat_map class_args pre) = Some cls /\
  exists pss, Forall2 pieces (flat_map option_texts3 (flat_map class_args pre)) pss /\ Forall2 read_option (concat pss) opts.

(** a whole document *)
Definition shaped_document (d : document3) : Prop :=
  (forall c, In c (d_preamable d ++ d_body d ++ d_trailing d) -> shaped c) /\
  (forall pre cs v c, In (pre, mkScope3 cs v) (d_body_args d) -> In c cs -> shaped c) /\
  forallb no_document (d_preamable d) = true /\ forallb no_document (d_trailing d) = true.
Definition again (cls : option str) (opts : list option_entry) (d : document3) : document3 :=
  mkDoc3 cls opts (moves (d_preamable d)) (moves (d_body d)) (moves_args (d_body_args d)) (d_begin_prec d) (d_end_prec d) (moves (d_trailing d)).

(** every dollar block, wherever it stands, has at most one text or paragraph break directly in it *)
Fixpoint single (c : chunk3) : bool :=
  let args := forallb (fun a => match a with (_, mkScope3 cs _) => forallb single cs end) in
  match c with
  | mkChunk3 _ (Text3 _) | mkChunk3 _ (ParagraphBreak3 _) => true
  | mkChunk3 _ (Maths3 (mkMaths3 Dollars _ content)) => (length (filter textual content) <=? 1)%nat && forallb single content
  | mkChunk3 _ (Maths3 (mkMaths3 Brackets _ content)) => forallb single content
  | mkChunk3 _ (Command3 (mkCommand3 _ a)) => args a
  | mkChunk3 _ (Scope3 (mkScope3 cs _)) => forallb single cs
  | mkChunk3 _ (Environment3 (mkEnv3 _ a content _ _)) => args a && forallb single content
  end.
Definition single_document (d : document3) : bool :=
  forallb single (d_preamable d ++ d_body d ++ d_trailing d) &&
  forallb (fun a => match a with (_, mkScope3 cs _) => forallb single cs end) (d_body_args d).
