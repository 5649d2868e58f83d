(** * SpecClass3: document class and options, independently of the code

    Only the stage-2 tree types and Display are used. *)
From Verif Require Import Base Ast1 Parse1 Ast2 Ast3.

(** a [document] environment *)
Definition is_document (c : chunk2) : Prop :=
  exists l args content pb pe, c = mkChunk2 l (Environment2 (mkEnv2 (S! "document") args content pb pe)).
(** the chunks before the first document environment; everything if there is none *)
Definition preamble_of (d pr : list chunk2) : Prop :=
  Forall (fun c => ~ is_document c) pr /\ (d = pr \/ exists c post, is_document c /\ d = pr ++ c :: post).

(** the texts of the curly arguments, and of the other ones *)
Fixpoint curly_texts (args : list (str * scope2)) : list str :=
  match args with
  | [] => []
  | (_, mkScope2 cs Curly2) :: r => show2 cs :: curly_texts r
  | _ :: r => curly_texts r
  end.
Fixpoint option_texts (args : list (str * scope2)) : list str :=
  match args with
  | [] => []
  | (_, mkScope2 cs Curly2) :: r => option_texts r
  | (_, mkScope2 cs _) :: r => show2 cs :: option_texts r
  end.
(** the [\documentclass] commands of a list of chunks: line and arguments *)
Fixpoint class_commands (cs : list chunk2) : list (N * list (str * scope2)) :=
  match cs with
  | [] => []
  | mkChunk2 l (Command2 (mkCommand2 lab args)) :: r =>
      if str_eqb lab (S! "documentclass") then (l, args) :: class_commands r else class_commands r
  | _ :: r => class_commands r
  end.

(** the class declared by these commands, or the error *)
Fixpoint declared_class (cmds : list (N * list (str * scope2))) : error + option str :=
  match cmds with
  | [] => inr None
  | (l, args) :: rest =>
      match curly_texts args with
      | [] => declared_class rest
      | [x] => match rest with
               | [] => inr (Some x)
               | (l', _) :: _ => inl (mkError l' DoubleDocumentClass)
               end
      | _ => inl (mkError l TooManyArgsDocumentClass)
      end
  end.

(** comma-separated pieces *)
Fixpoint join_comma (ps : list str) : str :=
  match ps with [] => [] | [x] => x | x :: r => x ++ c_comma :: join_comma r end.
Definition pieces (text : str) (ps : list str) : Prop :=
  ps <> [] /\ join_comma ps = text /\ Forall (fun x => ~ In c_comma x) ps.

(** the text an option entry stands for *)
Definition render_option (o : option_entry) : str :=
  match o with
  | (prec, key, None, post) => prec ++ key ++ post
  | (prec, key, Some (eprec, epost, val), post) => prec ++ key ++ eprec ++ [c_equal] ++ epost ++ val ++ post
  end.
Definition blank (s : str) : Prop := forallb is_whitespace s = true.
(** empty, or not ending with a blank *)
Definition trimmed_end (s : str) : Prop := s = [] \/ exists a c, s = a ++ [c] /\ is_whitespace c = false.

(** What the code makes of one option: blanks alone are kept as [post]; otherwise the first
    non-blank character is lost, and if an equals sign follows, the value recorded is
    the key again (its blanks first), whatever stands behind the equals sign. *)
Inductive read_option : str -> option_entry -> Prop :=
| ro_blank w : blank w -> read_option w ([], [], None, w)
| ro_plain w c k post : blank w -> is_whitespace c = false -> trimmed_end k -> blank post -> ~ In c_equal k ->
    read_option (w ++ c :: k ++ post) (w, k, None, post)
| ro_valued w c a b v post : blank w -> is_whitespace c = false -> trimmed_end a -> blank b -> ~ In c_equal a ->
    trimmed_end (c_equal :: v) -> blank post ->
    read_option (w ++ c :: (a ++ b ++ c_equal :: v) ++ post)
      (w, a, Some (b, filter is_whitespace (a ++ b), filter (fun x => negb (is_whitespace x)) (a ++ b)), post).

(** the texts of all option arguments of these commands, in order *)
Definition all_options (cmds : list (N * list (str * scope2))) : list str :=
  flat_map (fun c => option_texts (snd c)) cmds.
