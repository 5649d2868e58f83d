(** * SpecFault: which error validation reports

    Declarative, in the vocabulary of SpecDoc1.v, SpecDoc2.v and SpecDoc3.v: the first fault in
    depth-first reading order, labels before arguments, arguments before contents; in a document the line number
    of a chunk is checked before the chunk itself.  Nothing here refers to the validators. *)
From Verif Require Import Base Ast1 Ast2 Ast3 SpecDoc1 SpecDoc2 SpecDoc3.

(** [x] is the first special character of [s] *)
Definition first_special (s : str) (x : char) : Prop :=
  exists a b, s = a ++ x :: b /\ existsb special a = false /\ special x = true.

(** ** Stage 1 *)
(** no fault in these chunks, at any depth *)
Definition sound1 (d : list chunk1) : Prop := forall cs, within1 d cs -> Forall clean1 cs.
Definition sound_args1 (args : list (str * scope1)) : Prop :=
  forall pre inner v, In (pre, mkScope1 inner v) args -> sound1 inner.

Inductive fault1 : chunk1 -> internal_error -> Prop :=
| ft1_text l s x : first_special s x -> fault1 (mkChunk1 l (Text1 s)) (UnsanitisedCharInString x)
| ft1_label l lab args x :
    str_len lab <> 1 -> first_special lab x ->
    fault1 (mkChunk1 l (Command1 (mkCommand1 lab args))) (UnsanitisedCharInString x)
| ft1_arg l lab pre prec inner v post e :
    clean_label lab = true -> sound_args1 pre -> faults1 inner e ->
    fault1 (mkChunk1 l (Command1 (mkCommand1 lab (pre ++ (prec, mkScope1 inner v) :: post)))) e
| ft1_scope l inner v e : faults1 inner e -> fault1 (mkChunk1 l (Scope1 (mkScope1 inner v))) e
with faults1 : list chunk1 -> internal_error -> Prop :=
| fts1 pre c post e : sound1 pre -> fault1 c e -> faults1 (pre ++ c :: post) e.

(** a document *)
Inductive doc_fault1 : list chunk1 -> internal_error -> Prop :=
| df1_line pre c post L :
    lines_add_up1 pre -> sound1 pre -> L = 1 + count_newlines (show1 pre) -> line_no1 c <> L ->
    doc_fault1 (pre ++ c :: post) (IncorrectChunkLineNumber L (line_no1 c))
| df1_chunk pre c post e :
    lines_add_up1 (pre ++ [c]) -> sound1 pre -> fault1 c e -> doc_fault1 (pre ++ c :: post) e.

(** ** Stage 2 *)
Definition sound2 (d : list chunk2) : Prop := forall cs, within2 d cs -> Forall clean2 cs.
Definition sound_args2 (args : list (str * scope2)) : Prop :=
  forall pre inner v, In (pre, mkScope2 inner v) args -> sound2 inner.

Inductive fault2 : chunk2 -> internal_error -> Prop :=
| ft2_text l s x : first_special s x -> fault2 (mkChunk2 l (Text2 s)) (UnsanitisedCharInString x)
| ft2_begin l args : fault2 (mkChunk2 l (Command2 (mkCommand2 (S! "begin") args))) BeginCommand
| ft2_end l args : fault2 (mkChunk2 l (Command2 (mkCommand2 (S! "end") args))) EndCommand
| ft2_label l lab args x :
    str_len lab <> 1 -> first_special lab x ->
    fault2 (mkChunk2 l (Command2 (mkCommand2 lab args))) (UnsanitisedCharInString x)
| ft2_arg l lab args e :
    lab <> S! "begin" -> lab <> S! "end" -> clean_label lab = true -> arg_fault2 args e ->
    fault2 (mkChunk2 l (Command2 (mkCommand2 lab args))) e
| ft2_scope l inner v e : faults2 inner e -> fault2 (mkChunk2 l (Scope2 (mkScope2 inner v))) e
| ft2_env_label l lab args cs pb pe x :
    first_special lab x -> fault2 (mkChunk2 l (Environment2 (mkEnv2 lab args cs pb pe))) (UnsanitisedCharInString x)
| ft2_env_arg l lab args cs pb pe e :
    existsb special lab = false -> arg_fault2 args e ->
    fault2 (mkChunk2 l (Environment2 (mkEnv2 lab args cs pb pe))) e
| ft2_env_content l lab args cs pb pe e :
    existsb special lab = false -> sound_args2 args -> faults2 cs e ->
    fault2 (mkChunk2 l (Environment2 (mkEnv2 lab args cs pb pe))) e
with faults2 : list chunk2 -> internal_error -> Prop :=
| fts2 pre c post e : sound2 pre -> fault2 c e -> faults2 (pre ++ c :: post) e
with arg_fault2 : list (str * scope2) -> internal_error -> Prop :=
| fta2 pre prec inner v post e : sound_args2 pre -> faults2 inner e ->
    arg_fault2 (pre ++ (prec, mkScope2 inner v) :: post) e.

Inductive doc_fault2 : list chunk2 -> internal_error -> Prop :=
| df2_line pre c post L :
    lines_add_up2 pre -> sound2 pre -> L = 1 + count_newlines (show2 pre) -> line_no2 c <> L ->
    doc_fault2 (pre ++ c :: post) (IncorrectChunkLineNumber L (line_no2 c))
| df2_chunk pre c post e :
    lines_add_up2 (pre ++ [c]) -> sound2 pre -> fault2 c e -> doc_fault2 (pre ++ c :: post) e.

(** ** Stage 3 *)
Definition sound3 (d : list chunk3) : Prop := forall cs, within3 d cs -> Forall clean3 cs.
Definition sound_args3 (args : list (str * scope3)) : Prop :=
  forall pre inner v, In (pre, mkScope3 inner v) args -> sound3 inner.

Inductive fault3 : chunk3 -> internal_error -> Prop :=
| ft3_text l a x b :
    (* a special character, with neither fault before it *)
    existsb special a = false -> ~ has_break a -> special x = true ->
    fault3 (mkChunk3 l (Text3 (a ++ x :: b))) (UnsanitisedCharInString x)
| ft3_text_break l a b :
    (* the newline that completes a paragraph break *)
    existsb special a = false -> ~ has_break a -> has_break (a ++ [c_newline]) ->
    fault3 (mkChunk3 l (Text3 (a ++ c_newline :: b))) UnbrokenParagraph
| ft3_break_text l s :
    forallb is_whitespace s = false -> fault3 (mkChunk3 l (ParagraphBreak3 s)) ParagraghBreakNonwhitespace
| ft3_break_short l s :
    forallb is_whitespace s = true -> count_newlines s < 2 -> fault3 (mkChunk3 l (ParagraphBreak3 s)) ParagraphBreakTooShort
| ft3_begin l args : fault3 (mkChunk3 l (Command3 (mkCommand3 (S! "begin") args))) BeginCommand
| ft3_end l args : fault3 (mkChunk3 l (Command3 (mkCommand3 (S! "end") args))) EndCommand
| ft3_label l lab args x :
    str_len lab <> 1 -> first_special lab x ->
    fault3 (mkChunk3 l (Command3 (mkCommand3 lab args))) (UnsanitisedCharInString x)
| ft3_arg l lab args e :
    lab <> S! "begin" -> lab <> S! "end" -> clean_label lab = true -> arg_fault3 args e ->
    fault3 (mkChunk3 l (Command3 (mkCommand3 lab args))) e
| ft3_scope l inner v e : faults3 inner e -> fault3 (mkChunk3 l (Scope3 (mkScope3 inner v))) e
| ft3_maths l v t inner e : faults3 inner e -> fault3 (mkChunk3 l (Maths3 (mkMaths3 v t inner))) e
| ft3_env_label l lab args cs pb pe x :
    first_special lab x -> fault3 (mkChunk3 l (Environment3 (mkEnv3 lab args cs pb pe))) (UnsanitisedCharInString x)
| ft3_env_arg l lab args cs pb pe e :
    existsb special lab = false -> arg_fault3 args e ->
    fault3 (mkChunk3 l (Environment3 (mkEnv3 lab args cs pb pe))) e
| ft3_env_content l lab args cs pb pe e :
    existsb special lab = false -> sound_args3 args -> faults3 cs e ->
    fault3 (mkChunk3 l (Environment3 (mkEnv3 lab args cs pb pe))) e
with faults3 : list chunk3 -> internal_error -> Prop :=
| fts3 pre c post e : sound3 pre -> fault3 c e -> faults3 (pre ++ c :: post) e
with arg_fault3 : list (str * scope3) -> internal_error -> Prop :=
| fta3 pre prec inner v post e : sound_args3 pre -> faults3 inner e ->
    arg_fault3 (pre ++ (prec, mkScope3 inner v) :: post) e.

(** one section of a document *)
Inductive section_fault3 : list chunk3 -> internal_error -> Prop :=
| df3_line pre c post L :
    lines_add_up3 pre -> sound3 pre -> L = 1 + count_newlines (show_chunks3 pre) -> line_no3 c <> L ->
    section_fault3 (pre ++ c :: post) (IncorrectChunkLineNumber L (line_no3 c))
| df3_chunk pre c post e :
    lines_add_up3 (pre ++ [c]) -> sound3 pre -> fault3 c e -> section_fault3 (pre ++ c :: post) e.
(** the sections are checked in the order preamble, body, trailing *)
Definition doc_fault3 (d : document3) (e : internal_error) : Prop :=
  section_fault3 (d_preamable d) e \/
  (well_formed_vec3 (d_preamable d) /\ section_fault3 (d_body d) e) \/
  (well_formed_vec3 (d_preamable d) /\ well_formed_vec3 (d_body d) /\ section_fault3 (d_trailing d) e).
