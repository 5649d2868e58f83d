(** * SpecInside: a source written into an environment *)
From Verif Require Import Base Ast1 Parse1 Ast2 Ast3 SpecDoc1 SpecCanon1 SpecConcat Spec2 SpecClass3.

(** the last two chunks are not a control word and blanks with a newline (at the end of a source these are given the line the source
    ends on, not the one they begin on) *)
Definition ends_plainly (d : list chunk1) : Prop :=
  forall d0 w l t, d = d0 ++ [w; mkChunk1 l (Text1 t)] -> forallb is_whitespace t = true -> count_newlines t <> 0 -> is_word1 w = false.
(** [b] is a [\begin] with its arguments and [t] an [\end], and with nothing between them they are the environment [env] on line [l] *)
Definition environment_frame (b t : str) (l : N) (env : environment2) : Prop :=
  clean_end b /\ from_str2 Debug (b ++ t) = Ok [mkChunk2 l (Environment2 env)] /\
  exists lb pb lab args le pe, from_str1 Debug b = Ok [begin_cmd lb pb lab args] /\ from_str1 Debug t = Ok [end_cmd le pe lab].
(** [s] can stand there: no comment or escape is open at its end, it is not one more argument of [\begin], and it does not end with a
    control word and blanks over several lines *)
Definition insertable (s : str) : Prop :=
  clean_end s /\ exists d, from_str1 Debug s = Ok d /\ after_word true d = true /\ ends_plainly d.
Definition with_content (env : environment2) (content : list chunk2) : environment2 :=
  match env with mkEnv2 lab args _ pb pe => mkEnv2 lab args content pb pe end.
(** nothing in the list is a document environment *)
Definition fragment (cs : list chunk2) : Prop := Forall (fun c => ~ is_document c) cs.
(** the name of an environment between its brackets: not empty, no character that means something *)
Definition plain_name (e : str) : Prop := e <> [] /\ existsb special e = false.
(** one environment around a source, and several, the first one outermost *)
Record frame := mkFrame { f_begin : str; f_end : str; f_line : N; f_env : environment2 }.
Definition good_frame (f : frame) : Prop := environment_frame (f_begin f) (f_end f) (f_line f) (f_env f) /\ clean_end (f_end f).
Definition wrap (fs : list frame) (s : str) : str := fold_right (fun f s => f_begin f ++ s ++ f_end f) s fs.
Definition wrapped (fs : list frame) (content : list chunk2) : list chunk2 :=
  fold_right (fun f content => [mkChunk2 (f_line f) (Environment2 (with_content (f_env f) content))]) content fs.
(** at stage 3: [cs'] is [cs] in the environments that the frames are by themselves *)
Inductive around (p : profile) : list frame -> list chunk3 -> list chunk3 -> Prop :=
| ar_nil cs : around p [] cs cs
| ar_cons f fs cs cs' x0 l lab args pb pe :
    around p fs cs cs' ->
    from_str3 p (f_begin f ++ f_end f) = Ok x0 -> d_preamable x0 = [mkChunk3 l (Environment3 (mkEnv3 lab args [] pb pe))] ->
    around p (f :: fs) cs [mkChunk3 l (Environment3 (mkEnv3 lab args cs' pb pe))].
(** the frame is not that of a document and can be read at stage 3 *)
Definition other_frame (p : profile) (f : frame) : Prop := env_label2 (f_env f) <> S! "document" /\ exists x0, from_str3 p (f_begin f ++ f_end f) = Ok x0.
