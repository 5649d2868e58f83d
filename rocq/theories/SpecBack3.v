(** * SpecBack3: from stage 3 back to stage 2, independently of the code *)
From Verif Require Import Base Ast1 Parse1 Ast2 Ast3 SpecDoc3.

(** a chunk list somewhere in the document *)
Definition part_of (d : document3) (cs : list chunk3) : Prop :=
  within3 (d_preamable d) cs \/ within3 (d_body d) cs \/ within3 (d_trailing d) cs \/
  exists pre inner v, In (pre, mkScope3 inner v) (d_body_args d) /\ within3 inner cs.
(** every maths block has a line number of at least one *)
Definition maths_numbered (d : document3) : Prop :=
  forall cs l m, part_of d cs -> In (mkChunk3 l (Maths3 m)) cs -> 1 <= l.

(** all line numbers of a chunk and everything inside it, added up *)
Fixpoint line_sum (c : chunk3) : N :=
  match c with mkChunk3 l v => l + line_sum_variant v end
with line_sum_variant (v : variant3) : N :=
  match v with
  | Text3 _ | ParagraphBreak3 _ => 0
  | Command3 (mkCommand3 _ args) =>
      fold_right N.add 0 (map (fun a => match a with (_, sc) => line_sum_scope sc end) args)
  | Scope3 sc => line_sum_scope sc
  | Environment3 (mkEnv3 _ args content _ _) =>
      fold_right N.add 0 (map (fun a => match a with (_, sc) => line_sum_scope sc end) args)
      + fold_right N.add 0 (map line_sum content)
  | Maths3 (mkMaths3 _ _ content) => fold_right N.add 0 (map line_sum content)
  end
with line_sum_scope (s : scope3) : N :=
  match s with mkScope3 cs _ => fold_right N.add 0 (map line_sum cs) end.
Definition line_sum_doc (d : document3) : N :=
  fold_right N.add 0 (map line_sum (d_preamable d ++ d_body d ++ d_trailing d))
  + fold_right N.add 0 (map (fun a => line_sum_scope (snd a)) (d_body_args d)).

(** the text of the preamble and the document environment, of the whole document, as stage 2
    prints them: [\end] with its own blanks *)
Definition upto_end (d : document3) : str :=
  show_chunks3 (d_preamable d) ++
  show_env3 (mkEnv3 (S! "document") (d_body_args d) (d_body d) (d_begin_prec d) (d_end_prec d)).
Definition full_text (d : document3) : str := upto_end d ++ show_chunks3 (d_trailing d).
