(** * SpecBuild: documents built by pushing (C69)

    Specification only. [joinN d]: neighbouring texts of [d] are put together, under the line of the first.
    [numberedN L vs]: the chunks made of [vs], the first on line [L], each on the line on which the previous one ends. *)
From Verif Require Import Base Ast1 Ast2 Ast3.

Fixpoint join1 (d : list chunk1) : list chunk1 :=
  match d with
  | [] => []
  | mkChunk1 l (Text1 s) :: rest =>
      match join1 rest with
      | mkChunk1 _ (Text1 t) :: rest' => mkChunk1 l (Text1 (s ++ t)) :: rest'
      | other => mkChunk1 l (Text1 s) :: other
      end
  | c :: rest => c :: join1 rest
  end.
Fixpoint numbered1 (L : N) (vs : list variant1) : list chunk1 :=
  match vs with
  | [] => []
  | v :: vs' => mkChunk1 L v :: numbered1 (L + count_newlines (show_variant1 v)) vs'
  end.

Fixpoint join2 (d : list chunk2) : list chunk2 :=
  match d with
  | [] => []
  | mkChunk2 l (Text2 s) :: rest =>
      match join2 rest with
      | mkChunk2 _ (Text2 t) :: rest' => mkChunk2 l (Text2 (s ++ t)) :: rest'
      | other => mkChunk2 l (Text2 s) :: other
      end
  | c :: rest => c :: join2 rest
  end.
Fixpoint numbered2 (L : N) (vs : list variant2) : list chunk2 :=
  match vs with
  | [] => []
  | v :: vs' => mkChunk2 L v :: numbered2 (L + count_newlines (show_variant2 v)) vs'
  end.

Fixpoint join3 (d : list chunk3) : list chunk3 :=
  match d with
  | [] => []
  | mkChunk3 l (Text3 s) :: rest =>
      match join3 rest with
      | mkChunk3 _ (Text3 t) :: rest' => mkChunk3 l (Text3 (s ++ t)) :: rest'
      | other => mkChunk3 l (Text3 s) :: other
      end
  | c :: rest => c :: join3 rest
  end.
Fixpoint numbered3 (L : N) (vs : list variant3) : list chunk3 :=
  match vs with
  | [] => []
  | v :: vs' => mkChunk3 L v :: numbered3 (L + count_newlines (show_variant3 v)) vs'
  end.
