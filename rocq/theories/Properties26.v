(** * Properties26: conversion to stage 3 further down in a file (C72) *)
From Verif Require Import Base Ast1 Parse1 Ast2 Ast3 ModelTests1 SpecDoc1 SpecMaths3 SpecReads SpecClass3 SpecWrap SpecCanon1 SpecBelow3 Reads ReadsW Below3 Below3d Concat1 SpecConcat.
From Coq Require Import Lia.

(** ** C72: what stands further down is converted in the same way, with the lines moved *)
Theorem C72_lists : forall k p cs, in_range (map (below2 k) cs) -> u32_lines (map (below2 k) cs) -> (forall c, In c cs -> 1 <= line_no2 c) ->
  match maths_from_chunks p cs with
  | Ok out => maths_from_chunks p (map (below2 k) cs) = Ok (map (below3 k) out)
  | Err e => exists e', maths_from_chunks p (map (below2 k) cs) = Err e' /\ err_type e' = err_type e /\ (err_line e' = err_line e \/ err_line e' = err_line e + k)
  | Panic => maths_from_chunks p (map (below2 k) cs) = Panic
  | OutOfFuel => False
  end.
Proof. exact lists_below. Qed.
Print Assumptions C72_lists.
Theorem C72_document : forall p k a d oa, in_range (a ++ map (below2 k) d) -> u32_lines (a ++ map (below2 k) d) -> (forall c, In c d -> 1 <= line_no2 c) ->
  (forall c, In c a -> ~ is_document c) -> class_commands a = [] -> maths_from_chunks p a = Ok oa ->
  match try_from3 p d with
  | Ok d3 => try_from3 p (a ++ map (below2 k) d) = Ok (below_document3 oa k d3)
  | Err e => exists e', try_from3 p (a ++ map (below2 k) d) = Err e' /\ err_type e' = err_type e
  | Panic => try_from3 p (a ++ map (below2 k) d) = Panic
  | OutOfFuel => False
  end.
Proof. exact document_below. Qed.
Print Assumptions C72_document.
(** sources: [s] contains neither a [document] environment nor [\documentclass] *)
Theorem C72_source : forall p s t a1 a sd, source_fits (s ++ t) -> count_newlines (s ++ t) < 2147483648 -> clean_end s ->
  from_str1 p s = Ok a1 -> settled a1 -> from_str2 p s = Ok a -> (forall d, from_str2 p t = Ok d -> ~ seam a d) ->
  (forall c, In c a -> ~ is_document c) -> class_commands a = [] -> from_str3 p s = Ok sd ->
  match from_str3 p t with
  | Ok d3 => from_str3 p (s ++ t) = Ok (below_document3 (d_preamable sd) (count_newlines s) d3)
  | Err e => exists e', from_str3 p (s ++ t) = Err e' /\ err_type e' = err_type e
  | Panic => from_str3 p (s ++ t) = Panic
  | OutOfFuel => False
  end.
Proof. exact source_settled. Qed.
Print Assumptions C72_source.
Theorem C72_after_command : forall p s t a0 l x lab args b1 a sd, source_fits (s ++ t) -> count_newlines (s ++ t) < 2147483648 -> clean_end s ->
  from_str1 p s = Ok (a0 ++ [mkChunk1 l (Command1 (mkCommand1 (x :: lab) args))]) -> is_ascii_alphabetic x = true -> from_str2 p s = Ok a ->
  from_str1 p t = Ok b1 -> after_word (negb (is_empty args)) b1 = true ->
  (forall c, In c a -> ~ is_document c) -> class_commands a = [] -> from_str3 p s = Ok sd ->
  match from_str3 p t with
  | Ok d3 => from_str3 p (s ++ t) = Ok (below_document3 (d_preamable sd) (count_newlines s) d3)
  | Err e => exists e', from_str3 p (s ++ t) = Err e' /\ err_type e' = err_type e
  | Panic => from_str3 p (s ++ t) = Panic
  | OutOfFuel => False
  end.
Proof. exact source_word. Qed.
Print Assumptions C72_after_command.

(** ** Examples *)
Definition C72_first : str := lines_of ["A $x$"; ""; "B {b"; "}"]%string.
Definition C72_second : str := lines_of ["\documentclass[o]{c} Z$y$ \[u"; "v\] \begin{document}Q\end{document} w"; "$z$"]%string.
Definition C72_command : str := lines_of ["A \use{x"; "}"]%string.
Definition C72_rest : str := lines_of [""; "\documentclass{c}"; "Z$y$ \begin{document}Q\end{document} w"; "$z$"]%string.
Ltac stage x := let v := eval vm_compute in x in match v with Ok ?d => exact d end.
Definition C72_first1 : list chunk1 := ltac:(stage (from_str1 Debug C72_first)).
Definition C72_first2 : list chunk2 := ltac:(stage (from_str2 Debug C72_first)).
Definition C72_first3 : document3 := ltac:(stage (from_str3 Debug C72_first)).
Definition C72_second2 : list chunk2 := ltac:(stage (from_str2 Debug C72_second)).
Definition C72_second3 : document3 := ltac:(stage (from_str3 Debug C72_second)).
Lemma C72_no_document : forall c, In c C72_first2 -> ~ is_document c.
Proof. intros c H (l & args & content & pb & pe & ->). repeat (destruct H as [H|H]; [discriminate H|]). exact H. Qed.
Lemma C72_settled : settled C72_first1.
Proof.
  split.
  - intros d0 w E. apply (f_equal (fun x => List.last x w)) in E. rewrite last_last in E. rewrite <- E. reflexivity.
  - intros d0 w t E _. change (d0 ++ [w; t]) with (d0 ++ [w] ++ [t]) in E. rewrite app_assoc in E.
    apply (f_equal (fun x => List.last (List.removelast x) w)) in E. rewrite removelast_last, last_last in E. rewrite <- E. reflexivity.
Qed.
(** the hypotheses are met: the second source starts with a command, the document moves three lines down *)
Example C72_source_example : forall p,
  from_str3 p (C72_first ++ C72_second) = Ok (below_document3 (d_preamable C72_first3) 3 C72_second3) /\
  map line_no3 (d_preamable C72_first3) = [1; 1; 1; 3; 3] /\
  map line_no3 (d_preamable (below_document3 (d_preamable C72_first3) 3 C72_second3)) = [1; 1; 1; 3; 3; 4; 4; 4; 4; 4; 5] /\
  map line_no3 (d_trailing (below_document3 (d_preamable C72_first3) 3 C72_second3)) = [5; 6].
Proof.
  intros p. split; [|split; [vm_compute; reflexivity|split; vm_compute; reflexivity]].
  pose proof (C72_source p C72_first C72_second C72_first1 C72_first2 C72_first3) as T.
  assert (E : from_str3 p C72_second = Ok C72_second3) by (destruct p; vm_compute; reflexivity). rewrite E in T. apply T; clear T E.
  - vm_compute. reflexivity.
  - vm_compute. reflexivity.
  - vm_compute. reflexivity.
  - destruct p; vm_compute; reflexivity.
  - exact C72_settled.
  - destruct p; vm_compute; reflexivity.
  - intros d Hd (a0 & l & x & l' & y & d0 & _ & K).
    assert (E : from_str2 p C72_second = Ok C72_second2) by (destruct p; vm_compute; reflexivity). rewrite Hd in E. injection E as E. rewrite K in E. discriminate E.
  - exact C72_no_document.
  - reflexivity.
  - destruct p; vm_compute; reflexivity.
Qed.
(** an unclosed block in the second source *)
Definition C72_bad : str := S! "\u a\[y".
Example C72_error_example : forall p, from_str3 p C72_bad = Err (mkError 1 UnclosedMaths) /\ from_str3 p (C72_first ++ C72_bad) = Err (mkError 4 UnclosedMaths).
Proof. intros []; split; vm_compute; reflexivity. Qed.
(** a list whose content of a bracketed block moves and whose content of a dollar block does not *)
Definition C72_list : list chunk2 := ltac:(stage (from_str2 Debug (lines_of ["a\[b"; "\c\]$d"; "$"]%string))).
Example C72_list_example : forall p, in_range (map (below2 7) C72_list) /\ u32_lines (map (below2 7) C72_list) /\
  exists out, maths_from_chunks p C72_list = Ok out /\ maths_from_chunks p (map (below2 7) C72_list) = Ok (map (below3 7) out) /\ map (below3 7) out <> map (fun c => mkChunk3 (line_no3 c + 7) (variant_of3 c)) out.
Proof.
  intros p. assert (F : fits (map (below2 7) C72_list)).
  { assert (P : exists c, from_str2 Debug (lines_of ["{"; ""; ""; ""; ""; ""; ""; "}a\[b"; "\c\]$d"; "$"]%string) = Ok (c :: map (below2 7) C72_list)).
    { let v := eval vm_compute in (from_str2 Debug (lines_of ["{"; ""; ""; ""; ""; ""; ""; "}a\[b"; "\c\]$d"; "$"]%string)) in match v with Ok (?c :: _) => exists c end. vm_compute. reflexivity. }
    destruct P as [c P]. apply parsed_fits in P; [now apply fits_cons in P|vm_compute; reflexivity|vm_compute; reflexivity]. }
  split; [exact (proj1 F)|]. split; [exact (proj2 F)|].
  let v := eval vm_compute in (maths_from_chunks Debug C72_list) in match v with Ok ?d => exists d end.
  split; [destruct p; vm_compute; reflexivity|]. split; [destruct p; vm_compute; reflexivity|]. vm_compute. discriminate.
Qed.
Example C72_command_example : forall p,
  exists a0 l x lab args b1 a sd d3, from_str1 p C72_command = Ok (a0 ++ [mkChunk1 l (Command1 (mkCommand1 (x :: lab) args))]) /\ from_str2 p C72_command = Ok a /\
    from_str1 p C72_rest = Ok b1 /\ after_word (negb (is_empty args)) b1 = true /\ from_str3 p C72_command = Ok sd /\ from_str3 p C72_rest = Ok d3 /\
    from_str3 p (C72_command ++ C72_rest) = Ok (below_document3 (d_preamable sd) 1 d3).
Proof.
  intros p.
  let v := eval vm_compute in (from_str1 Debug C72_command) in match v with Ok [?c; mkChunk1 ?l (Command1 (mkCommand1 (?x :: ?lab) ?args))] => exists [c], l, x, lab, args end.
  let v := eval vm_compute in (from_str1 Debug C72_rest) in match v with Ok ?d => exists d end.
  let v := eval vm_compute in (from_str2 Debug C72_command) in match v with Ok ?d => exists d end.
  let v := eval vm_compute in (from_str3 Debug C72_command) in match v with Ok ?d => exists d end.
  let v := eval vm_compute in (from_str3 Debug C72_rest) in match v with Ok ?d => exists d end.
  repeat match goal with |- _ /\ _ => split end; destruct p; vm_compute; reflexivity.
Qed.
