(** * Properties18: characters outside ASCII (C62) *)
From Verif Require Import Base Ast1 Parse1 Ast2 Ast3 SpecDoc1 SpecRename Rename1 Rename2 Rename3.

(** ** C62: the parsers treat alike all characters of a class *)
(** Stage 1 only distinguishes blanks, letters, newline, percent, backslash and the brackets: a replacement of
    characters that keeps those gives the same tree (or the same error) with the characters replaced. *)
Theorem C62_stage1 : forall f p q s, respects f -> source_fits s ->
  from_str1 q (map f s) = rename_outcome f (rename1 f) (from_str1 p s).
Proof. intros f p q s H B. exact (from_str1_map f H p q s B). Qed.
(** Stages 2 and 3 give a meaning to some words and to further ASCII characters; characters outside ASCII, blanks
    apart, are all alike to them. *)
Theorem C62_stage2 : forall f g p q s, renaming f g -> source_fits s ->
  from_str2 q (map f s) = rename_outcome f (rename2 f) (from_str2 p s).
Proof. intros f g p q s H B. exact (from_str2_map f g p q s H B). Qed.
Theorem C62_stage3 : forall f g p s, renaming f g -> source_fits s ->
  from_str3 p (map f s) = rename_outcome f (rename3 f) (from_str3 p s).
Proof. intros f g p s H B. exact (from_str3_ro f g H p s B). Qed.
(** the conversion of any stage-2 document, parsed or built by hand *)
Theorem C62_convert3 : forall f g p d, renaming f g ->
  try_from3 p (rename2 f d) = rename_outcome f (rename3 f) (try_from3 p d).
Proof. intros f g p d H. exact (try_from3_ro f g H p d). Qed.
(** the blanks are the 25 characters with the Unicode property White_Space, the letters a-z and A-Z *)
Theorem C62_blanks : forall c, is_whitespace c = true <->
  In c [9; 10; 11; 12; 13; 32; 133; 160; 5760; 8192; 8193; 8194; 8195; 8196; 8197; 8198; 8199; 8200; 8201; 8202; 8232; 8233; 8239; 8287; 12288].
Proof.
  intros c. split.
  - intros H. unfold is_whitespace in H. rewrite !orb_true_iff, !andb_true_iff, !N.leb_le, !N.eqb_eq in H. cbn [In]. lia.
  - intros H. cbn [In] in H. repeat (destruct H as [<-|H]; [reflexivity|]). destruct H.
Qed.
Theorem C62_letters : forall c, is_ascii_alphabetic c = true <-> In c (S! "abcdefghijklmnopqrstuvwxyzABCDEFGHIJKLMNOPQRSTUVWXYZ").
Proof.
  intros c. split.
  - intros H. unfold is_ascii_alphabetic in H. rewrite !orb_true_iff, !andb_true_iff, !N.leb_le in H. cbn. lia.
  - intros H. cbn in H. repeat (destruct H as [<-|H]; [reflexivity|]). destruct H.
Qed.
Print Assumptions C62_blanks.
Print Assumptions C62_letters.
Print Assumptions C62_stage1.
Print Assumptions C62_stage2.
Print Assumptions C62_stage3.
Print Assumptions C62_convert3.

(** an exchange of e-acute and u-umlaut *)
Definition C62_swap (c : char) : char := if c =? 233 then 252 else if c =? 252 then 233 else c.
Ltac by_cases := intros c; cbv beta delta [C62_swap]; destruct (c =? 233) eqn:E1; [apply N.eqb_eq in E1; subst c; now vm_compute|];
  destruct (c =? 252) eqn:E2; [apply N.eqb_eq in E2; subst c; now vm_compute|].
Example C62_swap_renaming : renaming C62_swap C62_swap.
Proof.
  split; [|split; [|split]].
  1, 2: by_cases; rewrite E1, E2; reflexivity.
  - intros c H. unfold C62_swap. destruct (c =? 233) eqn:E1; [apply N.eqb_eq in E1; lia|]. destruct (c =? 252) eqn:E2; [apply N.eqb_eq in E2; lia|]. reflexivity.
  - by_cases. reflexivity.
Qed.
Definition C62_source : str :=
  S! "\documentclass[" ++ [233] ++ S! " = a]{b" ++ [233] ++ S! "}" ++ [10] ++ S! "\begin{document}\begin{" ++ [233; 252] ++ S! "}$x_" ++ [252] ++ S! "$\end{" ++ [233; 252] ++ S! "}" ++
  [10; 160; 10] ++ [233] ++ S! "\end{document}".
Example C62_example3 : exists d, from_str3 Debug C62_source = Ok d /\ from_str3 Debug (map C62_swap C62_source) = Ok (rename3 C62_swap d) /\ rename3 C62_swap d <> d /\
  length (d_body d) = 3%nat /\ d_class d = Some (S! "b" ++ [233]) /\ source_fits C62_source.
Proof.
  let x := eval vm_compute in (from_str3 Debug C62_source) in match x with Ok ?d => exists d end.
  split; [vm_compute; reflexivity|]. split; [vm_compute; reflexivity|]. split; [discriminate|]. split; [reflexivity|]. split; [reflexivity|]. vm_compute; reflexivity.
Qed.
(** an error that carries a name *)
Example C62_example_error : from_str2 Debug (S! "\end{" ++ [233] ++ S! "}") = Err (mkError 1 (UnexpectedEnd [233])) /\
  from_str2 Debug (map C62_swap (S! "\end{" ++ [233] ++ S! "}")) = Err (mkError 1 (UnexpectedEnd [252])).
Proof. split; vm_compute; reflexivity. Qed.
(** at stage 1 letters, too, are alike, and two characters may become one: small letters for capitals *)
Definition C62_lower (c : char) : char := if (65 <=? c) && (c <=? 90) then c + 32 else c.
Example C62_lower_respects : respects C62_lower.
Proof.
  intros c. unfold C62_lower. destruct ((65 <=? c) && (c <=? 90)) eqn:E.
  - apply andb_true_iff in E. destruct E as [E1 E2]. apply N.leb_le in E1, E2.
    assert (K : In c (map N.of_nat (seq 65 26))).
    { apply in_map_iff. exists (N.to_nat c). split; [lia|]. apply in_seq. lia. }
    cbn in K. repeat (destruct K as [<-|K]; [vm_compute; intuition discriminate|]). destruct K.
  - split; [reflexivity|]. split; [reflexivity|]. reflexivity.
Qed.
Example C62_example1 : exists d, from_str1 Debug (S! "\Alpha[x]{Y}%C}") = Ok d /\ from_str1 Release (S! "\alpha[x]{y}%c}") = Ok (rename1 C62_lower d) /\
  rename1 C62_lower d <> d /\ map C62_lower (S! "\Alpha[x]{Y}%C}") = S! "\alpha[x]{y}%c}".
Proof.
  let x := eval vm_compute in (from_str1 Debug (S! "\Alpha[x]{Y}%C}")) in match x with Ok ?d => exists d end.
  split; [vm_compute; reflexivity|]. split; [vm_compute; reflexivity|]. split; [discriminate|]. vm_compute. reflexivity.
Qed.
(** that is not so at stage 2, where "Begin" is no environment *)
Example C62_lower_stage2 : exists d, from_str2 Debug (S! "\Begin{a}") = Ok d /\ from_str2 Debug (map C62_lower (S! "\Begin{a}")) = Err (mkError 1 (UnclosedEnvironment (S! "a"))).
Proof. eexists. split; vm_compute; reflexivity. Qed.
