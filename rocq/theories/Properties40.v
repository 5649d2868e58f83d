(** * Properties40: no delimiter of maths survives stage 3 (C88) *)
From Coq Require Import String Ascii.
From Verif Require Import Base Ast1 Parse1 Ast2 Ast3 Spec1 SpecDoc2 SpecDoc3 SpecBack3 SpecDelims Delims Delims2 ModelTests1 Properties2.
Local Open Scope N_scope.

(** ** C88: in a stage-3 document no text has a dollar or is empty, no command is a bracket of maths, and every paragraph break is blank,
    whatever stage-2 document it comes from, in every profile *)
Theorem C88_no_delimiters : forall p d2 d cs c, try_from3 p d2 = Ok d -> part_of d cs -> In c cs -> delimited c.
Proof. exact no_delimiters. Qed.
Theorem C88_sources : forall p s d cs c, from_str3 p s = Ok d -> part_of d cs -> In c cs -> delimited c.
Proof. intros p s d cs c. unfold from_str3. destruct (from_str2 p s) as [d2| | |]; cbn [bind]; try discriminate. apply no_delimiters. Qed.
(** no command is made up: every label is that of a command of the stage-2 document *)
Theorem C88_labels : forall p d2 d cs l lab args, try_from3 p d2 = Ok d -> part_of d cs -> In (mkChunk3 l (Command3 (mkCommand3 lab args))) cs ->
  exists cs2 l2 args2, within2 d2 cs2 /\ In (mkChunk2 l2 (Command2 (mkCommand2 lab args2))) cs2.
Proof. exact labels_kept. Qed.
(** so no command of a stage-3 document read from a string is a delimiter of an environment *)
Theorem C88_no_begin_end : forall p s d cs l lab args, from_str3 p s = Ok d -> part_of d cs -> In (mkChunk3 l (Command3 (mkCommand3 lab args))) cs ->
  lab <> S! "begin" /\ lab <> S! "end".
Proof.
  intros p s d cs l lab args. unfold from_str3. destruct (from_str2 p s) as [d2| | |] eqn:E; cbn [bind]; try discriminate. intros H W I. destruct (labels_kept _ _ _ _ _ _ _ H W I) as (cs2 & l2 & args2 & W2 & I2).
  unfold from_str2 in E. destruct (from_str1 p s) as [d1| | |]; cbn [bind] in E; try discriminate. exact (C18_no_begin_end _ _ _ E _ _ _ _ W2 I2).
Qed.
Print Assumptions C88_no_delimiters.
Print Assumptions C88_sources.
Print Assumptions C88_labels.
Print Assumptions C88_no_begin_end.

(** ** Examples *)
Definition C88_text : str := lines_of ["\documentclass{article}\title{A $x$}"; "\begin{document}k $\alpha{$x$} b$ m"; ""; "z $$\frac{1}{2}$$ and \(y \[w\] $c$\beta\)"; "\end{document} t $u$"]%string.
(** the document is read; its body starts with a text, maths, a text, a break; inside the first maths, inside the argument of a command, there is maths again *)
Example C88_example : exists d l1 l2 l3 l4 v t content s1 s3 b rest, from_str3 Release C88_text = Ok d /\
  d_body d = mkChunk3 l1 (Text3 s1) :: mkChunk3 l2 (Maths3 (mkMaths3 v t content)) :: mkChunk3 l3 (Text3 s3) :: mkChunk3 l4 (ParagraphBreak3 b) :: rest /\ part_of d content /\
  s1 = S! "k " /\ s3 = S! " m".
Proof.
  let x := eval vm_compute in (from_str3 Release C88_text) in match x with Ok ?d => exists d end.
  do 11 eexists. split; [vm_compute; reflexivity|]. split; [reflexivity|]. split; [|split; reflexivity]. right. left. eapply w3_maths; [apply w3_self|right; left; reflexivity].
Qed.
(** stage 2 has the delimiters, as texts and as commands *)
Example C88_example_stage2 : exists d, from_str2 Release (S! "$x$\(y\)") = Ok [mkChunk2 1 (Text2 (S! "$x$")); mkChunk2 1 (Command2 (mkCommand2 (S! "(") [])); mkChunk2 1 (Text2 (S! "y")); mkChunk2 1 (Command2 (mkCommand2 (S! ")") []))] /\
  from_str3 Release (S! "$x$\(y\)") = Ok d /\ map (fun c => match c with mkChunk3 _ (Maths3 (mkMaths3 _ _ [mkChunk3 _ (Text3 s)])) => s | _ => [] end) (d_preamable d) = [S! "x"; S! "y"].
Proof.
  let x := eval vm_compute in (from_str3 Release (S! "$x$\(y\)")) in match x with Ok ?d => exists d end. repeat split; vm_compute; reflexivity.
Qed.
(** not every chunk satisfies it: a hand-built text with a dollar is not [delimited] *)
Example C88_not_every_document : ~ delimited (mkChunk3 1 (Text3 (S! "a$"))) /\ ~ delimited (mkChunk3 1 (Command3 (mkCommand3 (S! "]") []))) /\ ~ delimited (mkChunk3 1 (Text3 [])) /\
  ~ delimited (mkChunk3 1 (ParagraphBreak3 (S! "a"))).
Proof.
  split; [intros [_ H]; apply H; cbn; auto|]. split; [intros H; apply H; right; right; right; reflexivity|]. split; [intros [H _]; now apply H|]. intros H. inversion H. discriminate.
Qed.
