(** * Properties17: sources written one below the other

    Only statements, short proofs from lemmas, assumptions and non-vacuity examples.
    [settled], [glued1], [glued2], [below1], [below2], [below_error] and [clean_end] are described in
    SpecConcat.v, [after_word] in SpecCanon1.v. *)
From Verif Require Import Base Ast1 Parse1 Ast2 ModelTests1 SpecDoc1 SpecCanon1 SpecConcat Concat1 Concat2.

(** ** C60: parsing two sources one below the other *)
Theorem C60_ok : forall p q r s t d e, source_fits (s ++ t) -> clean_end s -> settled d ->
  from_str1 p s = Ok d -> from_str1 q t = Ok e ->
  exists x, glued1 d (map (below1 (count_newlines s)) e) x /\ from_str1 r (s ++ t) = Ok x.
Proof. exact concat_ok. Qed.
Theorem C60_error : forall p q r s t d e, source_fits (s ++ t) -> clean_end s -> settled d ->
  from_str1 p s = Ok d -> from_str1 q t = Err e ->
  from_str1 r (s ++ t) = Err (below_error (count_newlines s) e).
Proof. exact concat_error. Qed.
(** below a control word *)
Theorem C60_word : forall p q r s t d l a lab args e, source_fits (s ++ t) -> clean_end s ->
  from_str1 p s = Ok (d ++ [mkChunk1 l (Command1 (mkCommand1 (a :: lab) args))]) -> is_ascii_alphabetic a = true ->
  from_str1 q t = Ok e -> after_word (negb (is_empty args)) e = true ->
  from_str1 r (s ++ t) = Ok (d ++ mkChunk1 l (Command1 (mkCommand1 (a :: lab) args)) :: map (below1 (count_newlines s)) e).
Proof. exact concat_word. Qed.
Theorem C60_stage2_ok : forall p q r s t d1 d e, source_fits (s ++ t) -> clean_end s -> settled d1 ->
  from_str1 p s = Ok d1 -> try_from2 p d1 = Ok d -> from_str2 q t = Ok e ->
  exists x, glued2 d (map (below2 (count_newlines s)) e) x /\ from_str2 r (s ++ t) = Ok x.
Proof. exact concat_ok2. Qed.
(** an error inside an argument keeps its line (C24), any other one moves down *)
Theorem C60_stage2_error : forall p q r s t d1 d e, source_fits (s ++ t) -> clean_end s -> settled d1 ->
  from_str1 p s = Ok d1 -> try_from2 p d1 = Ok d -> from_str2 q t = Err e ->
  exists e', from_str2 r (s ++ t) = Err e' /\ err_type e' = err_type e /\
    (err_line e' = err_line e \/ err_line e' = err_line e + count_newlines s).
Proof. exact concat_error2. Qed.
Print Assumptions C60_ok.
Print Assumptions C60_error.
Print Assumptions C60_word.
Print Assumptions C60_stage2_ok.
Print Assumptions C60_stage2_error.
Definition C60_first : str := lines_of ["\begin{a}[x]{y"; "}\end{a} z"; "t"]%string.
Definition C60_second : str := lines_of ["u(v"; ")\b{c}\begin{d}"; "\end{d}"]%string.
Lemma settled_text d0 w l s : forallb is_whitespace s = false -> settled (d0 ++ [w; mkChunk1 l (Text1 s)]).
Proof.
  intros H. split.
  - intros d1 x E. change [w; mkChunk1 l (Text1 s)] with ([w] ++ [mkChunk1 l (Text1 s)]) in E. rewrite app_assoc in E. apply app_inj_tail in E as [_ <-]. reflexivity.
  - intros d1 x t E Hb. change [w; mkChunk1 l (Text1 s)] with ([w] ++ [mkChunk1 l (Text1 s)]) in E. change [x; t] with ([x] ++ [t]) in E.
    rewrite !app_assoc in E. apply app_inj_tail in E as [_ <-]. unfold is_blank1 in Hb. cbn [variant_of1] in Hb. congruence.
Qed.
Example C60_example : exists d1 d e1 e x1 x, source_fits (C60_first ++ C60_second) /\ clean_end C60_first /\ settled d1 /\
  from_str1 Debug C60_first = Ok d1 /\ try_from2 Debug d1 = Ok d /\ from_str1 Debug C60_second = Ok e1 /\ from_str2 Debug C60_second = Ok e /\
  from_str1 Debug (C60_first ++ C60_second) = Ok x1 /\ length d1 = 3%nat /\ length e1 = 6%nat /\ length x1 = 8%nat /\
  from_str2 Debug (C60_first ++ C60_second) = Ok x /\ length d = 2%nat /\ length e = 4%nat /\ length x = 5%nat.
Proof.
  let x := eval vm_compute in (from_str1 Debug C60_first) in match x with Ok ?d => exists d end. do 5 eexists.
  split; [vm_compute; reflexivity|]. split; [vm_compute; reflexivity|].
  split; [match goal with |- settled [?a; ?b; ?c] => apply (settled_text [a] b); reflexivity end|].
  repeat (split; [vm_compute; reflexivity|]). vm_compute; reflexivity.
Qed.
Example C60_error_example : exists d e, settled d /\ clean_end C60_first /\ from_str1 Debug C60_first = Ok d /\
  from_str1 Debug (lines_of ["a"; "\b]"]%string) = Err e /\
  from_str1 Debug (C60_first ++ lines_of ["a"; "\b]"]%string) = Err (below_error 2 e).
Proof.
  let x := eval vm_compute in (from_str1 Debug C60_first) in match x with Ok ?d => exists d end. eexists.
  split; [match goal with |- settled [?a; ?b; ?c] => apply (settled_text [a] b); reflexivity end|].
  split; [vm_compute; reflexivity|]. split; [vm_compute; reflexivity|]. split; vm_compute; reflexivity.
Qed.
Example C60_word_example : exists d e, from_str1 Debug (S! "x\a[b]") = Ok (d ++ [mkChunk1 1 (Command1 (mkCommand1 (S! "a") [([], mkScope1 [mkChunk1 1 (Text1 (S! "b"))] Square1)]))]) /\
  from_str1 Debug (S! " y\c") = Ok e /\ after_word true e = true /\ clean_end (S! "x\a[b]") /\ length e = 2%nat.
Proof.
  exists [mkChunk1 1 (Text1 (S! "x"))]. eexists. split; [vm_compute; reflexivity|]. split; [vm_compute; reflexivity|]. split; [vm_compute; reflexivity|]. split; vm_compute; reflexivity.
Qed.
(** each condition is needed: a comment, a backslash or a control word at the end of the first source takes
    something from the second one *)
Definition separate (s t : str) : Prop := exists d e x, from_str1 Debug s = Ok d /\ from_str1 Debug t = Ok e /\
  glued1 d (map (below1 (count_newlines s)) e) x /\ from_str1 Debug (s ++ t) = Ok x.
Lemma not_separate s t d e x : from_str1 Debug s = Ok d -> from_str1 Debug t = Ok e -> from_str1 Debug (s ++ t) = Ok x ->
  (length x <> length d + length e)%nat -> (S (length x) <> length d + length e)%nat -> ~ separate s t.
Proof.
  intros Hd He Hx N1 N2 (d' & e' & x' & Hd' & He' & G & Hx'). rewrite Hd in Hd'. injection Hd' as <-. rewrite He in He'. injection He' as <-.
  rewrite Hx in Hx'. injection Hx' as <-. inversion G as [a l s0 l' s1 b E1 E2 E3|a b K E1 E2 E3]; subst.
  - assert (X : length (map (below1 (count_newlines s)) e) = length (mkChunk1 l' (Text1 s1) :: b)) by now rewrite <- E2.
    rewrite map_length in X. cbn [length] in X. rewrite !app_length in *. cbn [length] in *. lia.
  - rewrite app_length, map_length in *. lia.
Qed.
Example C60_comment : ~ separate (S! "a%") (S! "{b}{c}"). Proof. eapply not_separate; [vm_compute; reflexivity|vm_compute; reflexivity|vm_compute; reflexivity|discriminate|discriminate]. Qed.
Example C60_argument : ~ separate (S! "\a ") (S! "{b}"). Proof. eapply not_separate; [vm_compute; reflexivity|vm_compute; reflexivity|vm_compute; reflexivity|discriminate|discriminate]. Qed.

(** ** C61: after a closing bracket in the wrong place nothing that is written later can help *)
Theorem C61_closing_stays : forall p q s t e v, source_fits (s ++ t) -> from_str1 p s = Err e -> err_type e = UnexpectedClosing v ->
  exists e', from_str1 q (s ++ t) = Err e'.
Proof. exact closing_stays. Qed.
(** so only what is unclosed can be completed *)
Theorem C61_completed : forall p q s t e d, source_fits (s ++ t) -> from_str1 p s = Err e -> from_str1 q (s ++ t) = Ok d ->
  (exists v, err_type e = UnclosedScope v) \/ (exists v, err_type e = UnclosedArgument v).
Proof. exact completed. Qed.
Print Assumptions C61_closing_stays.
Print Assumptions C61_completed.
Example C61_example : exists e e', from_str1 Debug (S! "a{\b]}") = Err e /\ err_type e = UnexpectedClosing Square1 /\
  from_str1 Debug (S! "a{\b]}" ++ S! " c}") = Err e'.
Proof. do 2 eexists. split; [vm_compute; reflexivity|]. split; [reflexivity|vm_compute; reflexivity]. Qed.
Example C61_completed_example : exists e d, from_str1 Debug (S! "\a[b{c") = Err e /\ from_str1 Debug (S! "\a[b{c" ++ S! "}]") = Ok d.
Proof. do 2 eexists. split; vm_compute; reflexivity. Qed.
