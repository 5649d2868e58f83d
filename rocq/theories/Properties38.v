(** * Properties38: C85, C86 *)
From Verif Require Import Base Ast1 Parse1 Ast2 Ast3 SpecDoc1 SpecPrefix Spec1 Properties1 Properties2 Properties17 Prefix1 Prefix2 Prefix3.
Local Open Scope N_scope.

(** ** C85: What a longer source keeps *)
Theorem C85_kept : forall p q s t d d', source_fits (s ++ t) -> from_str1 p s = Ok d -> from_str1 q (s ++ t) = Ok d' ->
  exists same tail rest, d = same ++ tail /\ d' = same ++ rest /\ continues tail rest.
Proof.
  intros p q s t d d' B H H'.
  assert (B0 : source_fits s) by (unfold source_fits in *; rewrite app_length in B; lia).
  apply (prefix_debug s t).
  - destruct p; [exact H|]. now rewrite (C01_profiles_agree s B0).
  - destruct q; [exact H'|]. now rewrite (C01_profiles_agree _ B).
Qed.
(** so every chunk but the last two stays, and every complete chunk before a text that is not blank *)
Theorem C85_all_but_two : forall p q s t d d' x y, source_fits (s ++ t) -> from_str1 p s = Ok d -> from_str1 q (s ++ t) = Ok d' ->
  d = x ++ y -> (2 <= length y)%nat -> exists z, d' = x ++ z.
Proof.
  intros p q s t d d' x y B H H' E L. destruct (C85_kept p q s t d d' B H H') as (same & tail & rest & E1 & E2 & C).
  assert (length tail <= 2)%nat by (destruct C; cbn; lia).
  rewrite E1 in E. clear - E E2 L H0. revert x E d' E2. induction same as [|c same IH]; intros x E d' E2.
  - destruct x as [|c x]; [now exists d'|]. assert (X := f_equal (@length _) E). cbn in X. rewrite app_length in X. lia.
  - destruct x as [|c' x]; [now exists d'|]. cbn [app] in E. injection E as <- E. destruct (IH x E _ eq_refl) as (z & Z). exists z. rewrite E2. cbn [app]. now rewrite Z.
Qed.
(** the same for the tree with environments *)
Theorem C85_kept2 : forall p q s t x x', source_fits (s ++ t) -> from_str2 p s = Ok x -> from_str2 q (s ++ t) = Ok x' ->
  exists same tail rest, x = same ++ tail /\ x' = same ++ rest /\ continues2 tail rest.
Proof.
  intros p q s t x x' B H H'.
  assert (B0 : source_fits s) by (unfold source_fits in *; rewrite app_length in B; lia).
  assert (D : from_str2 Debug s = Ok x) by (destruct p; [exact H|now rewrite (C19_profiles_agree s B0)]).
  assert (D' : from_str2 Debug (s ++ t) = Ok x') by (destruct q; [exact H'|now rewrite (C19_profiles_agree _ B)]).
  unfold from_str2 in D, D'. destruct (from_str1 Debug s) as [d| | |] eqn:E; cbn [bind] in D; try discriminate.
  destruct (from_str1 Debug (s ++ t)) as [d'| | |] eqn:E'; cbn [bind] in D'; try discriminate.
  destruct (prefix_debug s t d d' E E') as (same & tail & rest & -> & -> & C). exact (kept2 _ _ _ _ _ C D D').
Qed.
Print Assumptions C85_kept.
Print Assumptions C85_all_but_two.
Print Assumptions C85_kept2.

(** every way of going on is met: a text, arguments, a label, blanks, something new *)
Ltac run := let x := fresh in let y := fresh in let X := fresh in let Y := fresh in
  match goal with |- exists d d', ?a = Ok d /\ ?b = Ok d' /\ _ =>
    let u := eval vm_compute in a in let v := eval vm_compute in b in match u with Ok ?d => match v with Ok ?d' => exists d, d' end end end; split; [vm_compute; reflexivity|]; split; [vm_compute; reflexivity|].
Example C85_example_text : exists d d', from_str1 Debug (S! "\a ab") = Ok d /\ from_str1 Debug (S! "\a abc\d") = Ok d' /\
  skipn 1 d = [mkChunk1 1 (Text1 (S! " ab"))] /\ skipn 1 d' = mkChunk1 1 (Text1 (S! " ab" ++ S! "c")) :: [mkChunk1 1 (Command1 (mkCommand1 (S! "d") []))].
Proof. run. split; reflexivity. Qed.
Example C85_example_args : exists d d', from_str1 Debug (S! "x\a[b]") = Ok d /\ from_str1 Debug (S! "x\a[b](c)") = Ok d' /\
  d = [mkChunk1 1 (Text1 (S! "x")); mkChunk1 1 (Command1 (mkCommand1 (S! "a") [([], mkScope1 [mkChunk1 1 (Text1 (S! "b"))] Square1)]))] /\
  d' = [mkChunk1 1 (Text1 (S! "x")); mkChunk1 1 (Command1 (mkCommand1 (S! "a") [([], mkScope1 [mkChunk1 1 (Text1 (S! "b"))] Square1); ([], mkScope1 [mkChunk1 1 (Text1 (S! "c"))] Round1)]))].
Proof. run. split; reflexivity. Qed.
(** [\beg] goes on as an environment, two lines further down *)
Example C85_example_begin : exists x x', from_str2 Debug (S! "\beg") = Ok x /\ from_str2 Debug (S! "\begin{a" ++ [10] ++ S! "}\end{a" ++ [10] ++ S! "}") = Ok x' /\
  x = [mkChunk2 1 (Command2 (mkCommand2 (S! "beg") []))] /\ exists env, x' = [mkChunk2 2 (Environment2 env)].
Proof. run. split; [reflexivity|eexists; reflexivity]. Qed.
(** a blank that becomes part of an argument, and one that becomes part of a text one line further up *)
Example C85_example_blanks : exists d d', from_str1 Debug (S! "\a" ++ [10]) = Ok d /\ from_str1 Debug (S! "\a" ++ [10] ++ S! " {b}") = Ok d' /\
  d = [mkChunk1 1 (Command1 (mkCommand1 (S! "a") [])); mkChunk1 2 (Text1 [10])] /\
  d' = [mkChunk1 1 (Command1 (mkCommand1 (S! "a") [([10; 32], mkScope1 [mkChunk1 1 (Text1 (S! "b"))] Curly1)]))].
Proof. run. split; reflexivity. Qed.
Example C85_example_lines : exists d d', from_str1 Debug (S! "\a" ++ [10]) = Ok d /\ from_str1 Debug (S! "\a" ++ [10] ++ S! "b") = Ok d' /\
  skipn 1 d = [mkChunk1 2 (Text1 [10])] /\ skipn 1 d' = [mkChunk1 1 (Text1 ([10] ++ S! "b"))].
Proof. run. split; reflexivity. Qed.

(** ** C86: What can be completed *)
(** the source ends with a [\begin] or an [\end] that has no argument yet *)
Definition open_label (p : profile) (s : str) : Prop := exists d l lab blanks, (lab = S! "begin" \/ lab = S! "end") /\
  from_str1 p s = Ok (d ++ mkChunk1 l (Command1 (mkCommand1 lab [])) :: blanks) /\ (blanks = [] \/ exists l' w, blanks = [mkChunk1 l' (Text1 w)] /\ blank w).
(** the source ends with a [\documentclass] without argument *)
Definition open_class (p : profile) (s : str) : Prop := exists x l, from_str2 p s = Ok (x ++ [mkChunk2 l (Command2 (mkCommand2 (S! "documentclass") []))]).
Definition something_open (p : profile) (s : str) (e : error) : Prop :=
  (exists v, err_type e = UnclosedScope v) \/ (exists v, err_type e = UnclosedArgument v) \/
  (exists lab, err_type e = UnclosedEnvironment lab) \/ (err_type e = NoEnvironmentLabel /\ open_label p s).

Lemma step2 p s t e x : source_fits (s ++ t) -> from_str2 p s = Err e -> from_str2 p (s ++ t) = Ok x -> something_open p s e.
Proof.
  intros B H H'. assert (B0 : source_fits s) by (unfold source_fits in *; rewrite app_length in B; lia).
  unfold from_str2 in H, H'. destruct (from_str1 p (s ++ t)) as [d'| | |] eqn:E'; cbn [bind] in H'; try discriminate.
  destruct (from_str1 p s) as [d|e1| |] eqn:E; cbn [bind] in H; try discriminate.
  - destruct (C85_kept p p s t d d' B E E') as (same & tail & rest & -> & -> & C). destruct (completed p _ _ _ _ _ C H H') as [K|(K & l & lab & more & -> & L)].
    + right. right. left. exact K.
    + right. right. right. split; [exact K|]. exists same, l, lab, more. split; [exact L|]. split; [exact E|]. inversion C; subst; try (left; reflexivity); right; eauto.
  - injection H as ->. destruct (C61_completed p p s t e d' B E E') as [K|K]; [left|right; left]; exact K.
Qed.
Theorem C86_completed2 : forall p q s t e x, source_fits (s ++ t) -> from_str2 p s = Err e -> from_str2 q (s ++ t) = Ok x -> something_open p s e.
Proof.
  intros p q s t e x B H H'. apply (step2 p s t e x B H). destruct p, q; rewrite ?(C19_profiles_agree _ B) in *; try exact H'. 
Qed.
(** anything else cannot be repaired by writing on *)
Theorem C86_stays2 : forall p q s t e, source_fits (s ++ t) -> from_str2 p s = Err e ->
  (match err_type e with UnexpectedClosing _ | UnexpectedEnd _ | TooManyArgsEnd => True | _ => False end) -> exists e', from_str2 q (s ++ t) = Err e'.
Proof.
  intros p q s t e B H K. destruct (C19_parse_total q (s ++ t) B) as [(x & X)|E]; [|exact E]. exfalso.
  destruct (C86_completed2 p q s t e x B H X) as [(v & R)|[(v & R)|[(v & R)|(R & _)]]]; rewrite R in K; exact K.
Qed.
Theorem C86_completed3 : forall p s t e x, source_fits (s ++ t) -> from_str3 p s = Err e -> from_str3 p (s ++ t) = Ok x ->
  something_open p s e \/ err_type e = UnclosedMaths \/ (err_type e = DoubleDocumentClass /\ open_class p s).
Proof.
  intros p s t e x B H H'. assert (B0 : source_fits s) by (unfold source_fits in *; rewrite app_length in B; lia).
  unfold from_str3 in H, H'. destruct (from_str2 p (s ++ t)) as [d'| | |] eqn:E'; cbn [bind] in H'; try discriminate.
  destruct (from_str2 p s) as [d|e1| |] eqn:E; cbn [bind] in H; try discriminate.
  - right. destruct (C85_kept2 p p s t d d' B E E') as (same & tail & rest & -> & -> & C). destruct (completed3 p _ _ _ _ _ C H H') as [K|(K & l & ->)]; [now left|].
    right. split; [exact K|]. exists same, l. exact E.
  - injection H as ->. left. exact (step2 p s t e d' B E E').
Qed.
Theorem C86_stays3 : forall p s t e, source_fits (s ++ t) -> from_str3 p s = Err e ->
  (match err_type e with UnexpectedClosing _ | UnexpectedEnd _ | TooManyArgsEnd | UnexpectedMathsEnd | TooManyArgsDocumentClass => True | _ => False end) ->
  forall x, from_str3 p (s ++ t) <> Ok x.
Proof.
  intros p s t e B H K x X. destruct (C86_completed3 p s t e x B H X) as [[(v & R)|[(v & R)|[(v & R)|(R & _)]]]|[R|(R & _)]]; rewrite R in K; exact K.
Qed.
Print Assumptions C86_completed2.
Print Assumptions C86_stays2.
Print Assumptions C86_completed3.
Print Assumptions C86_stays3.

(** each of the kinds that can be completed is *)
Definition completes (s t : str) (k : error_type) : Prop := (exists l, from_str3 Debug s = Err (mkError l k)) /\ exists x, from_str3 Debug (s ++ t) = Ok x.
Ltac ok := match goal with |- exists x, ?a = Ok x => let u := eval vm_compute in a in match u with Ok ?d => exists d end end; vm_compute; reflexivity.
Ltac both := split; [eexists; vm_compute; reflexivity|ok].
Example C86_example_scope : completes (S! "a{b") (S! "}") (UnclosedScope Curly1). Proof. both. Qed.
Example C86_example_argument : completes (S! "\a[b") (S! "]") (UnclosedArgument Square1). Proof. both. Qed.
Example C86_example_environment : completes (S! "\begin{a}b") (S! "\end{a}") (UnclosedEnvironment (S! "a")). Proof. both. Qed.
Example C86_example_label : completes (S! "\begin{a}\end" ++ [10]) (S! "{a}") NoEnvironmentLabel. Proof. both. Qed.
Example C86_example_label2 : completes (S! "\begin") (S! "ners") NoEnvironmentLabel. Proof. both. Qed.
Example C86_example_maths : completes (S! "\(a") (S! "\)") UnclosedMaths. Proof. both. Qed.
Example C86_example_class : completes (S! "\documentclass{a}\documentclass") (S! "es") DoubleDocumentClass. Proof. both. Qed.
(** and some that cannot be *)
Definition hopeless (s : str) (k : error_type) : Prop := exists l, from_str3 Debug s = Err (mkError l k).
Example C86_example_hopeless : hopeless (S! "\begin{a}\end{b}") (UnexpectedEnd (S! "b")) /\ hopeless (S! "\begin{a}\end{a}{b}") TooManyArgsEnd /\
  hopeless (S! "x\)") UnexpectedMathsEnd /\ hopeless (S! "\documentclass{a}{b}") TooManyArgsDocumentClass /\ hopeless (S! "\a]") (UnexpectedClosing Square1).
Proof. repeat split; eexists; vm_compute; reflexivity. Qed.
