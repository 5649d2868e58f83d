(** * Properties4: round-trip theorems between Display, stage 1 and stage 2

    Only statements, one-line proofs, assumptions and non-vacuity examples. *)
From Verif Require Import Base Ast1 Parse1 Ast2 Spec1 SpecDoc1 SpecDoc2 ModelTests1 Tok Pure1 Refine1 Gram1 Ind Lines
  Facts1 Rules Spec2 Conv2 Fail2 Facts2 Good2 Env2 SpecCanon1 Canon1 SpecBack2 Back2.

(** ** C09: parsing the Display of a document gives the document back exactly for the
    canonical documents of SpecCanon1.v; a document obtained by parsing is canonical
    exactly when [reparse_safe] holds of its chunks at every depth. *)
Theorem C09_inverse_iff : forall p d, source_fits (show1 d) ->
  (from_str1 p (show1 d) = Ok d <-> canonical 1 d).
Proof. exact from_str1_show_iff. Qed.
Print Assumptions C09_inverse_iff.
Theorem C09_parsed_iff : forall p q s d, source_fits s -> from_str1 p s = Ok d ->
  (from_str1 q (show1 d) = Ok d <-> everywhere reparse_safe d).
Proof. exact reparse_iff. Qed.
Print Assumptions C09_parsed_iff.
Example C09_example : exists d,
  d = [mkChunk1 1 (Text1 (lines_of ["a]"; ""]%string)); mkChunk1 2 (Scope1 (mkScope1 [mkChunk1 1 (Text1 (S! "b"))] Curly1));
       mkChunk1 2 (Command1 (mkCommand1 (S! "x1") [(S! " ", mkScope1 [mkChunk1 1 (Command1 (mkCommand1 (S! "{") []))] Square1)]));
       mkChunk1 2 (Text1 (S! "c"))] /\
  canonical 1 d /\ show1 d = lines_of ["a]"; "{b}\x1 [\{]c"]%string /\ from_str1 Debug (show1 d) = Ok d.
Proof.
  eexists. split; [reflexivity|]. split; [|split; vm_compute; reflexivity].
  apply (C09_inverse_iff Debug); vm_compute; reflexivity.
Qed.
(** both ways of failing occur *)
Example C09_parsed_unsafe : exists s d, source_fits s /\ from_str1 Debug s = Ok d /\
  from_str1 Debug (show1 d) = Err (mkError 1 (UnexpectedClosing Curly1)).
Proof. exists (S! "(\a }\b)"). eexists. split; [reflexivity|split; [vm_compute; reflexivity|vm_compute; reflexivity]]. Qed.
Example C09_parsed_unsafe_arg : exists s d d', source_fits s /\ from_str1 Debug s = Ok d /\
  from_str1 Debug (show1 d) = Ok d' /\ d <> d'.
Proof.
  exists (S! "\x{(a)}"). do 2 eexists. split; [reflexivity|]. split; [vm_compute; reflexivity|]. split; [vm_compute; reflexivity|].
  intros K. discriminate K.
Qed.

(** ** C20: stage 2 back to stage 1 is not the identity: the line numbers of a [\begin] with
    an argument spanning several lines, and of its [\end], come back too large.  Apart from
    exactly that, the document comes back unchanged. *)
Theorem C20_identity_refuted : exists s d1 d2 d',
  source_fits s /\ from_str1 Debug s = Ok d1 /\ try_from2 Debug d1 = Ok d2 /\
  @from2_to1 error Debug d2 = Ok d' /\ d' <> d1.
Proof.
  exists (lines_of ["\begin{a}["; "]x\end{a}"]%string). do 3 eexists. split; [reflexivity|].
  split; [vm_compute; reflexivity|]. split; [vm_compute; reflexivity|]. split; [vm_compute; reflexivity|].
  intros K. discriminate K.
Qed.
Print Assumptions C20_identity_refuted.
Theorem C20_exact_partial : forall p q s d1 d2, 2 * (N.of_nat (length s) + 1) < two32 ->
  from_str1 p s = Ok d1 -> try_from2 p d1 = Ok d2 ->
  exists d', @from2_to1 error q d2 = Ok d' /\ restored d1 d'.
Proof. exact (@back_restored error). Qed.
Print Assumptions C20_exact_partial.
Theorem C20_identity_partial : forall p q s d1 d2, 2 * (N.of_nat (length s) + 1) < two32 ->
  from_str1 p s = Ok d1 -> try_from2 p d1 = Ok d2 -> one_line_begins d1 ->
  @from2_to1 error q d2 = Ok d1.
Proof. exact (@back_identity error). Qed.
Print Assumptions C20_identity_partial.
(** the identity holds exactly when every [\begin] .. argument list is on one line *)
Theorem C20_identity_iff_partial : forall p q s d1 d2, 2 * (N.of_nat (length s) + 1) < two32 ->
  from_str1 p s = Ok d1 -> try_from2 p d1 = Ok d2 ->
  (@from2_to1 error q d2 = Ok d1 <-> one_line_begins d1).
Proof. exact (@back_identity_iff error). Qed.
Print Assumptions C20_identity_iff_partial.
Example C20_example : exists d1 d2,
  from_str1 Debug (lines_of ["a"; "\begin{b}[x]"; "y{\begin {c}\end{c}"; "}\end{b} z"]%string) = Ok d1 /\
  try_from2 Debug d1 = Ok d2 /\ @from2_to1 error Debug d2 = Ok d1 /\ length d1 = 6%nat /\ length d2 = 3%nat.
Proof.
  do 2 eexists. split; [vm_compute; reflexivity|]. split; [vm_compute; reflexivity|].
  split; [vm_compute; reflexivity|split; vm_compute; reflexivity].
Qed.

(** ** C21: stage 2 back to stage 1 preserves Display *)
Theorem C21_display : forall p d d1, every_label plain_label d ->
  @from2_to1 error p d = Ok d1 -> show1 d1 = show2 d.
Proof. exact (@from2_to1_show_plain error). Qed.
Print Assumptions C21_display.
Theorem C21_release_total : forall d, every_label plain_label d ->
  exists d1, @from2_to1 error Release d = Ok d1.
Proof. exact (@from2_to1_release error). Qed.
Print Assumptions C21_release_total.
Theorem C21_parsed : forall p q s d2, 2 * (N.of_nat (length s) + 1) < two32 -> from_str2 p s = Ok d2 ->
  exists d1, @from2_to1 error q d2 = Ok d1 /\ show1 d1 = show2 d2.
Proof. exact (@back_show error). Qed.
Print Assumptions C21_parsed.
Definition C21_doc : list chunk2 :=
  [mkChunk2 5 (Environment2 (mkEnv2 (S! "b c") [([], mkScope2 [] Round2)]
         [mkChunk2 1 (Environment2 (mkEnv2 [] [] [] (S! " ") (S! "  ")))] [] []))].
Example C21_example : exists d1,
  every_label plain_label C21_doc /\ @from2_to1 error Debug C21_doc = Ok d1 /\
  show1 d1 = S! "\begin{b c}()\begin {}\end  {}\end{b c}".
Proof.
  eexists. split; [|split; [vm_compute; reflexivity|vm_compute; reflexivity]].
  assert (W : forall cs, within2 C21_doc cs -> cs = C21_doc \/ cs = [mkChunk2 1 (Environment2 (mkEnv2 [] [] [] (S! " ") (S! "  ")))] \/ cs = []).
  { induction 1 as [|cs l inner v Hw [-> | [-> | -> ]] Hc|cs l lab args pre inner v Hw [-> | [-> | -> ]] Hc Ha
      |cs l lab args content pb pe pre inner v Hw [-> | [-> | -> ]] Hc Ha|cs l lab args content pb pe Hw [-> | [-> | -> ]] Hc]; auto;
    cbn in Hc; try contradiction; destruct Hc as [K|[]]; try discriminate K; injection K as; subst; auto; cbn in Ha; intuition congruence. }
  intros cs l lab args body pb pe Hw Hc. apply W in Hw.
  destruct Hw as [-> | [-> | -> ]]; cbn in Hc; try contradiction; destruct Hc as [K|[]]; injection K as; subst; split; reflexivity.
Qed.

(** ** C43: the arguments in curly brackets (environment labels among them) are self-contained:
    parsing the text of one gives its chunks back. *)
Theorem C43_curly_argument : forall p q s d cs l lab args pre inner, source_fits s -> from_str1 p s = Ok d ->
  within1 d cs -> In (mkChunk1 l (Command1 (mkCommand1 lab args))) cs -> In (pre, mkScope1 inner Curly1) args ->
  from_str1 q (show1 inner) = Ok inner.
Proof. exact curly_args_reparse. Qed.
Print Assumptions C43_curly_argument.
Example C43_example : exists d l lab args inner,
  from_str1 Debug (S! "a\b[x]{y\{ \c ]}") = Ok d /\
  In (mkChunk1 l (Command1 (mkCommand1 lab args))) d /\ In ([], mkScope1 inner Curly1) args /\ length inner = 5%nat.
Proof.
  do 5 eexists. split; [vm_compute; reflexivity|]. split; [right; left; reflexivity|]. split; [right; left; reflexivity|reflexivity].
Qed.
(** square and round arguments are not *)
Theorem C43_other_brackets_refuted : exists s d l lab args pre inner v, source_fits s /\ from_str1 Debug s = Ok d /\
  In (mkChunk1 l (Command1 (mkCommand1 lab args))) d /\ In (pre, mkScope1 inner v) args /\
  from_str1 Debug (show1 inner) <> Ok inner.
Proof.
  exists (S! "\b[(\a })]"). do 7 eexists. split; [reflexivity|]. split; [vm_compute; reflexivity|].
  split; [left; reflexivity|]. split; [left; reflexivity|]. vm_compute. discriminate.
Qed.
Print Assumptions C43_other_brackets_refuted.
