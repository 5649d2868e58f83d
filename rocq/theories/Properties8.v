(** * Properties8: document class and document options (src/ast3/document.rs:300-425)

    Only statements, short proofs from lemmas, assumptions and non-vacuity examples.
    Specification: SpecClass3.v. *)
From Verif Require Import Base Ast1 Parse1 Ast2 Ast3 SpecDoc1 SpecDoc2 SpecDoc3 SpecClass3 ModelTests1
  Class3 Options3.

(** ** C33: the document class *)

(** Exactly: the [\documentclass] commands of the preamble decide; if they are in order, the only
    errors left are those of maths recognition. *)
Theorem C33_class_exact : forall p d pr, preamble_of d pr ->
  match declared_class (class_commands pr) with
  | inl e => try_from3 p d = Err e
  | inr c =>
      (forall d3, try_from3 p d = Ok d3 -> d_class d3 = c) /\
      (forall e, try_from3 p d = Err e -> err_type e = UnexpectedMathsEnd \/ err_type e = UnclosedMaths)
  end.
Proof.
  intros p d pr H. pose proof (class_exact p d pr H) as K. destruct (declared_class _); [exact K|].
  destruct K as [K1 K2]. split; [|exact K2]. intros d3 E. exact (proj1 (K1 d3 E)).
Qed.
Print Assumptions C33_class_exact.
(** every document has a preamble *)
Theorem C33_preamble_exists : forall d, exists pr, preamble_of d pr.
Proof. exact preamble_exists. Qed.
Print Assumptions C33_preamble_exists.
(** The claim in words. *)
Theorem C33_single : forall p d pr l args x d3, preamble_of d pr ->
  class_commands pr = [(l, args)] -> curly_texts args = [x] ->
  try_from3 p d = Ok d3 -> d_class d3 = Some x.
Proof.
  intros p d pr l args x d3 H Hc Hx. pose proof (C33_class_exact p d pr H) as K. rewrite Hc in K. cbn [declared_class] in K. rewrite Hx in K. apply K.
Qed.
Print Assumptions C33_single.
Theorem C33_absent : forall p d pr d3, preamble_of d pr -> class_commands pr = [] ->
  try_from3 p d = Ok d3 -> d_class d3 = None.
Proof. intros p d pr d3 H Hc. pose proof (C33_class_exact p d pr H) as K. rewrite Hc in K. apply K. Qed.
Print Assumptions C33_absent.
Theorem C33_double : forall p d pr l args x l' args' rest, preamble_of d pr ->
  class_commands pr = (l, args) :: (l', args') :: rest -> curly_texts args = [x] ->
  try_from3 p d = Err (mkError l' DoubleDocumentClass).
Proof.
  intros p d pr l args x l' args' rest H Hc Hx. pose proof (C33_class_exact p d pr H) as K. rewrite Hc in K. cbn [declared_class] in K. rewrite Hx in K. exact K.
Qed.
Print Assumptions C33_double.
Theorem C33_too_many : forall p d pr l args rest, preamble_of d pr ->
  class_commands pr = (l, args) :: rest -> (2 <= length (curly_texts args))%nat ->
  try_from3 p d = Err (mkError l TooManyArgsDocumentClass).
Proof.
  intros p d pr l args rest H Hc Hx. pose proof (C33_class_exact p d pr H) as K. rewrite Hc in K. cbn [declared_class] in K.
  destruct (curly_texts args) as [|x [|y r]]; [now apply Nat.nle_succ_0 in Hx|now apply le_S_n, Nat.nle_succ_0 in Hx|exact K].
Qed.
Print Assumptions C33_too_many.
(** A [\documentclass] without curly argument is no declaration: its options count, and another
    one may follow. *)
Theorem C33_no_class_argument : forall p d pr l args rest, preamble_of d pr ->
  class_commands pr = (l, args) :: rest -> curly_texts args = [] ->
  (forall d3, try_from3 p d = Ok d3 -> declared_class rest = inr (d_class d3)) /\
  (forall e, declared_class rest = inl e -> try_from3 p d = Err e).
Proof.
  intros p d pr l args rest H Hc Hx. pose proof (C33_class_exact p d pr H) as K. rewrite Hc in K. cbn [declared_class] in K. rewrite Hx in K.
  destruct (declared_class rest) as [e|c].
  - split; [intros d3 E; rewrite K in E; discriminate|]. intros e' E. injection E as <-. exact K.
  - destruct K as [K _]. split; [intros d3 E; now rewrite (K d3 E)|discriminate].
Qed.
Print Assumptions C33_no_class_argument.
(** What follows the beginning of the document environment has no influence on class and options
    (nor on the preamble). *)
Theorem C33_after_ignored : forall p pr c post d3, Forall (fun c => ~ is_document c) pr -> is_document c ->
  try_from3 p (pr ++ c :: post) = Ok d3 ->
  exists d3', try_from3 p pr = Ok d3' /\ d_class d3 = d_class d3' /\ d_options d3 = d_options d3' /\ d_preamable d3 = d_preamable d3'.
Proof. exact preamble_only. Qed.
Print Assumptions C33_after_ignored.
Definition C33_source : str := lines_of ["% x"; "\documentclass[a4paper]{article}\usepackage{x}"; "\begin{document}\documentclass{b}$x$\end{document}\documentclass{c}"]%string.
Example C33_example : exists d pr l args d3,
  from_str2 Debug C33_source = Ok d /\
  preamble_of d pr /\ class_commands pr = [(l, args)] /\ curly_texts args = [S! "article"] /\
  try_from3 Debug d = Ok d3 /\ d_class d3 = Some (S! "article").
Proof.
  let x := eval vm_compute in (from_str2 Debug C33_source) in
  match x with Ok ?d => let y := eval vm_compute in (firstn 4 d) in exists d, y end.
  eexists. eexists. eexists. split; [vm_compute; reflexivity|]. split.
  - split.
    + repeat constructor; intros (? & ? & ? & ? & ? & ?); discriminate.
    + right. eexists. eexists. split; [|reflexivity]. repeat eexists.
  - repeat (split; [vm_compute; reflexivity|]). vm_compute. reflexivity.
Qed.
Example C33_errors_example :
  (exists d, from_str2 Debug (lines_of ["\documentclass{a}"; "x"; "\documentclass{b}"]%string) = Ok d /\
     try_from3 Debug d = Err (mkError 3 DoubleDocumentClass)) /\
  (exists d, from_str2 Debug (lines_of ["x"; "\documentclass{a}[z]{b}"]%string) = Ok d /\
     try_from3 Debug d = Err (mkError 2 TooManyArgsDocumentClass)) /\
  (exists d d3, from_str2 Debug (lines_of ["\documentclass[z]"; "\documentclass{b}"]%string) = Ok d /\
     try_from3 Debug d = Ok d3 /\ d_class d3 = Some (S! "b")).
Proof.
  split; [|split].
  - eexists. split; [vm_compute; reflexivity|vm_compute; reflexivity].
  - eexists. split; [vm_compute; reflexivity|vm_compute; reflexivity].
  - eexists. eexists. split; [vm_compute; reflexivity|]. split; [vm_compute; reflexivity|vm_compute; reflexivity].
Qed.

(** ** C34: the document options.

    The claim is false: the first non-blank character of every option is lost, and the value recorded is the
    key once more. *)
Theorem C34_first_char_refuted : exists s d,
  from_str3 Debug s = Ok d /\ s = S! "\documentclass[12pt]{article}" /\ d_options d = [([], S! "2pt", None, [])].
Proof. exists (S! "\documentclass[12pt]{article}"). eexists. split; [vm_compute; reflexivity|]. split; [reflexivity|vm_compute; reflexivity]. Qed.
Print Assumptions C34_first_char_refuted.
(** two different options give the same entry: they cannot be rebuilt by any function *)
Theorem C34_rebuild_refuted : ~ exists rebuild : option_entry -> str, forall s o d,
  ~ In c_comma o -> from_str3 Release s = Ok d -> s = S! "\documentclass[" ++ o ++ S! "]{a}" ->
  exists e, d_options d = [e] /\ rebuild e = o.
Proof.
  intros (rebuild & H).
  assert (E : forall o, existsb (N.eqb c_comma) o = false -> forall d, from_str3 Release (S! "\documentclass[" ++ o ++ S! "]{a}") = Ok d ->
    d_options d = [([], S! "ey", Some ([], [], S! "ey"), [])] -> rebuild ([], S! "ey", Some ([], [], S! "ey"), []) = o).
  { intros o Ho d Hd Hop. destruct (H (S! "\documentclass[" ++ o ++ S! "]{a}") o d) as (e & He & <-); [|exact Hd|reflexivity|].
    - intros K. enough (existsb (N.eqb c_comma) o = true) by congruence. apply existsb_exists. exists c_comma. split; [exact K|reflexivity].
    - rewrite Hop in He. now injection He as <-. }
  assert (E1 : rebuild ([], S! "ey", Some ([], [], S! "ey"), []) = S! "key=val").
  { eapply E; [reflexivity|vm_compute; reflexivity|vm_compute; reflexivity]. }
  assert (E2 : rebuild ([], S! "ey", Some ([], [], S! "ey"), []) = S! "bey=other").
  { eapply E; [reflexivity|vm_compute; reflexivity|vm_compute; reflexivity]. }
  rewrite E1 in E2. discriminate E2.
Qed.
Print Assumptions C34_rebuild_refuted.
(** Exactly what is recorded: the pieces between commas are right, in order; each is read as
    [read_option] (SpecClass3.v) says. *)
Theorem C34_options_exact_partial : forall p d pr d3, preamble_of d pr -> try_from3 p d = Ok d3 ->
  exists pss, Forall2 pieces (all_options (class_commands pr)) pss /\ Forall2 read_option (concat pss) (d_options d3).
Proof.
  intros p d pr d3 H E. pose proof (class_exact p d pr H) as K. destruct (declared_class _); [rewrite K in E; discriminate|].
  destruct K as [K _]. destruct (K d3 E) as [_ ->]. clear. exists (map (split_on c_comma) (all_options (class_commands pr))).
  split; [induction (all_options (class_commands pr)); constructor; [apply split_on_pieces|assumption]|].
  rewrite flat_map_concat_map. induction (all_options (class_commands pr)) as [|t ts IH]; [constructor|]. cbn [map concat].
  apply Forall2_app; [|exact IH]. induction (split_on c_comma t); constructor; [apply option_read|assumption].
Qed.
Print Assumptions C34_options_exact_partial.
(** the pieces are determined by the text, and the entry by the piece *)
Theorem C34_pieces_unique : forall s ps qs, pieces s ps -> pieces s qs -> ps = qs.
Proof. exact pieces_unique. Qed.
Print Assumptions C34_pieces_unique.
Theorem C34_read_unique : forall o e e', read_option o e -> read_option o e' -> e = e'.
Proof. intros o e e' H H'. now rewrite (read_unique o e H), (read_unique o e' H'). Qed.
Print Assumptions C34_read_unique.
(** an option is the text of its entry only if it is blank *)
Theorem C34_rebuilt_iff_blank_partial : forall o e, read_option o e -> (render_option e = o <-> blank o).
Proof. intros o e H. rewrite (read_unique o e H). apply option_rebuilt. Qed.
Print Assumptions C34_rebuilt_iff_blank_partial.
Example C34_example : exists d pr d3,
  from_str2 Debug (S! "\documentclass[ a4paper ,,xkey = v w]{article}[, ]x") = Ok d /\ preamble_of d pr /\ try_from3 Debug d = Ok d3 /\
  d_options d3 = [(S! " ", S! "4paper", None, S! " "); ([], [], None, []); ([], S! "key", Some (S! " ", S! " ", S! "key"), []);
                  ([], [], None, []); ([], [], None, S! " ")].
Proof.
  let x := eval vm_compute in (from_str2 Debug (S! "\documentclass[ a4paper ,,xkey = v w]{article}[, ]x")) in match x with Ok ?d => exists d, d end.
  eexists. split; [vm_compute; reflexivity|]. split; [|split; [vm_compute; reflexivity|vm_compute; reflexivity]].
  split; [|now left]. repeat constructor; intros (? & ? & ? & ? & ? & ?); discriminate.
Qed.
