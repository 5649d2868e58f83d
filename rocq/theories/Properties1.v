(** * Properties1: the property theorems about stage 1 (src/ast1)

    Only statements, one-line proofs, assumptions and non-vacuity examples. *)
From Verif Require Import Base Ast1 Parse1 Spec1 SpecDoc1 SpecComments ModelTests1 Tok Pure1 Refine1 Gram1 Ind Lines Facts1 Comments1 Valid1 Ast2 Ast3 SpecDoc2 SpecDoc3 Valid2 Valid3 Rules.

(** ** C01: parsing always returns *)
Theorem C01_parse_total : forall p s, source_fits s ->
  (exists d, from_str1 p s = Ok d) \/ (exists e, from_str1 p s = Err e).
Proof.
  exact (fun p s B => match from_str1_toks p s B with
                      | conj E _ => eq_ind_r (fun r => (exists d, r = Ok d) \/ (exists e, r = Err e))
                          (match parse_toks (tokens s) as r return (exists d, inj r = Ok d) \/ (exists e, inj r = Err e) with
                           | ROk d => or_introl (ex_intro _ d eq_refl)
                           | RErr e => or_intror (ex_intro _ e eq_refl)
                           end) E
                      end).
Qed.
Print Assumptions C01_parse_total.
(** and both build profiles give the same result *)
Theorem C01_profiles_agree : forall s, source_fits s -> from_str1 Debug s = from_str1 Release s.
Proof. exact (fun s B => eq_trans (proj1 (from_str1_toks Debug s B)) (eq_sym (proj1 (from_str1_toks Release s B)))). Qed.
Print Assumptions C01_profiles_agree.
Example C01_example : source_fits (S! "\a [x] {y(z} % c"). Proof. reflexivity. Qed.

(** ** C02: Display reconstructs the source: refuted; what is true instead *)
Theorem C02_display_refuted : exists s d, from_str1 Debug s = Ok d /\ show1 d <> s.
Proof. exists (S! "(a)"). eexists. split; [vm_compute; reflexivity|discriminate]. Qed.
Print Assumptions C02_display_refuted.
(** further independent witnesses: comments, nested brackets in arguments, escaped bracket
    after a control word, lone backslash *)
Theorem C02_display_refuted_more :
  Forall (fun s => exists d, from_str1 Debug s = Ok d /\ show1 d <> s)
    [S! "a%b"; S! "\a{b{c}d}"; S! "\a\{x}"; S! "a\"].
Proof. repeat constructor; (eexists; split; [vm_compute; reflexivity|discriminate]). Qed.
Print Assumptions C02_display_refuted_more.
(** Display only ever deletes characters of the source or turns brackets into curly ones *)
Theorem C02_display_degrades_partial : forall p s d, source_fits s ->
  from_str1 p s = Ok d -> degrades s (show1 d).
Proof. exact from_str1_degrades. Qed.
Print Assumptions C02_display_degrades_partial.
(** so if nothing is missing, Display is the source *)
Theorem C02_display_exact_partial : forall p s d, source_fits s -> from_str1 p s = Ok d ->
  length (show1 d) = length s ->
  (forall x, In x (S! "([)]") -> count_char x (show1 d) = count_char x s) ->
  show1 d = s.
Proof. exact (fun p s d B H => degrades_exact s (show1 d) (from_str1_degrades p s d B H)). Qed.
Print Assumptions C02_display_exact_partial.
Example C02_example : exists d,
  let s := S! "a \b [c]{d \e f} {g} \\h" in
  from_str1 Debug s = Ok d /\ show1 d = s.
Proof. eexists. split; [vm_compute; reflexivity|vm_compute; reflexivity]. Qed.

(** ** C03: content conservation *)
Theorem C03_content : forall p s d, source_fits s -> from_str1 p s = Ok d ->
  content (show1 d) = content (strip_comments s).
Proof. exact from_str1_content. Qed.
Print Assumptions C03_content.
Example C03_example : exists d,
  from_str1 Debug (S! "a(b) \c{d{e}}%f") = Ok d /\ content (show1 d) = S! "ab cde".
Proof. eexists. split; [vm_compute; reflexivity|vm_compute; reflexivity]. Qed.

(** ** C04: comments do not matter *)
Theorem C04_comment_irrelevant : forall p a body b,
  fst (scan false false a) = false ->          (* the % is not escaped *)
  ~ In c_newline body -> ~ In c_bslash body ->
  (b = [] \/ exists b', b = c_newline :: b') ->
  source_fits (a ++ c_percent :: body ++ b) ->
  from_str1 p (a ++ c_percent :: body ++ b) = from_str1 p (a ++ b).
Proof. exact from_str1_comment. Qed.
Print Assumptions C04_comment_irrelevant.
Example C04_example :
  from_str1 Debug (S! "\a{b" ++ c_percent :: S! " }}" ++ c_newline :: S! "}") =
  from_str1 Debug (S! "\a{b" ++ c_newline :: S! "}").
Proof. vm_compute. reflexivity. Qed.
(** all comments of a source at once *)
Theorem C04_all_comments : forall p s, source_fits s -> quiet_comments s ->
  from_str1 p s = from_str1 p (strip_comments s).
Proof. exact from_str1_comments. Qed.
Print Assumptions C04_all_comments.
Example C04_all_example : let s := lines_of ["a%x"; "\b{%%"; "}\%% y"; ""]%string in
  quiet_comments s /\ strip_comments s = lines_of ["a"; "\b{"; "}\%"; ""]%string.
Proof.
  cbv zeta. split; [|vm_compute; reflexivity].
  intros a b. vm_compute (lines_of _).
  repeat (destruct a as [|? a]; [intros E; try discriminate E; reflexivity|
    cbn [app]; let F := fresh in intros F; injection F as <- F; revert F]);
  destruct a; discriminate.
Qed.
(** the condition on backslashes is needed: one inside a comment escapes the newline *)
Theorem C04_backslash_in_comment_refuted : exists a body b,
  fst (scan false false a) = false /\ ~ In c_newline body /\ b <> [] /\
  from_str1 Debug (a ++ c_percent :: body ++ c_newline :: b) <> from_str1 Debug (a ++ c_newline :: b).
Proof.
  exists (S! "a"), [c_bslash], (S! "b"). split; [reflexivity|]. split; [intros [H|[]]; discriminate|].
  split; [discriminate|]. vm_compute. discriminate.
Qed.
Print Assumptions C04_backslash_in_comment_refuted.

(** ** C05: line count *)
Theorem C05_line_count : forall p s d, source_fits s -> from_str1 p s = Ok d ->
  @lines1 error p d = Ok (1 + count_newlines s).
Proof. exact (@from_str1_lines error). Qed.
Print Assumptions C05_line_count.
Example C05_example : exists d, from_str1 Debug (lines_of ["a%x"; "\b{"; "}"; ""]%string) = Ok d /\
  @lines1 error Debug d = Ok 4.
Proof. eexists. split; [vm_compute; reflexivity|vm_compute; reflexivity]. Qed.

(** ** C06: chunk line numbers: refuted in two corner cases; exact otherwise *)
Theorem C06_lines_refuted : exists s d cs pre c post,
  from_str1 Debug s = Ok d /\ within1 d cs /\ cs = pre ++ c :: post /\
  line_no1 c <> 1 + count_newlines (show1 pre).
Proof.
  exists [c_bslash; c_newline]. eexists. eexists. exists []. eexists. exists [].
  split; [vm_compute; reflexivity|]. split; [constructor|]. split; [reflexivity|]. vm_compute. discriminate.
Qed.
Print Assumptions C06_lines_refuted.
(** the exact line number of every chunk at every depth *)
Theorem C06_lines_partial : forall p s d, source_fits s -> from_str1 p s = Ok d ->
  forall cs, within1 d cs -> forall pre c post, cs = pre ++ c :: post ->
  line_no1 c = 1 + count_newlines (show1 pre) + extra_line pre c post.
Proof. exact from_str1_chunk_lines. Qed.
Print Assumptions C06_lines_partial.
Example C06_example : exists d c, from_str1 Debug (lines_of ["a"; "\b{c"; "\d}"; "e"]%string) = Ok d /\
  nth_error d 2 = Some c /\ line_no1 c = 3.
Proof. eexists. eexists. split; [vm_compute; reflexivity|]. split; [vm_compute; reflexivity|]. vm_compute; reflexivity. Qed.

(** ** C07: error reports *)
Theorem C07_errors : forall p s e, source_fits s -> from_str1 p s = Err e ->
  1 <= err_line e <= 1 + count_newlines s /\
  (exists v, err_type e = UnexpectedClosing v \/ err_type e = UnclosedArgument v \/ err_type e = UnclosedScope v).
Proof. exact from_str1_errors. Qed.
Print Assumptions C07_errors.
Example C07_example : from_str1 Debug (lines_of ["a"; "\b{c"; ""]%string) = Err (mkError 2 (UnclosedArgument Curly1)).
Proof. vm_compute. reflexivity. Qed.

(** ** C08: normal form *)
Theorem C08_no_empty_text : forall p s d, source_fits s -> from_str1 p s = Ok d ->
  forall cs l t, within1 d cs -> In (mkChunk1 l (Text1 t)) cs -> t <> [].
Proof. exact from_str1_no_empty. Qed.
Print Assumptions C08_no_empty_text.
Theorem C08_no_adjacent : forall p s d, source_fits s -> from_str1 p s = Ok d ->
  forall cs pre a b post, within1 d cs -> cs = pre ++ a :: b :: post ->
  is_text1 a && is_text1 b = false /\            (* no two adjacent texts *)
  is_word1 a && is_scope1 b = false /\           (* no scope after a control word *)
  match post with                                (* nor after it and blanks *)
  | c :: _ => is_word1 a && is_blank1 b && is_scope1 c = false
  | [] => True
  end.
Proof. exact from_str1_adjacent. Qed.
Print Assumptions C08_no_adjacent.
Example C08_example : exists d, from_str1 Debug (S! "a \b {c}d{e} f\g h") = Ok d /\ length d = 7%nat.
Proof. eexists. split; [vm_compute; reflexivity|vm_compute; reflexivity]. Qed.

(** ** C10: what can make a parsed document invalid *)
Theorem C10_labels_valid : forall p s d, source_fits s -> from_str1 p s = Ok d ->
  forall cs l lab args, within1 d cs -> In (mkChunk1 l (Command1 (mkCommand1 lab args))) cs ->
  clean_label lab = true.
Proof. exact from_str1_labels. Qed.
Print Assumptions C10_labels_valid.
Theorem C10_only_closing : forall p p' s d c, source_fits s -> from_str1 p s = Ok d ->
  validate1 p' d = Err (UnsanitisedCharInString c) -> is_closing c = true.
Proof. exact from_str1_only_closing. Qed.
Print Assumptions C10_only_closing.
Theorem C10_validate_iff : forall p p' s d, source_fits s -> from_str1 p s = Ok d ->
  (validate1 p' d = Ok tt <->
   lines_add_up1 d /\
   forall cs l t, within1 d cs -> In (mkChunk1 l (Text1 t)) cs -> existsb is_closing t = false).
Proof. exact from_str1_validate_iff. Qed.
Print Assumptions C10_validate_iff.
Example C10_example : exists d, from_str1 Debug (S! "a)") = Ok d /\
  validate1 Debug d = Err (UnsanitisedCharInString c_rround).
Proof. eexists. split; [vm_compute; reflexivity|vm_compute; reflexivity]. Qed.

(** ** C11 (stage 1): lines() counts the newlines of Display *)
Theorem C11_lines_chunk1 : forall p c, 1 + count_newlines (show_chunk1 c) < two32 ->
  @lines_chunk1 error p c = Ok (1 + count_newlines (show_chunk1 c)).
Proof. exact (@lines_ok1 error). Qed.
Print Assumptions C11_lines_chunk1.
Theorem C11_lines_scope1 : forall p c, 1 + count_newlines (show_scope1 c) < two32 ->
  @lines_scope1 error p c = Ok (1 + count_newlines (show_scope1 c)).
Proof. exact (@lines_scope1_correct error). Qed.
Print Assumptions C11_lines_scope1.
Theorem C11_lines_command1 : forall p c, 1 + count_newlines (show_command1 c) < two32 ->
  @lines_command1 error p c = Ok (1 + count_newlines (show_command1 c)).
Proof. exact (@lines_command1_correct error). Qed.
Print Assumptions C11_lines_command1.
Theorem C11_lines_document1 : forall p d, 1 + count_newlines (show1 d) < two32 ->
  @lines1 error p d = Ok (1 + count_newlines (show1 d)).
Proof. exact (@lines1_correct error). Qed.
Print Assumptions C11_lines_document1.

(** ** C12 (stage 1): pushing appends to Display *)
Theorem C12_push1 : forall p d v d', push1 p d v = Ok d' -> show1 d' = show1 d ++ show_variant1 v.
Proof. exact push1_show. Qed.
Print Assumptions C12_push1.
Theorem C12_push_chunk1 : forall p d c d', push_chunk1 p d c = Ok d' -> show1 d' = show1 d ++ show_chunk1 c.
Proof. exact push_chunk1_show. Qed.
Print Assumptions C12_push_chunk1.
(** the chunk is appended, or merged into a last text *)
Theorem C12_push_chunk1_list : forall p d c d', push_chunk1 p d c = Ok d' ->
  (d' = d ++ [c] /\ ~ (is_text1 c = true /\ exists d0 x, d = d0 ++ [x] /\ is_text1 x = true)) \/
  (exists d0 l s l' s', d = d0 ++ [mkChunk1 l (Text1 s)] /\ c = mkChunk1 l' (Text1 s') /\
     d' = d0 ++ [mkChunk1 l (Text1 (s ++ s'))]).
Proof. exact push_chunk1_list. Qed.
Print Assumptions C12_push_chunk1_list.
Example C12_example : push1 Debug [mkChunk1 1 (Text1 (S! "a"))] (Text1 (S! "b")) =
  Ok [mkChunk1 1 (Text1 (S! "ab"))].
Proof. reflexivity. Qed.

(** ** C13 (stage 1): any history of pushes keeps a valid document valid *)
Theorem C13_history1 : forall p d ops, well_formed1 d ->
  2 + count_newlines (show1 d) + count_newlines (concat (map op_text1 ops)) < two32 ->
  exists d', run_ops1 p d ops = Ok d' /\ validate1 p d' = Ok tt.
Proof. exact run_ops1_valid. Qed.
Print Assumptions C13_history1.
Example C13_example : well_formed1 [] /\ run_ops1 Debug []
   [OpPush1 (Text1 [97; c_newline]); OpPush1 (Text1 (S! "%")); OpPushChunk1 (mkChunk1 2 (Text1 (S! "b")))]
   = Ok [mkChunk1 1 (Text1 [97; c_newline; 98])].
Proof.
  split; [|reflexivity]. apply (validate1_iff Debug []); reflexivity.
Qed.

(** ** C14 (stage 1): decision rule of push_chunk *)
Theorem C14_push_chunk1 : forall p d c, well_formed1 d -> 2 + count_newlines (show1 d) < two32 ->
  (forall e, validate_chunk1 c = Err e -> push_chunk1 p d c = Err e) /\
  (validate_chunk1 c = Ok tt -> line_no1 c <> 1 + count_newlines (show1 d) ->
     push_chunk1 p d c = Err (IncorrectChunkLineNumber (1 + count_newlines (show1 d)) (line_no1 c))) /\
  (validate_chunk1 c = Ok tt -> line_no1 c = 1 + count_newlines (show1 d) ->
     exists d', push_chunk1 p d c = Ok d').
Proof. exact push_chunk1_rule. Qed.
Print Assumptions C14_push_chunk1.

(** the same for any document, valid or not: the exact result of push_chunk and push *)
Theorem C14_push_chunk1_any : forall p d c L, ends_at1 d L -> L + 1 < two32 ->
  (forall e, validate_chunk1 c = Err e -> push_chunk1 p d c = Err e) /\
  (validate_chunk1 c = Ok tt -> line_no1 c <> L ->
     push_chunk1 p d c = Err (IncorrectChunkLineNumber L (line_no1 c))) /\
  (validate_chunk1 c = Ok tt -> line_no1 c = L ->
     exists d', push_chunk1 p d c = Ok d' /\ joined1 d c d').
Proof. exact push_chunk1_any. Qed.
Print Assumptions C14_push_chunk1_any.
Theorem C14_push1_any : forall p d v L, ends_at1 d L -> L + 1 < two32 ->
  (forall e, validate_variant1 v = Err e -> push1 p d v = Err e) /\
  (validate_variant1 v = Ok tt -> exists d', push1 p d v = Ok d' /\ joined1 d (mkChunk1 L v) d').
Proof. exact push1_any. Qed.
Print Assumptions C14_push1_any.
Example C14_example : ends_at1 [mkChunk1 7 (Text1 [97; c_newline])] 8.
Proof. right. exists [], (mkChunk1 7 (Text1 [97; c_newline])). split; reflexivity. Qed.

(** ** C15 (stage 1): validate decides well-formedness *)
Theorem C15_validate1 : forall p d, 1 + count_newlines (show1 d) < two32 ->
  (validate1 p d = Ok tt <-> well_formed1 d).
Proof. exact validate1_iff. Qed.
Print Assumptions C15_validate1.
Example C15_example : validate1 Debug
  [mkChunk1 1 (Text1 [97; c_newline]); mkChunk1 2 (Command1 (mkCommand1 (S! "%") [([], mkScope1 [] Square1)]))] = Ok tt.
Proof. reflexivity. Qed.

(** ** C41: the parser accepts exactly the declared grammar *)
Theorem C41_grammar : forall p s d, source_fits s ->
  (from_str1 p s = Ok d <-> parses 1 (tokens s) d).
Proof. exact from_str1_iff. Qed.
Print Assumptions C41_grammar.
