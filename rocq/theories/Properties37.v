(** * Properties37: the conversions work piece by piece (C83: between stages 1 and 2; C84: to stage 3)

    Only statements, short proofs from lemmas, assumptions and non-vacuity examples. *)
From Verif Require Import Base Ast1 Parse1 Ast2 Ast3 ModelTests1 Spec2 SpecBuild SpecMaths3 SpecReads SpecClass3 Fail2 Compose2 Compose3.
Local Open Scope N_scope.

(** ** C83: stage 1 to stage 2 *)
Theorem C83_append : forall p a b x, try_from2 p a = Ok x ->
  match try_from2 p b with
  | Ok y => try_from2 p (a ++ b) = Ok (x ++ y)
  | Err e => try_from2 p (a ++ b) = Err e
  | Panic => try_from2 p (a ++ b) = Panic
  | OutOfFuel => False
  end.
Proof.
  intros p a b x H. rewrite (convert_append p a b x H). pose proof (try_from2_total p b) as T. destruct (try_from2 p b); cbn [bind]; auto.
Qed.
Print Assumptions C83_append.
Theorem C83_rest : forall p a b x z, try_from2 p a = Ok x -> try_from2 p (a ++ b) = Ok z -> exists y, try_from2 p b = Ok y /\ z = x ++ y.
Proof.
  intros p a b x z H K. rewrite (convert_append p a b x H) in K. destruct (try_from2 p b) as [y| | |]; cbn [bind] in K; try discriminate.
  injection K as <-. eauto.
Qed.
Print Assumptions C83_rest.
(** a piece that converts on its own can be taken out, or put anywhere *)
Theorem C83_middle : forall p a b c x y z, try_from2 p a = Ok x -> try_from2 p b = Ok y ->
  (try_from2 p (a ++ b ++ c) = Ok (x ++ y ++ z) <-> try_from2 p (a ++ c) = Ok (x ++ z)).
Proof.
  intros p a b c x y z Ha Hb. rewrite !(convert_append p a _ x Ha), (convert_append p b c y Hb).
  destruct (try_from2 p c) as [w| | |]; cbn [bind]; [|split; intros [=]..].
  split; intros H; injection H as H; apply app_inv_head in H; [apply app_inv_head in H|]; now subst.
Qed.
Print Assumptions C83_middle.
(** an error is not cured by what comes behind, unless it is a [\begin] (not inside anything, all before it in order) that is not closed *)
Theorem C83_error_stays : forall p a b e, try_from2 p a = Err e ->
  try_from2 p (a ++ b) = Err e \/
  exists pre x l pb lab args rest, a = pre ++ begin_cmd l pb lab args :: rest /\ try_from2 p pre = Ok x /\
    err_type e = UnclosedEnvironment (show1 lab).
Proof. exact error_stays. Qed.
Print Assumptions C83_error_stays.
Theorem C83_panic_stays : forall p a b, try_from2 p a = Panic -> try_from2 p (a ++ b) = Panic.
Proof. exact panic_stays. Qed.
Print Assumptions C83_panic_stays.

(** ** C83: stage 2 to stage 1; adjacent texts become one *)
Theorem C83_down : forall E p a b, match @from2_to1 E p a, @from2_to1 E p b with
  | Ok x, Ok y => @from2_to1 E p (a ++ b) = Ok (join1 (x ++ y))
  | Ok _, r => @from2_to1 E p (a ++ b) = r
  | r, _ => @from2_to1 E p (a ++ b) = r
  end.
Proof. intros E p a b. rewrite down_append. destruct (from2_to1 p a); cbn [bind]; auto. destruct (from2_to1 p b); cbn [bind]; auto. Qed.
Print Assumptions C83_down.

(** examples: two pieces of a document, the second one fails, panics, or joins *)
Definition C83_one : list chunk1 := [begin_cmd 1 [] [mkChunk1 1 (Text1 (S! "q"))] []; mkChunk1 1 (Text1 (S! "x")); end_cmd 1 [] [mkChunk1 1 (Text1 (S! "q"))]].
Definition C83_two : list chunk1 := [mkChunk1 1 (Text1 (S! "y")); mkChunk1 1 (Scope1 (mkScope1 C83_one Curly1))].
Example C83_example : exists x y, try_from2 Debug C83_one = Ok x /\ try_from2 Debug C83_two = Ok y /\ try_from2 Debug (C83_one ++ C83_two) = Ok (x ++ y) /\ length (x ++ y) = 3%nat.
Proof.
  let x := eval vm_compute in (try_from2 Debug C83_one) in match x with Ok ?d => exists d end.
  let x := eval vm_compute in (try_from2 Debug C83_two) in match x with Ok ?d => exists d end.
  repeat split; vm_compute; reflexivity.
Qed.
Example C83_example_error : try_from2 Debug (C83_one ++ [end_cmd 4 [] []]) = Err (mkError 4 (UnexpectedEnd [])) /\
  try_from2 Debug ([end_cmd 4 [] []] ++ C83_one) = Err (mkError 4 (UnexpectedEnd [])).
Proof. split; vm_compute; reflexivity. Qed.
(** the exception of C83_error_stays is real *)
Example C83_example_cured : try_from2 Debug (firstn 2 C83_one) = Err (mkError 1 (UnclosedEnvironment (S! "q"))) /\
  exists x, try_from2 Debug (firstn 2 C83_one ++ skipn 2 C83_one) = Ok x.
Proof. split; [vm_compute; reflexivity|]. let x := eval vm_compute in (try_from2 Debug C83_one) in match x with Ok ?d => exists d end. vm_compute. reflexivity. Qed.
Example C83_example_panic : try_from2 Debug [begin_cmd 3 [] [] []; mkChunk1 1 (Text1 []); end_cmd 3 [] []] = Panic.
Proof. vm_compute. reflexivity. Qed.
Example C83_example_down : @from2_to1 error Debug [mkChunk2 1 (Text2 (S! "a"))] = Ok [mkChunk1 1 (Text1 (S! "a"))] /\
  @from2_to1 error Debug ([mkChunk2 1 (Text2 (S! "a"))] ++ [mkChunk2 2 (Text2 (S! "b"))]) = Ok [mkChunk1 1 (Text1 (S! "ab"))].
Proof. split; vm_compute; reflexivity. Qed.

(** ** C84: to stage 3 *)
(** behind a document *)
Theorem C84_after : forall p d c x y, try_from3 p d = Ok x -> (exists k, In k d /\ is_document k) ->
  Forall (fun k => ~ is_document k) c -> try_from3 p c = Ok y ->
  try_from3 p (d ++ c) = Ok (mkDoc3 (d_class x) (d_options x) (d_preamable x) (d_body x) (d_body_args x) (d_begin_prec x) (d_end_prec x)
                               (d_trailing x ++ d_preamable y)).
Proof. exact after_document. Qed.
Print Assumptions C84_after.
Theorem C84_after_error : forall p d c x e, try_from3 p d = Ok x -> (exists k, In k d /\ is_document k) ->
  Forall (fun k => ~ is_document k) c -> maths_from_chunks p c = Err e ->
  exists e', try_from3 p (d ++ c) = Err e' /\ err_type e' = err_type e.
Proof. exact after_document_err. Qed.
Print Assumptions C84_after_error.
Theorem C84_after_panic : forall p d c x, try_from3 p d = Ok x -> (exists k, In k d /\ is_document k) ->
  Forall (fun k => ~ is_document k) c -> maths_from_chunks p c = Panic -> try_from3 p (d ++ c) = Panic.
Proof. exact after_document_panic. Qed.
Print Assumptions C84_after_panic.
(** before a document *)
Theorem C84_before : forall p a d y, Forall (fun k => ~ is_document k) a -> class_commands a = [] -> try_from3 p a = Ok y ->
  match try_from3 p d with
  | Ok x => try_from3 p (a ++ d) = Ok (mkDoc3 (d_class x) (d_options x) (d_preamable y ++ d_preamable x) (d_body x) (d_body_args x) (d_begin_prec x)
                                         (d_end_prec x) (d_trailing x))
  | Err e => exists e', try_from3 p (a ++ d) = Err e' /\ err_type e' = err_type e
  | Panic => try_from3 p (a ++ d) = Panic
  | OutOfFuel => False
  end.
Proof. exact before_document. Qed.
Print Assumptions C84_before.
(** inside a document *)
Theorem C84_inside : forall p pre l args content pb pe post c x y, Forall (fun k => ~ is_document k) post ->
  Forall (fun k => ~ is_document k) c ->
  try_from3 p (pre ++ mkChunk2 l (Environment2 (mkEnv2 (S! "document") args content pb pe)) :: post) = Ok x ->
  try_from3 p c = Ok y ->
  try_from3 p (pre ++ mkChunk2 l (Environment2 (mkEnv2 (S! "document") args (content ++ c) pb pe)) :: post) =
  Ok (mkDoc3 (d_class x) (d_options x) (d_preamable x) (d_body x ++ d_preamable y) (d_body_args x) (d_begin_prec x) (d_end_prec x) (d_trailing x)).
Proof. exact inside_document. Qed.
Print Assumptions C84_inside.
(** examples: a document, a piece with maths and a paragraph break, a class command behind a document *)
Definition C84_doc : list chunk2 := [mkChunk2 1 (Command2 (mkCommand2 (S! "documentclass") [([], mkScope2 [mkChunk2 1 (Text2 (S! "a"))] Curly2)]));
  mkChunk2 2 (Environment2 (mkEnv2 (S! "document") [] [mkChunk2 1 (Text2 (S! "hello"))] [] []))].
Definition C84_piece : list chunk2 := [mkChunk2 3 (Text2 (S! "x $y$ z" ++ [c_newline; c_newline] ++ S! "w"))].
Lemma C84_no_document : Forall (fun k => ~ is_document k) C84_piece.
Proof. constructor; [|constructor]. intros (? & ? & ? & ? & ? & H). discriminate. Qed.
Definition C84_class : list chunk2 := [mkChunk2 3 (Command2 (mkCommand2 (S! "documentclass") [([], mkScope2 [mkChunk2 1 (Text2 (S! "b"))] Curly2)]))].
Example C84_example_after : exists x y z, try_from3 Debug C84_doc = Ok x /\ try_from3 Debug C84_piece = Ok y /\ try_from3 Debug (C84_doc ++ C84_piece) = Ok z /\
  d_trailing z = d_preamable y /\ length (d_trailing z) = 5%nat /\ d_class z = Some (S! "a").
Proof.
  let x := eval vm_compute in (try_from3 Debug C84_doc) in match x with Ok ?d => exists d end.
  let x := eval vm_compute in (try_from3 Debug C84_piece) in match x with Ok ?d => exists d end.
  let x := eval vm_compute in (try_from3 Debug (C84_doc ++ C84_piece)) in match x with Ok ?d => exists d end.
  repeat split; vm_compute; reflexivity.
Qed.
Example C84_example_before : class_commands C84_piece = [] /\ exists z, try_from3 Debug (C84_piece ++ C84_doc) = Ok z /\ length (d_preamable z) = 6%nat /\ d_class z = Some (S! "a").
Proof.
  split; [reflexivity|]. let x := eval vm_compute in (try_from3 Debug (C84_piece ++ C84_doc)) in match x with Ok ?d => exists d end.
  repeat split; vm_compute; reflexivity.
Qed.
(** without the condition on class commands C84_before would be false: alone both convert, together they do not *)
Example C84_two_classes : (exists y, try_from3 Debug C84_class = Ok y) /\ (exists x, try_from3 Debug C84_doc = Ok x) /\
  try_from3 Debug (C84_class ++ C84_doc) = Err (mkError 1 DoubleDocumentClass) /\ (exists z, try_from3 Debug (C84_doc ++ C84_class) = Ok z /\ d_class z = Some (S! "a")).
Proof.
  split; [let x := eval vm_compute in (try_from3 Debug C84_class) in match x with Ok ?d => exists d end; vm_compute; reflexivity|].
  split; [let x := eval vm_compute in (try_from3 Debug C84_doc) in match x with Ok ?d => exists d end; vm_compute; reflexivity|].
  split; [vm_compute; reflexivity|]. let x := eval vm_compute in (try_from3 Debug (C84_doc ++ C84_class)) in match x with Ok ?d => exists d end; split; vm_compute; reflexivity.
Qed.
Example C84_example_error : exists e, maths_from_chunks Debug [mkChunk2 1 (Text2 (S! "a $b"))] = Err e /\ exists e', try_from3 Debug (C84_doc ++ [mkChunk2 1 (Text2 (S! "a $b"))]) = Err e' /\ err_type e' = UnclosedMaths.
Proof. eexists. split; [vm_compute; reflexivity|]. eexists. split; [vm_compute; reflexivity|]. reflexivity. Qed.
Example C84_example_panic : exists c, from_str2 Debug (lines_of ["$\alpha x"; ""; "\beta y$"]%string) = Ok c /\ maths_from_chunks Debug c = Panic /\ try_from3 Debug (C84_doc ++ c) = Panic /\
  (exists x, try_from3 Debug C84_doc = Ok x) /\ is_document (mkChunk2 2 (Environment2 (mkEnv2 (S! "document") [] [mkChunk2 1 (Text2 (S! "hello"))] [] []))).
Proof.
  let x := eval vm_compute in (from_str2 Debug (lines_of ["$\alpha x"; ""; "\beta y$"]%string)) in match x with Ok ?d => exists d end.
  split; [vm_compute; reflexivity|]. split; [vm_compute; reflexivity|]. split; [vm_compute; reflexivity|]. split.
  - let x := eval vm_compute in (try_from3 Debug C84_doc) in match x with Ok ?d => exists d end. vm_compute. reflexivity.
  - repeat eexists.
Qed.
Example C84_example_inside : exists z, try_from3 Debug [mkChunk2 2 (Environment2 (mkEnv2 (S! "document") [] ([mkChunk2 1 (Text2 (S! "hello"))] ++ C84_piece) [] []))] = Ok z /\ length (d_body z) = 6%nat.
Proof.
  let x := eval vm_compute in (try_from3 Debug [mkChunk2 2 (Environment2 (mkEnv2 (S! "document") [] ([mkChunk2 1 (Text2 (S! "hello"))] ++ C84_piece) [] []))]) in match x with Ok ?d => exists d end.
  split; vm_compute; reflexivity.
Qed.
