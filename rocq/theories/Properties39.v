(** * Properties39: C87 *)
From Coq Require Import Lia.
From Verif Require Import Base Ast1 Parse1 Ast2 Ast3 SpecDoc1 SpecClass3 SpecReads SpecPrefix Spec1 Reads Properties1 Properties2 Properties38 Prefix5 Prefix6.
Local Open Scope N_scope.

Lemma range_texts l cs : in_range cs -> (forall c, In c l -> In c cs) -> Forall textc l.
Proof.
  intros R S. rewrite Forall_forall. intros [n v] I. destruct v; cbn; auto. inversion R as [cs0 H1 H2 H3]; subst. apply (H2 n s). now apply S.
Qed.
Lemma kept_sources p s t x x' : source_fits (s ++ t) -> count_newlines s < 2147483648 -> from_str3 p s = Ok x -> from_str3 p (s ++ t) = Ok x' ->
  exists same tail rest, from_str2 p s = Ok (same ++ tail) /\ from_str2 p (s ++ t) = Ok (same ++ rest) /\ continues2 tail rest /\
    keeps 3 (d_preamable x) (d_preamable x') /\ keeps 3 (d_trailing x) (d_trailing x') /\ grow x x' /\
    (Exists is_document same -> d_preamable x' = d_preamable x /\ same_class x x') /\
    (Forall (fun c => ~ is_document c) rest -> same_body x x').
Proof.
  intros B Bn H H'. assert (B0 : source_fits s) by (unfold source_fits in *; rewrite app_length in B; lia).
  unfold from_str3 in H, H'. destruct (from_str2 p s) as [d| | |] eqn:E; cbn [bind] in H; try discriminate. destruct (from_str2 p (s ++ t)) as [d'| | |] eqn:E'; cbn [bind] in H'; try discriminate.
  destruct (C85_kept2 p p s t d d' B E E') as (same & tail & rest & -> & -> & C). exists same, tail, rest. split; [reflexivity|]. split; [reflexivity|]. split; [exact C|].
  apply (kept3 p same tail rest x x' C); auto. apply (range_texts tail (same ++ tail)); [exact (parsed_in_range p s _ B0 Bn E)|]. intros c I. apply in_or_app. now right.
Qed.
Lemma tail_documents tail rest : continues2 tail rest -> ~ Exists is_document tail.
Proof. intros C K. destruct C; repeat match goal with H : Exists _ (_ :: _) |- _ => apply Exists_cons in H as [H|H] | H : Exists _ [] |- _ => inversion H end; destruct K as (? & ? & ? & ? & ? & K); discriminate K. Qed.

(** ** C87: What a longer source keeps at stage 3 *)
(** the preamble and what stands behind the document environment keep all but their last three chunks; the class stays and options are only added *)
Theorem C87_sections : forall p s t x x', source_fits (s ++ t) -> count_newlines s < 2147483648 -> from_str3 p s = Ok x -> from_str3 p (s ++ t) = Ok x' ->
  all_but 3 (d_preamable x) (d_preamable x') /\ all_but 3 (d_trailing x) (d_trailing x').
Proof. intros p s t x x' B Bn H H'. destruct (kept_sources p s t x x' B Bn H H') as (same & tail & rest & _ & _ & _ & K1 & K2 & _). split; assumption. Qed.
Theorem C87_class : forall p s t x x' c, source_fits (s ++ t) -> count_newlines s < 2147483648 -> from_str3 p s = Ok x -> from_str3 p (s ++ t) = Ok x' ->
  d_class x = Some c -> d_class x' = Some c.
Proof. intros p s t x x' c B Bn H H'. destruct (kept_sources p s t x x' B Bn H H') as (same & tail & rest & _ & _ & _ & _ & _ & [K _] & _). apply K. Qed.
Theorem C87_options : forall p s t x x', source_fits (s ++ t) -> count_newlines s < 2147483648 -> from_str3 p s = Ok x -> from_str3 p (s ++ t) = Ok x' ->
  exists more, d_options x' = d_options x ++ more.
Proof. intros p s t x x' B Bn H H'. destruct (kept_sources p s t x x' B Bn H H') as (same & tail & rest & _ & _ & _ & _ & _ & [_ K] & _). exact K. Qed.
(** once a document environment has been read, the preamble, the class and the options are final *)
Theorem C87_document : forall p s t d x x', source_fits (s ++ t) -> count_newlines s < 2147483648 -> from_str3 p s = Ok x -> from_str3 p (s ++ t) = Ok x' ->
  from_str2 p s = Ok d -> Exists is_document d ->
  d_preamable x' = d_preamable x /\ d_class x' = d_class x /\ d_options x' = d_options x.
Proof.
  intros p s t d x x' B Bn H H' D Ex. destruct (kept_sources p s t x x' B Bn H H') as (same & tail & rest & D' & _ & C & _ & _ & _ & K & _). rewrite D in D'. injection D' as ->.
  apply Exists_app in Ex as [Ex|Ex]; [|now destruct (tail_documents _ _ C Ex)]. destruct (K Ex) as [X [Y Z]]. auto.
Qed.
(** and so is the body, unless there is a second document environment, which would replace it *)
Theorem C87_body : forall p s t d a c b x x', source_fits (s ++ t) -> count_newlines s < 2147483648 -> from_str3 p s = Ok x -> from_str3 p (s ++ t) = Ok x' ->
  from_str2 p s = Ok d -> Exists is_document d ->
  from_str2 p (s ++ t) = Ok (a ++ c :: b) -> ~ Exists is_document (a ++ b) ->
  d_body x' = d_body x /\ d_body_args x' = d_body_args x /\ d_begin_prec x' = d_begin_prec x /\ d_end_prec x' = d_end_prec x.
Proof.
  intros p s t d a c b x x' B Bn H H' D Ex D2 Nx. destruct (kept_sources p s t x x' B Bn H H') as (same & tail & rest & D' & D2' & C & _ & _ & _ & _ & K). rewrite D in D'. injection D' as ->. rewrite D2 in D2'. injection D2' as E.
  apply Exists_app in Ex as [Ex|Ex]; [|now destruct (tail_documents _ _ C Ex)]. apply K. rewrite Exists_app in Nx.
  assert (F : forall l : list chunk2, ~ Exists is_document l -> Forall (fun c => ~ is_document c) l) by (intros l; apply Forall_Exists_neg).
  clear - E Ex Nx F. revert a E Nx. induction Ex as [c0 l H0|c0 l H0 IH]; intros a E Nx.
  - destruct a as [|c1 a]; cbn [app] in E; injection E as E0 E.
    + rewrite E in Nx. apply F. intros K. apply Nx. right. apply Exists_app. now right.
    + exfalso. apply Nx. left. subst c1. now left.
  - destruct a as [|c1 a]; cbn [app] in E; injection E as E0 E.
    + exfalso. apply Nx. right. rewrite E. apply Exists_app. now left.
    + apply (IH a); [exact E|]. intros [K|K]; apply Nx; [left; now right|now right].
Qed.
Print Assumptions C87_sections.
Print Assumptions C87_class.
Print Assumptions C87_options.
Print Assumptions C87_document.
Print Assumptions C87_body.

(** three chunks of the preamble can be replaced by one, and no more *)
Ltac run3 := match goal with |- exists x x', ?a = Ok x /\ ?b = Ok x' /\ _ =>
    let u := eval vm_compute in a in let v := eval vm_compute in b in match u with Ok ?d => match v with Ok ?d' => exists d, d' end end end; split; [vm_compute; reflexivity|]; split; [vm_compute; reflexivity|].
Example C87_example_three : exists x x', from_str3 Debug (S! "x\a  " ++ [10; 10] ++ S! "  ") = Ok x /\ from_str3 Debug ((S! "x\a  " ++ [10; 10] ++ S! "  ") ++ S! "[b]") = Ok x' /\
  d_preamable x = [mkChunk3 1 (Text3 (S! "x"))] ++ [mkChunk3 1 (Command3 (mkCommand3 (S! "a") [])); mkChunk3 3 (Text3 (S! "  ")); mkChunk3 3 (ParagraphBreak3 ([10; 10] ++ S! "  "))] /\
  exists c, d_preamable x' = [mkChunk3 1 (Text3 (S! "x"))] ++ [mkChunk3 1 (Command3 c)].
Proof. run3. split; [reflexivity|eexists; reflexivity]. Qed.
(** text that goes on splits anew from its last piece on, maths may follow *)
Example C87_example_text : exists x x', from_str3 Debug (S! "a" ++ [10; 10] ++ S! "b") = Ok x /\ from_str3 Debug ((S! "a" ++ [10; 10] ++ S! "b") ++ S! "c$d$") = Ok x' /\
  exists k, d_preamable x = k ++ [mkChunk3 3 (Text3 (S! "b"))] /\ length k = 2%nat /\ exists m, d_preamable x' = k ++ [mkChunk3 3 (Text3 (S! "bc")); m].
Proof. run3. eexists [_; _]. split; [reflexivity|]. split; [reflexivity|]. eexists; reflexivity. Qed.
(** what stands behind the document environment goes on, everything else is final *)
Definition C87_head : str := S! "\documentclass[o]{c}x\begin{document}y$z$\end{document} w".
Example C87_example_document : exists x x', from_str3 Debug C87_head = Ok x /\ from_str3 Debug (C87_head ++ S! "v\[u\]") = Ok x' /\
  d_class x = Some (S! "c") /\ length (d_preamable x) = 2%nat /\ length (d_body x) = 2%nat /\ d_body x' = d_body x /\ d_preamable x' = d_preamable x /\
  d_trailing x = [mkChunk3 1 (Text3 (S! " w"))] /\ exists m, d_trailing x' = [mkChunk3 1 (Text3 (S! " wv")); m].
Proof. run3. repeat split. eexists; reflexivity. Qed.
(** the hypotheses of [C87_body] *)
Example C87_example_one : exists d a c b, from_str2 Debug C87_head = Ok d /\ Exists is_document d /\ from_str2 Debug (C87_head ++ S! "v\[u\]") = Ok (a ++ c :: b) /\ ~ Exists is_document (a ++ b).
Proof.
  let u := eval vm_compute in (from_str2 Debug C87_head) in match u with Ok ?d => exists d end.
  let u := eval vm_compute in (from_str2 Debug (C87_head ++ S! "v\[u\]")) in match u with Ok [?x; ?y; ?c; ?z; ?m; ?w; ?v] => exists [x; y], c, [z; m; w; v] end.
  split; [vm_compute; reflexivity|]. split; [right; right; left; repeat eexists|]. split; [vm_compute; reflexivity|].
  cbn [app]. intros K. repeat (apply Exists_cons in K as [K|K]; [destruct K as (? & ? & ? & ? & ? & K); discriminate K|]). inversion K.
Qed.
(** a second document environment replaces the body of the first *)
Example C87_example_second : exists x x', from_str3 Debug C87_head = Ok x /\ from_str3 Debug (C87_head ++ S! "\begin{document}q\end{document}") = Ok x' /\
  length (d_body x) = 2%nat /\ d_body x' = [mkChunk3 1 (Text3 (S! "q"))].
Proof. run3. split; reflexivity. Qed.
(** the class may come later, and options after it *)
Example C87_example_class : exists x x', from_str3 Debug (S! "\documentclass[o=1]") = Ok x /\ from_str3 Debug (S! "\documentclass[o=1]" ++ S! "{c}[p=2]") = Ok x' /\
  d_class x = None /\ d_class x' = Some (S! "c") /\ length (d_options x) = 1%nat /\ length (d_options x') = 2%nat.
Proof. run3. repeat split. Qed.
