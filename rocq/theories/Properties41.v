(** * Properties41: a source written into an environment (C89) *)
From Coq Require Import String Ascii Lia.
From Verif Require Comments1.
From Verif Require Import Base Ast1 Parse1 Ast2 Ast3 Spec1 SpecDoc1 SpecCanon1 SpecConcat Spec2 SpecClass3 SpecInside ModelTests1 Gram1 Concat1 Facts1 Tok Valid2 Properties1 Properties2 Inside Inside2 Inside3 Inside4.
Local Open Scope N_scope.

Lemma profile1 p q s d : source_fits s -> from_str1 p s = Ok d -> from_str1 q s = Ok d.
Proof. intros B H. apply (from_str1_iff q s d B). now apply (from_str1_iff p s d B). Qed.
Lemma framed b t l env : source_fits (b ++ t) -> environment_frame b t l env -> exists lab args pb pe, env = mkEnv2 lab args [] pb pe /\ forall p, from_str2 p (b ++ t) = Ok [mkChunk2 l (Environment2 env)].
Proof.
  intros B (Cb & He & lb & pb & lab & args & le & pe & Hb & Ht).
  assert (E2 : forall p, from_str2 p (b ++ t) = Ok [mkChunk2 l (Environment2 env)]).
  { intros p. destruct p; [exact He|]. now rewrite <- (C19_profiles_agree _ B). }
  destruct (inside2 Debug Debug Debug Debug [] b t lb pb lab args le pe l env [] [] B Cb eq_refl Hb Ht He eq_refl eq_refl ltac:(intros [|? [|? ?]] ? ? ? K; discriminate) eq_refl) as (lb2 & a2 & E & _).
  exists lb2, a2, pb, pe. split; [exact E|exact E2].
Qed.
Lemma fits_frame b s t : source_fits (b ++ s ++ t) -> source_fits (b ++ t) /\ source_fits s.
Proof. unfold source_fits. rewrite !app_length. lia. Qed.

(** ** C89: stage 2 *)
Theorem C89_stage2 : forall p b s t l env content, source_fits (b ++ s ++ t) -> environment_frame b t l env -> insertable s ->
  from_str2 p s = Ok content -> from_str2 p (b ++ s ++ t) = Ok [mkChunk2 l (Environment2 (with_content env content))].
Proof.
  intros p b s t l env content B (Cb & He & lb & pb & lab & args & le & pe & Hb & Ht) (Cs & d & Hd & Aw & En) Hc. destruct (fits_frame _ _ _ B) as [_ Bs].
  unfold from_str2 in Hc. rewrite (profile1 Debug p s d Bs Hd) in Hc. cbn [bind] in Hc.
  destruct (inside2 Debug Debug p p s b t lb pb lab args le pe l env d content B Cb Cs Hb Ht He (profile1 Debug p s d Bs Hd) Aw En Hc) as (lb2 & a2 & -> & R). exact R.
Qed.
(** ** Stage 3: in a document environment the preamble of the fragment becomes the body, everything else is as without it *)
Theorem C89_document : forall p b s t l env content x0 x, source_fits (b ++ s ++ t) -> environment_frame b t l env -> insertable s ->
  env_label2 env = S! "document" -> from_str2 p s = Ok content -> fragment content -> from_str3 p (b ++ t) = Ok x0 -> from_str3 p s = Ok x ->
  from_str3 p (b ++ s ++ t) = Ok (mkDoc3 (d_class x0) (d_options x0) (d_preamable x0) (d_preamable x) (d_body_args x0) (d_begin_prec x0) (d_end_prec x0) (d_trailing x0)) /\ d_body x0 = [].
Proof.
  intros p b s t l env content x0 x B F I L Hc Fr H0 Hx. destruct (fits_frame _ _ _ B) as [Bbt _]. destruct (framed _ _ _ _ Bbt F) as (lab & args & pb & pe & -> & E2).
  unfold from_str3 in *. rewrite (C89_stage2 p b s t l _ content B F I Hc). rewrite E2 in H0. rewrite Hc in Hx. cbn [bind with_content] in *. cbn in L. subst lab.
  change (S! "document") with s_document in *. rewrite document_env in *. destruct (fragment_ok p _ _ Hx Fr) as (a & A1 & A2). rewrite rec_nil in H0.
  destruct (args3_try_from p (maths_from_chunks p) args) as [ar| | |]; cbn [bind] in *; try discriminate. rewrite A1. cbn [bind]. rewrite A2. cbn [bind]. cbn in H0. injection H0 as <-. split; reflexivity.
Qed.
(** in any other environment it becomes its content *)
Theorem C89_other : forall p b s t l env content x0 x, source_fits (b ++ s ++ t) -> environment_frame b t l env -> insertable s ->
  env_label2 env <> S! "document" -> from_str2 p s = Ok content -> fragment content -> from_str3 p (b ++ t) = Ok x0 -> from_str3 p s = Ok x ->
  exists lab args pb pe, d_preamable x0 = [mkChunk3 l (Environment3 (mkEnv3 lab args [] pb pe))] /\
    from_str3 p (b ++ s ++ t) = Ok (mkDoc3 None [] [mkChunk3 l (Environment3 (mkEnv3 lab args (d_preamable x) pb pe))] [] [] [] [] []).
Proof.
  intros p b s t l env content x0 x B F I L Hc Fr H0 Hx. destruct (fits_frame _ _ _ B) as [Bbt _]. destruct (framed _ _ _ _ Bbt F) as (lab & args & pb & pe & -> & E2).
  unfold from_str3 in *. rewrite (C89_stage2 p b s t l _ content B F I Hc). rewrite E2 in H0. rewrite Hc in Hx. cbn [bind with_content] in *. cbn in L.
  rewrite other_env in * by exact L. destruct (fragment_ok p _ _ Hx Fr) as (a & A1 & A2). rewrite rec_nil in H0.
  destruct (args3_try_from p (maths_from_chunks p) args) as [ar| | |]; cbn [bind] in *; try discriminate. rewrite A1. cbn [bind]. rewrite A2. cbn [bind]. cbn in H0. injection H0 as <-. do 4 eexists. split; reflexivity.
Qed.
(** a fragment that is rejected is rejected there with the same error *)
Theorem C89_error : forall p b s t l env content x0 e, source_fits (b ++ s ++ t) -> environment_frame b t l env -> insertable s ->
  from_str2 p s = Ok content -> fragment content -> class_commands content = [] -> from_str3 p (b ++ t) = Ok x0 -> from_str3 p s = Err e -> from_str3 p (b ++ s ++ t) = Err e.
Proof.
  intros p b s t l env content x0 e B F I Hc Fr Cl H0 Hx. destruct (fits_frame _ _ _ B) as [Bbt _]. destruct (framed _ _ _ _ Bbt F) as (lab & args & pb & pe & -> & E2).
  unfold from_str3 in *. rewrite (C89_stage2 p b s t l _ content B F I Hc). rewrite E2 in H0. rewrite Hc in Hx. cbn [bind with_content] in *. pose proof (fragment_err p _ _ Hx Fr Cl) as A.
  destruct (str_eqb lab s_document) eqn:Q.
  - apply str_eqb_eq in Q. subst lab. rewrite document_env in *. destruct (args3_try_from p (maths_from_chunks p) args) as [ar| | |]; cbn [bind] in *; try discriminate. rewrite A. reflexivity.
  - apply str_eqb_neq in Q. rewrite other_env in * by exact Q. destruct (args3_try_from p (maths_from_chunks p) args) as [ar| | |]; cbn [bind] in *; try discriminate. rewrite A. reflexivity.
Qed.
Print Assumptions C89_stage2.
Print Assumptions C89_document.
Print Assumptions C89_other.
Print Assumptions C89_error.

(** ** An environment written [\begin{name}], [\end{name}] *)
Theorem C89_named_frame : forall e, plain_name e -> source_fits ((S! "\begin{" ++ e ++ S! "}") ++ (S! "\end{" ++ e ++ S! "}")) ->
  environment_frame (S! "\begin{" ++ e ++ S! "}") (S! "\end{" ++ e ++ S! "}") (1 + count_newlines e) (mkEnv2 e [] [] [] []).
Proof. exact named_frame. Qed.
Theorem C89_named : forall p e s content, source_fits ((S! "\begin{" ++ e ++ S! "}") ++ s ++ (S! "\end{" ++ e ++ S! "}")) -> plain_name e -> insertable s ->
  from_str2 p s = Ok content -> from_str2 p ((S! "\begin{" ++ e ++ S! "}") ++ s ++ (S! "\end{" ++ e ++ S! "}")) = Ok [mkChunk2 (1 + count_newlines e) (Environment2 (mkEnv2 e [] content [] []))].
Proof.
  intros p e s content B P I H. destruct (fits_frame _ _ _ B) as [Bf _]. exact (C89_stage2 p _ s _ _ _ content B (C89_named_frame e P Bf) I H).
Qed.
(** so a fragment in [\begin{document}], [\end{document}] is what it is alone *)
Theorem C89_plain_document : forall p s content x, source_fits (S! "\begin{document}" ++ s ++ S! "\end{document}") -> insertable s ->
  from_str2 p s = Ok content -> fragment content -> from_str3 p s = Ok x ->
  from_str3 p (S! "\begin{document}" ++ s ++ S! "\end{document}") = Ok (mkDoc3 None [] [] (d_preamable x) [] [] [] []).
Proof.
  intros p s content x B I H F Hx. change (S! "\begin{document}") with (S! "\begin{" ++ S! "document" ++ S! "}") in *. change (S! "\end{document}") with (S! "\end{" ++ S! "document" ++ S! "}") in *.
  destruct (fits_frame _ _ _ B) as [Bf _]. assert (P : plain_name (S! "document")) by (split; [discriminate|reflexivity]).
  assert (E : from_str3 p ((S! "\begin{" ++ S! "document" ++ S! "}") ++ (S! "\end{" ++ S! "document" ++ S! "}")) = Ok (mkDoc3 None [] [] [] [] [] [] [])) by (destruct p; vm_compute; reflexivity).
  exact (proj1 (C89_document p _ s _ _ _ content _ x B (C89_named_frame _ P Bf) I eq_refl H F E Hx)).
Qed.
Print Assumptions C89_named_frame.
Print Assumptions C89_named.
Print Assumptions C89_plain_document.

(** ** Environments in one another, to any depth *)
Theorem C89_again : forall b s t l env, source_fits (b ++ s ++ t) -> environment_frame b t l env -> clean_end t -> insertable s -> insertable (b ++ s ++ t).
Proof.
  intros b s t l env B (Cb & _ & lb & pb & lab & args & le & pe & Hb & Ht) Ct (Cs & d & Hd & Aw & En). split.
  - unfold clean_end in *. rewrite Comments1.scan1_app, Cb. rewrite Comments1.scan1_app, Cs. exact Ct.
  - eexists. split; [exact (inside1 Debug Debug Debug s b t d lb 98 (S! "egin") _ le 101 (S! "nd") _ Debug B Cb Cs Hb eq_refl Ht eq_refl Hd Aw En)|]. split; [reflexivity|].
    intros d0 w l0 u E _ _. exfalso. rewrite app_comm_cons in E. change [w; mkChunk1 l0 (Text1 u)] with ([w] ++ [mkChunk1 l0 (Text1 u)]) in E. rewrite app_assoc in E. apply app_inj_tail in E as [_ E]. discriminate E.
Qed.
Theorem C89_nested : forall p fs s content, source_fits (wrap fs s) -> Forall good_frame fs -> insertable s ->
  from_str2 p s = Ok content -> from_str2 p (wrap fs s) = Ok (wrapped fs content) /\ insertable (wrap fs s).
Proof.
  intros p fs s content B F I H. induction F as [|f fs [F1 F2] F IH]; [split; assumption|]. cbn [wrap wrapped fold_right] in *. fold (wrap fs s) (wrapped fs content) in *.
  destruct (fits_frame _ _ _ B) as [_ Bs]. destruct (IH Bs) as [IH1 IH2]. split; [now apply C89_stage2|now apply (C89_again _ _ _ _ _ B F1 F2)].
Qed.
Theorem C89_nested3 : forall p fs s content x, source_fits (wrap fs s) -> Forall good_frame fs -> Forall (other_frame p) fs -> insertable s ->
  from_str2 p s = Ok content -> fragment content -> from_str3 p s = Ok x ->
  fragment (wrapped fs content) /\ exists x', from_str3 p (wrap fs s) = Ok x' /\ around p fs (d_preamable x) (d_preamable x').
Proof.
  intros p fs s content x B F O I Hc Fr Hx. induction F as [|f fs [F1 F2] F IH]; [split; [exact Fr|exists x; split; [exact Hx|constructor]]|].
  inversion O as [|? ? [O1 (x0 & O2)] Os]; subst. cbn [wrap wrapped fold_right] in *. fold (wrap fs s) (wrapped fs content) in *.
  destruct (fits_frame _ _ _ B) as [_ Bs]. destruct (IH Bs Os) as (G & x' & X1 & X2). destruct (C89_nested p fs s content Bs F I Hc) as [N1 N2]. split.
  - constructor; [|constructor]. intros (? & ? & ? & ? & ? & K). destruct (f_env f). cbn in *. injection K as _ K _. congruence.
  - destruct (C89_other p _ _ _ _ _ _ x0 x' B F1 N2 O1 N1 G O2 X1) as (lab & args & pb & pe & P1 & P2). eexists. split; [exact P2|]. cbn. now apply ar_cons with (x0 := x0).
Qed.
Print Assumptions C89_again.
Print Assumptions C89_nested.
Print Assumptions C89_nested3.

(** ** Examples *)
(** a fragment of several lines with an environment, maths and a paragraph break, and frames with arguments *)
Definition C89_fragment : str := lines_of [" text $x$"; "\begin{a}[y]\b{z}"; "\end{a} % c"; ""; "$$u$$\c d"]%string.
Example C89_insertable : insertable C89_fragment.
Proof.
  split; [reflexivity|]. let x := eval vm_compute in (from_str1 Debug C89_fragment) in match x with Ok ?d => exists d end. split; [vm_compute; reflexivity|]. split; [reflexivity|].
  intros d0 w l t E H N. apply (f_equal (@rev _)) in E. rewrite rev_app_distr in E. cbn in E. injection E as _ <- _ _. discriminate H.
Qed.
Example C89_frame : environment_frame (lines_of ["\begin{tabular} [c]"; "{ll}"]%string) (S! "\end {tabular}") 2
  (mkEnv2 (S! "tabular") [(S! " ", mkScope2 [mkChunk2 1 (Text2 (S! "c"))] Square2); ([c_newline], mkScope2 [mkChunk2 1 (Text2 (S! "ll"))] Curly2)] [] [] (S! " ")).
Proof.
  split; [reflexivity|]. split; [vm_compute; reflexivity|].
  let x := eval vm_compute in (from_str1 Debug (lines_of ["\begin{tabular} [c]"; "{ll}"]%string)) in
  let y := eval vm_compute in (from_str1 Debug (S! "\end {tabular}")) in
  match x with Ok [mkChunk1 ?lb (Command1 (mkCommand1 _ ((?pb, mkScope1 ?lab _) :: ?args)))] => match y with Ok [mkChunk1 ?le (Command1 (mkCommand1 _ [(?pe, _)]))] => exists lb, pb, lab, args, le, pe end end.
  split; vm_compute; reflexivity.
Qed.
(** the fragment alone, and in the frame *)
Example C89_there : exists content, from_str2 Debug C89_fragment = Ok content /\ length content = 5%nat /\ fragment content /\ class_commands content = [] /\
  from_str2 Debug (lines_of ["\begin{tabular} [c]"; "{ll}"]%string ++ C89_fragment ++ S! "\end {tabular}") =
  Ok [mkChunk2 2 (Environment2 (mkEnv2 (S! "tabular") [(S! " ", mkScope2 [mkChunk2 1 (Text2 (S! "c"))] Square2); ([c_newline], mkScope2 [mkChunk2 1 (Text2 (S! "ll"))] Curly2)] content [] (S! " ")))].
Proof.
  let x := eval vm_compute in (from_str2 Debug C89_fragment) in match x with Ok ?d => exists d end. split; [vm_compute; reflexivity|]. split; [reflexivity|]. split; [|split; [reflexivity|vm_compute; reflexivity]].
  repeat (constructor; [intros (? & ? & ? & ? & ? & K); discriminate K|]). constructor.
Qed.
(** the conditions are needed. A fragment that begins like an argument is one; *)
Example C89_argument : from_str2 Debug (S! "\begin{e}[x]\end{e}") = Ok [mkChunk2 1 (Environment2 (mkEnv2 (S! "e") [([], mkScope2 [mkChunk2 1 (Text2 (S! "x"))] Square2)] [] [] []))] /\
  from_str2 Debug (S! "[x]") = Ok [mkChunk2 1 (Scope2 (mkScope2 [mkChunk2 1 (Text2 (S! "x"))] Curly2))] /\ ~ insertable (S! "[x]").
Proof.
  split; [vm_compute; reflexivity|]. split; [vm_compute; reflexivity|]. intros (_ & d & H & A & _).
  assert (K : from_str1 Debug (S! "[x]") = Ok [mkChunk1 1 (Scope1 (mkScope1 [mkChunk1 1 (Text1 (S! "x"))] Curly1))]) by (vm_compute; reflexivity). rewrite K in H. injection H as <-. discriminate A.
Qed.
(** the blanks after a last control word are on another line once something follows them; *)
Example C89_blanks :
  from_str2 Debug (S! "\a" ++ [c_newline]) = Ok [mkChunk2 1 (Command2 (mkCommand2 (S! "a") [])); mkChunk2 2 (Text2 [c_newline])] /\
  from_str2 Debug (S! "\begin{e}\a" ++ [c_newline] ++ S! "\end{e}") =
    Ok [mkChunk2 1 (Environment2 (mkEnv2 (S! "e") [] [mkChunk2 1 (Command2 (mkCommand2 (S! "a") [])); mkChunk2 1 (Text2 [c_newline])] [] []))].
Proof. split; vm_compute; reflexivity. Qed.
(** and a fragment that is rejected at stage 2 can be accepted between the two parts *)
Example C89_rejected : (forall d, from_str2 Debug (S! "\end{e}a\begin{e}") <> Ok d) /\ exists d, from_str2 Debug (S! "\begin{e}\end{e}a\begin{e}\end{e}") = Ok d /\ length d = 3%nat.
Proof.
  split; [intros d; vm_compute; discriminate|].
  let x := eval vm_compute in (from_str2 Debug (S! "\begin{e}\end{e}a\begin{e}\end{e}")) in match x with Ok ?d => exists d end. split; [vm_compute; reflexivity|reflexivity].
Qed.
(** in a document *)
Example C89_in_document : exists x0 x, environment_frame (S! "\begin{document}") (S! "\end{document}") 1 (mkEnv2 (S! "document") [] [] [] []) /\
  from_str3 Debug (S! "\begin{document}" ++ S! "\end{document}") = Ok x0 /\ from_str3 Debug C89_fragment = Ok x /\ length (d_preamable x) = 9%nat.
Proof.
  let x := eval vm_compute in (from_str3 Debug (S! "\begin{document}" ++ S! "\end{document}")) in let y := eval vm_compute in (from_str3 Debug C89_fragment) in
  match x with Ok ?a => match y with Ok ?b => exists a, b end end.
  split; [|split; [vm_compute; reflexivity|split; [vm_compute; reflexivity|reflexivity]]].
  change (S! "\begin{document}") with (S! "\begin{" ++ S! "document" ++ S! "}"). change (S! "\end{document}") with (S! "\end{" ++ S! "document" ++ S! "}"). apply (C89_named_frame (S! "document")); [split; [discriminate|reflexivity]|]. vm_compute. reflexivity.
Qed.
(** a fragment that is rejected *)
Example C89_rejected3 : exists content e, insertable (S! "a $ b") /\ from_str2 Debug (S! "a $ b") = Ok content /\ fragment content /\ class_commands content = [] /\ from_str3 Debug (S! "a $ b") = Err e /\
  from_str3 Debug (S! "\begin{document}a $ b\end{document}") = Err e.
Proof.
  let x := eval vm_compute in (from_str2 Debug (S! "a $ b")) in let y := eval vm_compute in (from_str3 Debug (S! "a $ b")) in match x with Ok ?a => match y with Err ?b => exists a, b end end.
  split; [|split; [vm_compute; reflexivity|split; [|split; [reflexivity|split; vm_compute; reflexivity]]]].
  - split; [reflexivity|]. let x := eval vm_compute in (from_str1 Debug (S! "a $ b")) in match x with Ok ?d => exists d end. split; [vm_compute; reflexivity|]. split; [reflexivity|].
    intros d0 w l t E H N. destruct d0 as [|? [|? ?]]; discriminate E.
  - repeat (constructor; [intros (? & ? & ? & ? & ? & K); discriminate K|]). constructor.
Qed.
(** three levels, with and without arguments, around it *)
Definition C89_frames : list frame := [
  mkFrame (S! "\begin{a}") (S! "\end{a}") 1 (mkEnv2 (S! "a") [] [] [] []);
  mkFrame (lines_of ["\begin{tabular} [c]"; "{ll}"]%string) (S! "\end {tabular}") 2
    (mkEnv2 (S! "tabular") [(S! " ", mkScope2 [mkChunk2 1 (Text2 (S! "c"))] Square2); ([c_newline], mkScope2 [mkChunk2 1 (Text2 (S! "ll"))] Curly2)] [] [] (S! " "));
  mkFrame (S! "\begin{\b}") (S! "\end{\b}") 1 (mkEnv2 (S! "\b") [] [] [] [])].
Example C89_levels : Forall good_frame C89_frames /\ wrap C89_frames (S! "!") = lines_of ["\begin{a}\begin{tabular} [c]"; "{ll}\begin{\b}!\end{\b}\end {tabular}\end{a}"]%string /\
  from_str2 Debug (wrap C89_frames C89_fragment) = let* content := from_str2 Debug C89_fragment in Ok (wrapped C89_frames content).
Proof.
  split; [|split; vm_compute; reflexivity].
  repeat (constructor; [split; [|reflexivity]; split; [reflexivity|]; split; [vm_compute; reflexivity|];
    lazymatch goal with |- exists lb pb lab args le pe, from_str1 _ ?b = _ /\ from_str1 _ ?t = _ =>
      let x := eval vm_compute in (from_str1 Debug b) in let y := eval vm_compute in (from_str1 Debug t) in
      match x with Ok [mkChunk1 ?lb (Command1 (mkCommand1 _ ((?pb, mkScope1 ?lab _) :: ?args)))] => match y with Ok [mkChunk1 ?le (Command1 (mkCommand1 _ [(?pe, _)]))] => exists lb, pb, lab, args, le, pe end end
    end; split; vm_compute; reflexivity|]). constructor.
Qed.
Example C89_levels3 : Forall (other_frame Debug) C89_frames /\ exists x l1 l2 e1 e2 pb1 pb2 pe1 pe2 a1 a2, from_str3 Debug C89_fragment = Ok x /\
  from_str3 Debug (wrap (firstn 2 C89_frames) C89_fragment) =
  Ok (mkDoc3 None [] [mkChunk3 l1 (Environment3 (mkEnv3 e1 a1 [mkChunk3 l2 (Environment3 (mkEnv3 e2 a2 (d_preamable x) pb2 pe2))] pb1 pe1))] [] [] [] [] []) /\ length a2 = 2%nat.
Proof.
  split. { repeat (constructor; [split; [vm_compute; discriminate|];
    lazymatch goal with |- exists x0, ?f = _ => let x := eval vm_compute in f in match x with Ok ?d => exists d end end; vm_compute; reflexivity|]). constructor. }
  let x := eval vm_compute in (from_str3 Debug C89_fragment) in match x with Ok ?d => exists d end.
  let x := eval vm_compute in (from_str3 Debug (wrap (firstn 2 C89_frames) C89_fragment)) in
  match x with Ok (mkDoc3 _ _ [mkChunk3 ?l1 (Environment3 (mkEnv3 ?e1 ?a1 [mkChunk3 ?l2 (Environment3 (mkEnv3 ?e2 ?a2 _ ?pb2 ?pe2))] ?pb1 ?pe1))] _ _ _ _ _) =>
    exists l1, l2, e1, e2, pb1, pb2, pe1, pe2, a1, a2 end.
  split; [vm_compute; reflexivity|]. split; vm_compute; reflexivity.
Qed.
