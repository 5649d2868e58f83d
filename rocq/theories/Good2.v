(** * Good2: on parsed documents the machine arithmetic of the stage-1 to stage-2
      conversion is exact, so that it never panics *)
From Verif Require Import Base Ast1 Parse1 Ast2 Ast3 Spec1 SpecDoc1 SpecDoc2 SpecDoc3 Tok Pure1 Refine1 Gram1 Ind Lines Facts1
  Valid1 Valid2 Spec2 Eqb Conv2 Fail2 Facts2.
Open Scope N_scope.

(** ** Line numbers that parsed documents have *)
Definition nlch (c : chunk1) : N := count_newlines (show_chunk1 c).
Inductive good : N -> list chunk1 -> Prop :=
| g_nil L : good L []
| g_text L l s d : L <= l <= L + count_newlines s -> good (L + count_newlines s) d ->
    good L (mkChunk1 l (Text1 s) :: d)
| g_scope L cs v d : good 1 cs -> good (L + nls cs) d ->
    good L (mkChunk1 L (Scope1 (mkScope1 cs v)) :: d)
| g_cmd L l lab args d : L <= l <= L + nlch (mkChunk1 l (Command1 (mkCommand1 lab args))) ->
    (lab = S! "begin" \/ lab = S! "end" -> l = L) -> good_args args ->
    good (L + nlch (mkChunk1 l (Command1 (mkCommand1 lab args)))) d ->
    good L (mkChunk1 l (Command1 (mkCommand1 lab args)) :: d)
with good_args : list (str * scope1) -> Prop :=
| g_no_args : good_args []
| g_arg pre cs v args : good 1 cs -> good_args args -> good_args ((pre, mkScope1 cs v) :: args).

Lemma nls_app a b : nls (a ++ b) = nls a + nls b.
Proof. unfold nls. now rewrite show1_app, count_newlines_app. Qed.
Lemma nls_scope l cs v : nlch (mkChunk1 l (Scope1 (mkScope1 cs v))) = nls cs.
Proof.
  unfold nlch. cbn [show_chunk1 show_variant1]. rewrite show_scope_eq, nlc_open1, count_newlines_app, nlc_close1. unfold nls. lia.
Qed.

Lemma good_app L a b : good L (a ++ b) <-> good L a /\ good (L + nls a) b.
Proof.
  revert L. induction a as [|[l v] a IH]; intros L.
  - change (nls []) with 0. rewrite N.add_0_r. cbn [app]. split; [intros H; split; [constructor|exact H]|tauto].
  - cbn [app]. rewrite nls_cons. fold (nlch (mkChunk1 l v)). rewrite N.add_assoc. split.
    + intros H. inversion H as [|L0 l0 s d H1 H2|L0 cs v0 d H1 H2|L0 l0 lab args d H1 H2 H3 H4]; subst.
      * apply IH in H2 as [A B]. split; [now constructor|exact B].
      * apply IH in H2 as [A B]. rewrite nls_scope. split; [now constructor|exact B].
      * apply IH in H4 as [A B]. split; [now constructor|exact B].
    + intros [H H']. inversion H as [|L0 l0 s d H1 H2|L0 cs v0 d H1 H2|L0 l0 lab args d H1 H2 H3 H4]; subst.
      * constructor; auto. apply IH. now split.
      * constructor; auto. apply IH. rewrite nls_scope in H'. now split.
      * constructor; auto. apply IH. now split.
Qed.

Lemma good_mid L a c b : good L (a ++ c :: b) ->
  good L a /\ L + nls a <= line_no1 c <= L + nls a + nlch c /\ good (L + nls a) [c] /\ good (L + nls a + nlch c) b.
Proof.
  intros H. apply good_app in H as [Ha H]. split; [exact Ha|]. split.
  - inversion H; subst; cbn [line_no1 nlch show_chunk1 show_variant1] in *; try rewrite nls_scope; unfold nlch in *; cbn [show_chunk1 show_variant1] in *; lia.
  - change (c :: b) with ([c] ++ b) in H. apply good_app in H as [A B]. split; [exact A|].
    rewrite nls_cons in B. change (nls []) with 0 in B. rewrite N.add_0_r in B. exact B.
Qed.

Lemma parses_good :
  (forall L ts d, parses L ts d -> good L d) /\ (forall ts args, parses_args ts args -> good_args args).
Proof.
  apply parses_parses_args_ind.
  - constructor.
  - intros L run rest cs _ _ _ _ IH. constructor; [lia|exact IH].
  - intros L v body rest inner cs _ Hp IHi _ IH. constructor; [exact IHi|]. rewrite (parses_nls _ _ _ Hp). exact IH.
  - intros L c rest cs Ha _ IH.
    assert (E : forall l, nlch (mkChunk1 l (Command1 (mkCommand1 [c] []))) = nl [Esc c]).
    { intros l. unfold nlch. cbn [show_chunk1 show_variant1 show_command1 concat map]. rewrite app_nil_r, !count_newlines_cons, count_newlines_nil, nl_single. cbn [tchar].
      change (c_bslash =? c_newline) with false. cbv iota. destruct (c =? c_newline); reflexivity. }
    constructor; rewrite ?E; [lia| |constructor|exact IH]. intros [F|F]; discriminate F.
  - intros L a lab argtoks args ws rest cs Ha Hl Hargs IHa _ _ _ _ IH.
    pose proof (word_nls a lab argtoks args Ha Hl Hargs L) as E. constructor; unfold nlch; rewrite ?E; auto; lia.
  - intros L a lab argtoks args ws Ha Hl Hargs IHa Hws _.
    pose proof (word_nls a lab argtoks args Ha Hl Hargs L) as E. constructor; unfold nlch; rewrite ?E; auto; [lia|].
    constructor; [|constructor]. fold (nl ws). lia.
  - constructor.
  - intros. now constructor.
Qed.
Lemma from_str1_good p s d : source_fits s -> from_str1 p s = Ok d -> good 1 d.
Proof. intros B H. apply (from_str1_has_parse p s d B) in H as [_ H]. exact (proj1 parses_good _ _ _ H). Qed.

(** ** Rebasing *)
Lemma rebase_good start b : forall k, good (start + k) b -> good (1 + k) (map (rebase start) b).
Proof.
  induction b as [|[l v] b IH]; intros k H; [constructor|].
  assert (Hl : start + k <= l <= start + k + nlch (mkChunk1 l v)).
  { apply (good_mid (start + k) []) in H as (_ & H & _). change (nls []) with 0 in H. cbn [line_no1] in H. lia. }
  assert (Hr : good (start + (k + nlch (mkChunk1 l v))) b).
  { apply (good_mid (start + k) []) in H as (_ & _ & _ & H). change (nls []) with 0 in H. rewrite N.add_0_r in H. now rewrite N.add_assoc. }
  pose proof (IH _ Hr) as G. cbn [map rebase]. rewrite N.add_assoc in G.
  inversion H as [|L0 l0 s d H1 H2|L0 cs v0 d H1 H2|L0 l0 lab args d H1 H2 H3 H4]; subst.
  - constructor; [lia|exact G].
  - rewrite nls_scope in G. replace (start + k - start + 1) with (1 + k) by lia. now constructor.
  - constructor; auto.
    + change (nlch (mkChunk1 (l - start + 1) (Command1 (mkCommand1 lab args)))) with (nlch (mkChunk1 l (Command1 (mkCommand1 lab args)))). lia.
    + intros F. specialize (H2 F). lia.
Qed.
Lemma rebase_good0 start b : good start b -> good 1 (map (rebase start) b).
Proof. intros H. apply (rebase_good start b 0). now rewrite N.add_0_r. Qed.
Lemma rebase_exact p start b : 1 <= start -> forall k, good (start + k) b -> start + k + nls b < two32 ->
  mapM (rebaseM p start) b = Ok (map (rebase start) b).
Proof.
  intros Hs. induction b as [|[l v] b IH]; intros k H B; [reflexivity|].
  rewrite nls_cons in B. fold (nlch (mkChunk1 l v)) in B.
  assert (Hl : start + k <= l <= start + k + nlch (mkChunk1 l v)).
  { apply (good_mid (start + k) []) in H as (_ & H & _). change (nls []) with 0 in H. cbn [line_no1] in H. lia. }
  assert (Hr : good (start + (k + nlch (mkChunk1 l v))) b).
  { apply (good_mid (start + k) []) in H as (_ & _ & _ & H). change (nls []) with 0 in H. rewrite N.add_0_r in H. now rewrite N.add_assoc. }
  pose proof (IH _ Hr ltac:(lia)) as E. cbn [mapM map rebaseM rebase].
  rewrite sub32_ok by lia. cbn [bind]. rewrite add32_ok by lia. cbn [bind]. rewrite E. reflexivity.
Qed.
Lemma rebase_exact0 p start b : 1 <= start -> good start b -> start + nls b < two32 ->
  mapM (rebaseM p start) b = Ok (map (rebase start) b).
Proof. intros Hs H B. apply (rebase_exact p start b Hs 0); rewrite N.add_0_r; assumption. Qed.

Lemma sum_args_newlines args :
  fold_right N.add 0 (map (fun a => match a with (prec, arg) => count_newlines prec + count_newlines (show_scope1 arg) end) args)
  = count_newlines (args_text args).
Proof.
  induction args as [|[pre sc] args IH]; [reflexivity|]. cbn [map fold_right]. rewrite IH. unfold args_text. cbn [map concat].
  now rewrite !count_newlines_app.
Qed.
Lemma begin_end_eq l pb lab args : begin_end_line l pb lab args = l + nlch (begin_cmd l pb lab args).
Proof.
  unfold begin_end_line, nlch. rewrite show_begin, show_scope_eq. cbn [open1 close1].
  repeat (rewrite ?count_newlines_app, ?count_newlines_cons). rewrite count_newlines_nil.
  change (c_bslash =? c_newline) with false. change (c_lcurly =? c_newline) with false. change (c_rcurly =? c_newline) with false.
  change (nlc (S! "begin")) with 0. cbv iota. lia.
Qed.
Lemma startM_good p l pb lab args : l + nlch (begin_cmd l pb lab args) < two32 ->
  startM p l ((pb, mkScope1 lab Curly1) :: args) = Ok (begin_end_line l pb lab args).
Proof.
  intros B. rewrite <- begin_end_eq in B. unfold startM. rewrite sum_args_newlines. unfold begin_end_line in *.
  unfold args_text in *. cbn [map concat] in *. fold (args_text args) in *. rewrite <- app_assoc.
  rewrite as_u32_ok by lia. now apply add32_ok.
Qed.

(** an environment inside a document with good lines *)
Lemma good_env L pre l pb lab args b post :
  good L (pre ++ begin_cmd l pb lab args :: b ++ post) -> l = L + nls pre /\ good L pre /\ good_args args /\
  good (begin_end_line l pb lab args) b /\ good (begin_end_line l pb lab args + nls b) post /\
  begin_end_line l pb lab args = L + nls pre + nlch (begin_cmd l pb lab args).
Proof.
  intros H. apply good_mid in H as (H1 & _ & H2 & H3). inversion H2; subst.
  assert (l = L + nls pre) as El by auto. apply good_app in H3 as [H3 H3'].
  assert (Eb : begin_end_line l pb lab args = L + nls pre + nlch (begin_cmd l pb lab args)) by (rewrite begin_end_eq, <- El; reflexivity).
  rewrite Eb. repeat split; auto. match goal with H : good_args _ |- _ => inversion H; subst end. assumption.
Qed.

Lemma nls_args_in pre cs v args : nls cs + count_newlines (args_text args) <= count_newlines (args_text ((pre, mkScope1 cs v) :: args)).
Proof.
  unfold args_text. cbn [map concat]. fold (args_text args). rewrite !count_newlines_app, show_scope_eq, count_newlines_cons, count_newlines_app.
  fold (nls cs). lia.
Qed.
Lemma nlch_cmd l lab args : nlch (mkChunk1 l (Command1 (mkCommand1 lab args))) = count_newlines lab + count_newlines (args_text args).
Proof. unfold nlch. cbn [show_chunk1 show_variant1 show_command1]. fold (args_text args). rewrite count_newlines_cons, count_newlines_app. reflexivity. Qed.
Lemma nlch_begin_args l pb lab args : count_newlines (args_text args) <= nlch (begin_cmd l pb lab args).
Proof. unfold nlch. rewrite show_begin, !count_newlines_app. lia. Qed.

(** ** The conversion *)
Lemma conv_converts p :
  (forall d d2, conv p d d2 -> forall L, 1 <= L -> good L d -> L + nls d < two32 -> converts d d2) /\
  (forall args args', conv_args p args args' -> good_args args -> 1 + count_newlines (args_text args) < two32 -> converts_args args args').
Proof.
  apply conv_conv_args_ind.
  - constructor.
  - intros l s d d' _ IH L HL H B. rewrite nls_cons in B. inversion H; subst. constructor. cbn [show_chunk1 show_variant1] in B.
    eapply IH; [|eassumption|]; lia.
  - intros l cs v cs' d d' _ IHc _ IH L HL H B. rewrite nls_cons in B. fold (nlch (mkChunk1 l (Scope1 (mkScope1 cs v)))) in B. rewrite nls_scope in B.
    inversion H; subst. constructor.
    + eapply IHc; [|eassumption|]; lia.
    + eapply IH; [|eassumption|]; lia.
  - intros l lab args args' d d' H1 H2 _ IHa _ IH L HL H B. rewrite nls_cons in B. fold (nlch (mkChunk1 l (Command1 (mkCommand1 lab args)))) in B.
    inversion H; subst. pose proof (nlch_cmd l lab args) as E. constructor; auto.
    + apply IHa; [assumption|]. lia.
    + eapply IH; [|eassumption|]; lia.
  - intros l pb lab args args' body body1 content l' pe d d' start Ho Hst Hb _ IHa _ IHb _ IH L HL H B.
    pose proof (good_env L [] l pb lab args body _ H) as (El & _ & Ga & Gb & Gr & Eb). change (nls []) with 0 in El, Eb. rewrite N.add_0_r in El, Eb.
    rewrite nls_cons, nls_app, nls_cons in B. fold (nlch (begin_cmd l pb lab args)) in B. 
    rewrite startM_good in Hst by lia. injection Hst as <-. pose proof (nlch_begin_args l pb lab args).
    pose proof (rebase_exact0 p (begin_end_line l pb lab args) body ltac:(lia) Gb ltac:(lia)) as Er. pose proof (rebase_good0 _ _ Gb) as Gr1.
    rewrite Er in Hb. injection Hb as <-.
    apply (cs_env l pb lab args args' body content l' pe d d' (begin_end_line l pb lab args)); auto.
    + apply IHa; [assumption|lia].
    + eapply (IHb 1); [lia|exact Gr1|]. replace (nls (map (rebase (begin_end_line l pb lab args)) body)) with (nls body); [lia|].
      unfold nls. f_equal. symmetry. apply (mapM_rebase_show p (begin_end_line l pb lab args)). exact Er.
    + apply (good_mid _ []) in Gr as (_ & _ & _ & Gr). change (nls []) with 0 in Gr. rewrite N.add_0_r in Gr.
      eapply IH; [|exact Gr|]; unfold nlch; lia.
  - constructor.
  - intros pre cs v cs' args args' _ IHc _ IHa H B. pose proof (nls_args_in pre cs v args). inversion H; subst. constructor.
    + eapply (IHc 1); [lia|assumption|lia].
    + apply IHa; [assumption|lia].
Qed.

Lemma nls_rebase start b : nls (map (rebase start) b) = nls b.
Proof. unfold nls. f_equal. induction b as [|[l v] b IH]; [reflexivity|]. cbn [map rebase]. rewrite !show1_cons. now rewrite IH. Qed.
Lemma show_rebase start b : show1 (map (rebase start) b) = show1 b.
Proof. induction b as [|[l v] b IH]; [reflexivity|]. cbn [map rebase]. rewrite !show1_cons. now rewrite IH. Qed.
Lemma rebase_same start b : Forall2 same_chunk b (map (rebase start) b).
Proof. induction b as [|[l v] b IH]; constructor; auto. reflexivity. Qed.

Lemma converts_well_nested :
  (forall d d2, converts d d2 -> well_nested d) /\ (forall args args', converts_args args args' -> well_nested_args args).
Proof.
  apply converts_both_ind; intros; try (constructor; assumption).
  apply wn_env; auto. apply (proj1 well_nested_same (map (rebase start) body)); [assumption|]. apply same_sym, rebase_same.
Qed.

Lemma converts_conv p :
  (forall d d2, converts d d2 -> forall L, 1 <= L -> good L d -> L + nls d < two32 -> conv p d d2) /\
  (forall args args', converts_args args args' -> good_args args -> 1 + count_newlines (args_text args) < two32 -> conv_args p args args').
Proof.
  apply converts_both_ind.
  - constructor.
  - intros l s d d' _ IH L HL H B. rewrite nls_cons in B. inversion H; subst. constructor. cbn [show_chunk1 show_variant1] in B.
    eapply IH; [|eassumption|]; lia.
  - intros l cs v cs' d d' _ IHc _ IH L HL H B. rewrite nls_cons in B. fold (nlch (mkChunk1 l (Scope1 (mkScope1 cs v)))) in B. rewrite nls_scope in B.
    inversion H; subst. constructor.
    + eapply IHc; [|eassumption|]; lia.
    + eapply IH; [|eassumption|]; lia.
  - intros l lab args args' d d' H1 H2 _ IHa _ IH L HL H B. rewrite nls_cons in B. fold (nlch (mkChunk1 l (Command1 (mkCommand1 lab args)))) in B.
    inversion H; subst. pose proof (nlch_cmd l lab args) as E. constructor; auto.
    + apply IHa; [assumption|]. lia.
    + eapply IH; [|eassumption|]; lia.
  - intros l pb lab args args' body content l' pe d d' start -> _ IHa Hb IHb _ IH L HL H B.
    pose proof (good_env L [] l pb lab args body _ H) as (El & _ & Ga & Gb & Gr & Eb). change (nls []) with 0 in El, Eb. rewrite N.add_0_r in El, Eb.
    rewrite nls_cons, nls_app, nls_cons in B. fold (nlch (begin_cmd l pb lab args)) in B. 
    fold (begin_end_line l pb lab args) in *. pose proof (nlch_begin_args l pb lab args).
    pose proof (rebase_exact0 p (begin_end_line l pb lab args) body ltac:(lia) Gb ltac:(lia)) as Er. pose proof (rebase_good0 _ _ Gb) as Gr1.
    apply (cv_env p l pb lab args args' body (map (rebase (begin_end_line l pb lab args)) body) content l' pe d d' (begin_end_line l pb lab args)); auto.
    + apply well_nested_opens. eapply (proj1 well_nested_same); [exact (proj1 converts_well_nested _ _ Hb)|]. apply same_sym, rebase_same.
    + apply startM_good. lia.
    + apply IHa; [assumption|lia].
    + eapply (IHb 1); [lia|exact Gr1|]. rewrite nls_rebase. lia.
    + apply (good_mid _ []) in Gr as (_ & _ & _ & Gr). change (nls []) with 0 in Gr. rewrite N.add_0_r in Gr.
      eapply IH; [|exact Gr|]; unfold nlch; lia.
  - constructor.
  - intros pre cs v cs' args args' _ IHc _ IHa H B. pose proof (nls_args_in pre cs v args). inversion H; subst. constructor.
    + eapply (IHc 1); [lia|assumption|lia].
    + apply IHa; [assumption|lia].
Qed.

(** ** Errors *)
Definition len1 (d : list chunk1) : N := N.of_nat (length (show1 d)).
Lemma len1_app a b : len1 (a ++ b) = len1 a + len1 b.
Proof. unfold len1. rewrite show1_app, app_length. lia. Qed.
Lemma len1_cons c b : len1 (c :: b) = N.of_nat (length (show_chunk1 c)) + len1 b.
Proof. unfold len1. rewrite show1_cons, app_length. lia. Qed.
Lemma nls_len d : nls d <= len1 d.
Proof. apply count_newlines_le. Qed.
Lemma nlch_len c : nlch c <= N.of_nat (length (show_chunk1 c)).
Proof. apply count_newlines_le. Qed.
Lemma len_scope l cs v : N.of_nat (length (show_chunk1 (mkChunk1 l (Scope1 (mkScope1 cs v))))) = len1 cs + 2.
Proof. cbn [show_chunk1 show_variant1]. rewrite show_scope_eq. unfold len1. cbn [length]. rewrite app_length. cbn [length]. lia. Qed.
Definition len_args (args : list (str * scope1)) : N := N.of_nat (length (args_text args)).
Lemma len_cmd l lab args : N.of_nat (length (show_chunk1 (mkChunk1 l (Command1 (mkCommand1 lab args))))) = 1 + N.of_nat (length lab) + len_args args.
Proof. cbn [show_chunk1 show_variant1 show_command1 length]. fold (args_text args). unfold len_args. rewrite app_length. lia. Qed.
Lemma len_args_cons pre cs v args : len_args ((pre, mkScope1 cs v) :: args) = N.of_nat (length pre) + len1 cs + 2 + len_args args.
Proof. unfold len_args, args_text. cbn [map concat]. fold (args_text args). rewrite !app_length, show_scope_eq. unfold len1. cbn [length]. rewrite app_length. cbn [length]. lia. Qed.
Lemma len_begin_args l pb lab args : len_args args + 1 <= N.of_nat (length (show_chunk1 (begin_cmd l pb lab args))).
Proof. rewrite show_begin. unfold len_args. rewrite !app_length. cbn [length]. lia. Qed.
Lemma len_end l pe lab : 1 <= N.of_nat (length (show_chunk1 (end_cmd l pe lab))).
Proof. rewrite show_end. rewrite !app_length. cbn [length]. lia. Qed.
Lemma len_rebase start b : len1 (map (rebase start) b) = len1 b.
Proof. unfold len1. now rewrite show_rebase. Qed.

Scheme rejects_mut := Induction for rejects Sort Prop
with rejects_args_mut := Induction for rejects_args Sort Prop.
Combined Scheme rejects_both_ind from rejects_mut, rejects_args_mut.

Lemma bad_here_line open c e : bad_here open c e -> err_line e = line_no1 c.
Proof. destruct 1; reflexivity. Qed.

(** reported lines stay below the length of the text *)
Lemma rejects_bound :
  (forall d e, rejects d e -> forall L, 1 <= L -> good L d -> err_line e <= L + len1 d) /\
  (forall args e, rejects_args args e -> good_args args -> err_line e <= len_args args).
Proof.
  apply rejects_both_ind.
  - intros pre pre' c post e _ Hb L HL H. apply good_mid in H as (_ & H & _). rewrite (bad_here_line _ _ _ Hb), len1_app, len1_cons.
    pose proof (nls_len pre). pose proof (nlch_len c). lia.
  - intros pre pre' l cs v post e _ _ IH L HL H. apply good_mid in H as (_ & _ & H & _). inversion H; subst. cbn [err_line].
    rewrite len1_app, len1_cons, len_scope. specialize (IH 1 ltac:(lia) ltac:(assumption)). pose proof (nls_len pre). lia.
  - intros pre pre' l lab args post e _ _ _ _ IH L HL H. apply good_mid in H as (_ & _ & H & _). inversion H; subst.
    rewrite len1_app, len1_cons, len_cmd. specialize (IH ltac:(assumption)). lia.
  - intros pre pre' l pb lab args b c post e inner _ _ Hb L HL H.
    change (begin_cmd l pb lab args :: b ++ c :: post) with ((begin_cmd l pb lab args :: b) ++ c :: post) in H |- *. rewrite app_assoc in *.
    apply good_mid in H as (_ & H & _). rewrite (bad_here_line _ _ _ Hb), len1_app, len1_cons.
    pose proof (nls_len (pre ++ begin_cmd l pb lab args :: b)). pose proof (nlch_len c). lia.
  - intros pre pre' l pb lab args b inner _ _ L HL H. rewrite <- (app_nil_r b) in H. apply good_env in H as (El & _ & _ & _ & _ & ->).
    cbn [err_line]. rewrite len1_app, len1_cons. pose proof (nls_len pre). pose proof (nlch_len (begin_cmd l pb lab args)). lia.
  - intros pre pre' l pb lab args b l' pe post e _ _ _ IH L HL H. apply good_env in H as (El & _ & Ga & _). specialize (IH Ga).
    rewrite len1_app, len1_cons. pose proof (len_begin_args l pb lab args). lia.
  - intros pre pre' l pb lab args args' b l' pe post e _ _ _ _ IH L HL H. apply good_env in H as (El & _ & Ga & Gb & _ & Eb).
    specialize (IH 1 ltac:(lia) (rebase_good0 _ _ Gb)). rewrite len_rebase in IH.
    cbn [err_line]. rewrite !len1_app, !len1_cons, len1_app, len1_cons. pose proof (nls_len pre). pose proof (nlch_len (begin_cmd l pb lab args)). pose proof (len_end l' pe lab). lia.
  - intros pre cs v args e _ IH H. inversion H; subst. specialize (IH 1 ltac:(lia) ltac:(assumption)). rewrite len_args_cons. lia.
  - intros pre cs v cs' args e _ _ IH H. inversion H; subst. specialize (IH ltac:(assumption)). rewrite len_args_cons. lia.
Qed.

Lemma fails_rejects p :
  (forall d e, fails p d e -> forall L, 1 <= L -> good L d -> L + len1 d < two32 -> rejects d e) /\
  (forall args e, fails_args p args e -> good_args args -> len_args args < two32 -> rejects_args args e).
Proof.
  assert (Pre : forall pre pre' L, conv p pre pre' -> 1 <= L -> good L pre -> L + len1 pre < two32 -> converts pre pre').
  { intros pre pre' L H HL G B. apply (proj1 (conv_converts p) _ _ H L); auto. pose proof (nls_len pre). lia. }
  apply fails_both_ind.
  - intros pre pre' c post e Hc Hb L HL H B. rewrite len1_app in B. apply good_mid in H as (H & _).
    eapply rj_here; [|exact Hb]. eapply (Pre _ _ L); eauto. lia.
  - intros pre pre' l cs v post e X Hc _ IH HX L HL H B. rewrite len1_app, len1_cons, len_scope in B. apply good_mid in H as (H & _ & H2 & _).
    inversion H2; subst. specialize (IH 1 ltac:(lia) ltac:(assumption) ltac:(lia)).
    pose proof (proj1 rejects_bound _ _ IH 1 ltac:(lia) ltac:(assumption)). pose proof (nls_len pre).
    rewrite add32_ok in HX by lia. injection HX as <-. eapply rj_scope; eauto. eapply (Pre _ _ L); eauto. lia.
  - intros pre pre' l lab args post e Hc H1 H2 _ IH L HL H B. rewrite len1_app, len1_cons, len_cmd in B. apply good_mid in H as (H & _ & H3 & _).
    inversion H3; subst. eapply rj_cmd; eauto; [eapply (Pre _ _ L); eauto; lia|]. apply IH; [assumption|lia].
  - intros pre pre' l pb lab args b b1 c post e start inner Hc Hst Ho Hr Hb L HL H B. rewrite len1_app in B. apply good_mid in H as (H & _).
    eapply rj_open; eauto. eapply (Pre _ _ L); eauto. lia.
  - intros pre pre' l pb lab args b b1 start inner Hc Hst Ho Hr L HL H B. rewrite len1_app, len1_cons in B.
    rewrite <- (app_nil_r b) in H. apply good_env in H as (El & Gp & _ & _ & _ & Eb). 
    pose proof (nls_len pre). pose proof (nlch_len (begin_cmd l pb lab args)).
    rewrite startM_good in Hst by lia. injection Hst as <-. eapply rj_unclosed; eauto. eapply (Pre _ _ L); eauto. lia.
  - intros pre pre' l pb lab args b b1 l' pe post e start Hc Hst Ho Hr _ IH L HL H B. rewrite len1_app, len1_cons in B.
    apply good_env in H as (El & Gp & Ga & _). pose proof (len_begin_args l pb lab args).
    eapply rj_env_arg; eauto; [eapply (Pre _ _ L); eauto; lia|]. apply IH; [assumption|lia].
  - intros pre pre' l pb lab args args' b b1 l' pe post e start X Hc Hst Ho Hr Ha _ IH HX L HL H B.
    rewrite len1_app, len1_cons, len1_app, len1_cons in B.
    apply good_env in H as (El & Gp & Ga & Gb & _ & Eb). 
    pose proof (nls_len pre). pose proof (nls_len b). pose proof (nlch_len (begin_cmd l pb lab args)). pose proof (len_end l' pe lab). pose proof (len_begin_args l pb lab args).
    pose proof (count_newlines_le (args_text args)) as Hna. fold (len_args args) in Hna.
    rewrite startM_good in Hst by lia. injection Hst as <-.
    rewrite (rebase_exact0 p (begin_end_line l pb lab args) b ltac:(lia) Gb) in Hr by lia. injection Hr as <-.
    specialize (IH 1 ltac:(lia) (rebase_good0 _ _ Gb)). rewrite len_rebase in IH. specialize (IH ltac:(lia)).
    pose proof (proj1 rejects_bound _ _ IH 1 ltac:(lia) (rebase_good0 _ _ Gb)) as Bd. rewrite len_rebase in Bd.
    rewrite add32_ok in HX by lia. injection HX as <-.
    eapply rj_env_body; eauto; [eapply (Pre _ _ L); eauto; lia|]. apply (proj2 (conv_converts p)); eauto. lia.
  - intros pre cs v args e _ IH H B. rewrite len_args_cons in B. inversion H; subst. constructor. eapply (IH 1); [lia|assumption|lia].
  - intros pre cs v cs' args e Hc _ IH H B. rewrite len_args_cons in B. inversion H; subst. eapply ra_next; [eapply (Pre _ _ 1); eauto; lia|].
    apply IH; [assumption|lia].
Qed.

Lemma rejects_fails p :
  (forall d e, rejects d e -> forall L, 1 <= L -> good L d -> L + len1 d < two32 -> fails p d e) /\
  (forall args e, rejects_args args e -> good_args args -> len_args args < two32 -> fails_args p args e).
Proof.
  assert (Pre : forall pre pre' L, converts pre pre' -> 1 <= L -> good L pre -> L + len1 pre < two32 -> conv p pre pre').
  { intros pre pre' L H HL G B. apply (proj1 (converts_conv p) _ _ H L); auto. pose proof (nls_len pre). lia. }
  apply rejects_both_ind.
  - intros pre pre' c post e Hc Hb L HL H B. rewrite len1_app in B. apply good_mid in H as (H & _).
    eapply fl_here; [|exact Hb]. eapply (Pre _ _ L); eauto. lia.
  - intros pre pre' l cs v post e Hc Hrj IH L HL H B. rewrite len1_app, len1_cons, len_scope in B. apply good_mid in H as (H & _ & H2 & _).
    inversion H2; subst. specialize (IH 1 ltac:(lia) ltac:(assumption) ltac:(lia)).
    pose proof (proj1 rejects_bound _ _ Hrj 1 ltac:(lia) ltac:(assumption)). pose proof (nls_len pre).
    eapply fl_scope; eauto; [eapply (Pre _ _ L); eauto; lia|]. apply add32_ok. lia.
  - intros pre pre' l lab args post e Hc H1 H2 _ IH L HL H B. rewrite len1_app, len1_cons, len_cmd in B. apply good_mid in H as (H & _ & H3 & _).
    inversion H3; subst. eapply fl_cmd; eauto; [eapply (Pre _ _ L); eauto; lia|]. apply IH; [assumption|lia].
  - intros pre pre' l pb lab args b c post e inner Hc Ho Hb L HL H B. rewrite len1_app, len1_cons, len1_app in B.
    apply good_env in H as (El & Gp & Ga & Gb & _ & Eb). pose proof (nls_len pre). pose proof (nls_len b). pose proof (nlch_len (begin_cmd l pb lab args)).
    assert (Hl1 : 1 <= N.of_nat (length (show_chunk1 (begin_cmd l pb lab args)))) by (pose proof (len_begin_args l pb lab args); lia).
    assert (Hl2 : 1 <= len1 (c :: post)).
    { rewrite len1_cons. inversion Hb; subst; rewrite len_cmd; lia. }
    eapply fl_open; eauto; [eapply (Pre _ _ L); eauto; lia|apply startM_good; lia|apply rebase_exact0; [lia|exact Gb|lia]].
  - intros pre pre' l pb lab args b inner Hc Ho L HL H B. rewrite len1_app, len1_cons in B.
    rewrite <- (app_nil_r b) in H. apply good_env in H as (El & Gp & _ & Gb & _ & Eb). 
    pose proof (nls_len pre). pose proof (nlch_len (begin_cmd l pb lab args)). pose proof (nls_len b).
    eapply fl_unclosed; eauto; [eapply (Pre _ _ L); eauto; lia|apply startM_good; lia|apply rebase_exact0; [lia|exact Gb|lia]].
  - intros pre pre' l pb lab args b l' pe post e Hc Ho _ IH L HL H B. rewrite len1_app, len1_cons, len1_app in B.
    apply good_env in H as (El & Gp & Ga & Gb & _ & Eb). pose proof (len_begin_args l pb lab args).
    pose proof (nls_len pre). pose proof (nlch_len (begin_cmd l pb lab args)). pose proof (nls_len b).
    eapply fl_env_arg; eauto; [eapply (Pre _ _ L); eauto; lia|apply startM_good; lia|apply rebase_exact0; [lia|exact Gb|lia]|]. apply IH; [assumption|lia].
  - intros pre pre' l pb lab args args' b l' pe post e Hc Ho Ha Hrj IH L HL H B.
    rewrite len1_app, len1_cons, len1_app, len1_cons in B.
    apply good_env in H as (El & Gp & Ga & Gb & _ & Eb). 
    pose proof (nls_len pre). pose proof (nls_len b). pose proof (nlch_len (begin_cmd l pb lab args)). pose proof (len_end l' pe lab). pose proof (len_begin_args l pb lab args).
    pose proof (count_newlines_le (args_text args)) as Hna. fold (len_args args) in Hna.
    specialize (IH 1 ltac:(lia) (rebase_good0 _ _ Gb)). rewrite len_rebase in IH. specialize (IH ltac:(lia)).
    pose proof (proj1 rejects_bound _ _ Hrj 1 ltac:(lia) (rebase_good0 _ _ Gb)) as Bd. rewrite len_rebase in Bd.
    eapply (fl_env_body p pre pre' l pb lab args args' b _ l' pe post e (begin_end_line l pb lab args)); eauto;
      [eapply (Pre _ _ L); eauto; lia|apply startM_good; lia|apply rebase_exact0; [lia|exact Gb|lia]| |apply add32_ok; lia].
    apply (proj2 (converts_conv p)); auto. lia.
  - intros pre cs v args e _ IH H B. rewrite len_args_cons in B. inversion H; subst. constructor. eapply (IH 1); [lia|assumption|lia].
  - intros pre cs v cs' args e Hc _ IH H B. rewrite len_args_cons in B. inversion H; subst. eapply fa_next; [eapply (Pre _ _ 1); eauto; lia|].
    apply IH; [assumption|lia].
Qed.

(** ** Parsed documents *)
Lemma degrades_length a b : degrades a b -> (length b <= length a)%nat.
Proof. induction 1; cbn [length]; lia. Qed.
Lemma parsed_good d : parsed d -> good 1 d /\ 1 + len1 d < two32.
Proof.
  intros (p & s & B & H). split; [now apply (from_str1_good p s)|]. apply from_str1_degrades, degrades_length in H; [|exact B].
  unfold source_fits in B. unfold len1. lia.
Qed.

Theorem try_from2_converts p d d2 : parsed d -> (try_from2 p d = Ok d2 <-> converts d d2).
Proof.
  intros H. apply parsed_good in H as [G B]. pose proof (nls_len d). rewrite try_from2_iff. split; intros C.
  - apply (proj1 (conv_converts p) _ _ C 1); auto; lia.
  - apply (proj1 (converts_conv p) _ _ C 1); auto; lia.
Qed.
Theorem try_from2_rejects p d e : parsed d -> (try_from2 p d = Err e <-> rejects d e).
Proof.
  intros H. apply parsed_good in H as [G B]. rewrite try_from2_err_iff. split; intros C.
  - apply (proj1 (fails_rejects p) _ _ C 1); auto; lia.
  - apply (proj1 (rejects_fails p) _ _ C 1); auto; lia.
Qed.
Theorem try_from2_parsed p d : parsed d -> (exists d2, try_from2 p d = Ok d2) \/ (exists e, try_from2 p d = Err e).
Proof.
  intros H. destruct (try_from2_release d) as [[d2 E]|[e E]].
  - left. exists d2. apply (try_from2_converts p d d2 H). now apply (try_from2_converts Release d d2 H).
  - right. exists e. apply (try_from2_rejects p d e H). now apply (try_from2_rejects Release d e H).
Qed.
Theorem try_from2_profiles d : parsed d -> try_from2 Debug d = try_from2 Release d.
Proof.
  intros H. destruct (try_from2_release d) as [[d2 E]|[e E]]; rewrite E.
  - apply (try_from2_converts _ d d2 H). now apply (try_from2_converts Release d d2 H).
  - apply (try_from2_rejects _ d e H). now apply (try_from2_rejects Release d e H).
Qed.
