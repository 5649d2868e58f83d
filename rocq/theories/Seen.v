(** * Seen: from stage 2 up to stage 3 and down again *)
From Verif Require Import Base Ast1 Parse1 Ast2 Ast3 SpecDoc1 SpecDoc2 SpecUnnum SpecDoc3 SpecMaths3 SpecPar3 SpecReads SpecClass3 SpecRead3 SpecWrap SpecBack3 SpecSeen Ind Lines Eqb Tok Facts2 Valid2 Valid3 Env2 Par3 Maths3 MathsFwd MathsBwd Reads Read3 ReadsW Keep3 KeepW Doc3 Back3 Flat Unnum Unnum1 Unnum3 Unnum4 Again3 Again3b.
From Coq Require Import Lia.

Definition seen_args (args : list (str * scope2)) := map (fun a => match a with (pre, mkScope2 cs v) => (pre, v, seen cs) end) args.
Definition seen_variant (v : variant2) : list token := seen_chunk (mkChunk2 0 v).
Definition seen_atom (a : atom) : list token := match a with Ch c => [Letter c] | TextBegin | TextEnd => [] | Other v => seen_variant v end.
Definition seen_atoms (A : list atom) : list token := flat_map seen_atom A.
Lemma seen_line l v : seen_chunk (mkChunk2 l v) = seen_variant v.
Proof. destruct v as [s|[? ?]|[? ?]|[? ? ? ? ?]]; reflexivity. Qed.
Lemma seen_app a b : seen (a ++ b) = seen a ++ seen b. Proof. apply flat_map_app. Qed.
Lemma seen_cons l v cs : seen (mkChunk2 l v :: cs) = seen_variant v ++ seen cs. Proof. unfold seen. cbn [flat_map]. now rewrite seen_line. Qed.
Lemma seen_atoms_app a b : seen_atoms (a ++ b) = seen_atoms a ++ seen_atoms b. Proof. apply flat_map_app. Qed.
Lemma seen_chars s : seen_atoms (map Ch s) = map Letter s.
Proof. induction s as [|c s IH]; [reflexivity|]. unfold seen_atoms in *. cbn [map flat_map seen_atom]. now rewrite IH. Qed.
Lemma atoms_cons l v cs : atoms (mkChunk2 l v :: cs) = atoms_chunk (mkChunk2 l v) ++ atoms cs. Proof. reflexivity. Qed.
Lemma atoms_app a b : atoms (a ++ b) = atoms a ++ atoms b. Proof. unfold atoms. now rewrite map_app, concat_app. Qed.
Lemma atoms_text l s cs : atoms (mkChunk2 l (Text2 s) :: cs) = TextBegin :: map Ch s ++ TextEnd :: atoms cs.
Proof. unfold atoms. cbn [map concat atoms_chunk app]. now rewrite <- app_assoc. Qed.
Lemma seen_by_atoms cs : seen cs = seen_atoms (atoms cs).
Proof.
  induction cs as [|[l v] cs IH]; [reflexivity|]. rewrite seen_cons, atoms_cons, seen_atoms_app, <- IH. f_equal.
  destruct v as [s|c|s|e]; cbn [atoms_chunk seen_atoms flat_map seen_atom]; try (now rewrite app_nil_r).
  cbn [app]. change (flat_map seen_atom (map Ch s ++ [TextEnd])) with (seen_atoms (map Ch s ++ [TextEnd])). now rewrite seen_atoms_app, seen_chars, app_nil_r.
Qed.
Lemma seen_others B : forallb (fun a => is_edge a || is_other a) B = true -> seen_atoms (others B) = seen_atoms B.
Proof.
  induction B as [|[c| | |v] B IH]; intros H; cbn [forallb is_edge is_other orb andb] in H; [reflexivity|discriminate|exact (IH H)|exact (IH H)|].
  unfold others, seen_atoms in *. cbn [filter is_other flat_map]. now rewrite (IH H).
Qed.
Lemma seen_edges e : forallb is_edge e = true -> seen_atoms e = [] /\ others e = [] /\ forallb (fun a => is_edge a || is_other a) e = true.
Proof.
  induction e as [|[c| | |v] e IH]; intros H; cbn [forallb is_edge andb] in H; [now repeat split|discriminate| | |discriminate]; destruct (IH H) as (A & B & C); now repeat split.
Qed.

(** ** Showing *)
Lemma seen_doc a b : doc2_eq a b -> seen a = seen b.
Proof.
  assert (K : forall c, seen_chunk (unnumbered_chunk2 c) = seen_chunk c).
  { intros c. induction c as [l s|l lab args IH|l cs v IH|l lab args cs pb pe IHa IH] using chunk2_ind'; cbn [unnumbered_chunk2 unnumbered_variant2 unnumbered_command2 unnumbered_scope2 unnumbered_env2 seen_chunk]; try reflexivity.
    - do 2 f_equal. rewrite map_map. apply map_ext_in. intros [pre [cs v]] Hi. rewrite Forall_forall in IH. specialize (IH _ Hi). cbn [snd chunks2] in IH.
      unfold unnumbered_scope2. f_equal. clear Hi. rewrite Forall_forall in IH. rewrite flat_map_concat_map, map_map, <- flat_map_concat_map. rewrite !flat_map_concat_map. f_equal. apply map_ext_in. exact IH.
    - do 2 f_equal. rewrite !flat_map_concat_map, map_map. f_equal. apply map_ext_in. rewrite Forall_forall in IH. exact IH.
    - do 2 f_equal.
      + rewrite map_map. apply map_ext_in. intros [pre [cs' v]] Hi. rewrite Forall_forall in IHa. specialize (IHa _ Hi). cbn [snd chunks2] in IHa.
        unfold unnumbered_scope2. f_equal. clear Hi. rewrite Forall_forall in IHa. rewrite !flat_map_concat_map, map_map. f_equal. apply map_ext_in. exact IHa.
      + rewrite !flat_map_concat_map, map_map. f_equal. apply map_ext_in. rewrite Forall_forall in IH. exact IH. }
  assert (L : forall cs, seen (unnumbered2 cs) = seen cs).
  { intros cs. unfold seen, unnumbered2. rewrite !flat_map_concat_map, map_map. f_equal. apply map_ext. exact K. }
  intros H. rewrite <- (L a), <- (L b). unfold doc2_eq in H. now rewrite H.
Qed.
Fixpoint show_token (t : token) : str :=
  let args := fun l => concat (map (fun a => match a with (pre, v, cs) => pre ++ open2 v :: flat_map show_token cs ++ [close2 v] end) l) in
  match t with
  | Letter c => [c]
  | Com lab a => c_bslash :: lab ++ args a
  | Sco v cs => open2 v :: flat_map show_token cs ++ [close2 v]
  | Env lab a content pb pe => (c_bslash :: s_begin) ++ pb ++ [c_lcurly] ++ lab ++ [c_rcurly] ++ args a ++ flat_map show_token content ++ (c_bslash :: s_end) ++ pe ++ [c_lcurly] ++ lab ++ [c_rcurly]
  end.
Lemma show_seen cs : show2 cs = flat_map show_token (seen cs).
Proof.
  assert (L : forall cs, Forall (fun c => show_chunk2 c = flat_map show_token (seen_chunk c)) cs -> concat (map show_chunk2 cs) = flat_map show_token (flat_map seen_chunk cs)).
  { clear. induction 1 as [|c cs H _ IH]; [reflexivity|]. cbn [map concat flat_map]. now rewrite flat_map_app, H, IH. }
  assert (K : forall c, show_chunk2 c = flat_map show_token (seen_chunk c)).
  { assert (A : forall args, Forall (fun a => Forall (fun c => show_chunk2 c = flat_map show_token (seen_chunk c)) (chunks2 (snd a))) args ->
      concat (map (fun a => match a with (pre, sc) => pre ++ show_scope2 sc end) args) =
      concat (map (fun a => match a with (pre, v, cs) => pre ++ open2 v :: flat_map show_token cs ++ [close2 v] end)
        (map (fun a => match a with (pre, mkScope2 cs v) => (pre, v, flat_map seen_chunk cs) end) args))).
    { intros args H. rewrite map_map. f_equal. apply map_ext_in. intros [pre [cs' v]] Hi. rewrite Forall_forall in H. specialize (H _ Hi). cbn [show_scope2]. do 3 f_equal. exact (L _ H). }
    intros c. induction c as [l s|l lab args IH|l cs' v IH|l lab args cs' pb pe IHa IH] using chunk2_ind'; cbn [show_chunk2 show_variant2 show_command2 show_scope2 show_env2 seen_chunk flat_map show_token].
    - induction s as [|c s IHs]; [reflexivity|]. cbn [map flat_map show_token app]. now rewrite <- IHs.
    - rewrite app_nil_r. do 2 f_equal. exact (A _ IH).
    - rewrite app_nil_r. do 2 f_equal. exact (L _ IH).
    - rewrite app_nil_r. do 5 f_equal. rewrite (A _ IHa), (L _ IH). reflexivity. }
  unfold show2, seen. apply L. apply Forall_forall. intros c _. apply K.
Qed.
Lemma seen_show a b : seen a = seen b -> show2 a = show2 b.
Proof. rewrite !show_seen. congruence. Qed.

(** ** The way down *)
Lemma seen_dollared d out : seen (dollared d out) = map Letter d ++ seen out ++ map Letter d.
Proof.
  assert (P : seen (prepend_dollars d out) = map Letter d ++ seen out).
  { destruct out as [|[l [s|c|s|e]] out]; cbn [prepend_dollars]; unfold seen; cbn [flat_map]; try reflexivity. cbn [seen_chunk]. now rewrite map_app, <- app_assoc. }
  unfold dollared. destruct out as [|c out]; [unfold seen; cbn [flat_map seen_chunk]; now rewrite map_app, app_nil_r|].
  assert (N : prepend_dollars d (c :: out) <> []) by (destruct c as [? []]; discriminate). rewrite app_assoc, <- P.
  destruct (append_cases d 1 _ N) as [(A & l & s & E1 & E2)|(A & y & E1 & E0 & E2)]; rewrite E2, E1, !seen_app.
  - rewrite <- app_assoc. f_equal. unfold seen. cbn [flat_map seen_chunk]. now rewrite !app_nil_r, map_app.
  - rewrite <- app_assoc. f_equal. unfold seen. cbn [flat_map seen_chunk]. now rewrite !app_nil_r.
Qed.
Lemma seen_push out c : seen (push_chunk_unchecked2 out c) = seen out ++ seen_chunk c.
Proof.
  assert (G : seen (out ++ [c]) = seen out ++ seen_chunk c) by (rewrite seen_app; unfold seen at 2; cbn [flat_map]; now rewrite app_nil_r).
  destruct out as [|y out _] using rev_ind; [exact G|]. rewrite push_chunk_unchecked2_snoc. rewrite <- app_assoc in G. cbn [app] in G.
  destruct c as [l [s|x|x|x]]; cbn [variant_of2]; try exact G. destruct y as [k [w|x|x|x]]; try exact G.
  rewrite !seen_app. unfold seen. cbn [flat_map seen_chunk]. now rewrite !app_nil_r, map_app, <- app_assoc.
Qed.
Lemma seen_pushes t : forall out, seen (fold_left push_chunk_unchecked2 t out) = seen out ++ seen t.
Proof. induction t as [|c t IH]; intros out; cbn [fold_left]; [now rewrite app_nil_r|]. rewrite IH, seen_push, <- app_assoc. reflexivity. Qed.

(** ** The way up: dollars *)
Lemma upto_tidy cs leaks inner lb q rest : SpecReads.upto cs leaks inner lb q rest -> forall B p A,
  atoms cs = B ++ map Ch p ++ Ch c_dollar :: A -> forallb (fun a => is_edge a || is_other a) B = true -> ~ In c_dollar p ->
  leaks = [] /\ others B = atoms inner /\ p = q /\ atoms rest = TextBegin :: A.
Proof.
  assert (Text : forall s X B p A, TextBegin :: map Ch s ++ X = B ++ map Ch p ++ Ch c_dollar :: A -> forallb (fun a => is_edge a || is_other a) B = true ->
     exists B', B = TextBegin :: B' /\ map Ch s ++ X = B' ++ map Ch p ++ Ch c_dollar :: A /\ forallb (fun a => is_edge a || is_other a) B' = true).
  { intros s X [|b B] p A H F; [destruct p; discriminate|]. cbn [app] in H. injection H as <- H. exists B. cbn [forallb is_edge is_other orb andb] in F. auto. }
  induction 1 as [l p0 r cs Hp|l s cs leaks inner l' p0 rest Hs _ IH|l v cs leaks inner l' p0 rest Hv _ IH]; intros B p A E F Hd.
  - rewrite atoms_text in E. destruct (Text _ _ _ _ _ E F) as (B' & -> & E' & F'). clear E F Text.
    assert (B' = []) as ->.
    { destruct B' as [|b B']; [reflexivity|]. destruct p0 as [|c p0]; cbn [map app] in E'; injection E' as <- _; discriminate F'. }
    cbn [app] in E'. rewrite map_app, <- app_assoc in E'. cbn [map app] in E'.
    assert (p = p0 /\ A = map Ch r ++ TextEnd :: atoms cs) as [-> ->].
    { revert p Hd E'. clear F'. induction p0 as [|c p0 IH]; intros [|d p] Hd E'; cbn [map app] in E'; try discriminate.
      - injection E' as H1. now subst.
      - injection E' as H0 H1. subst. elim Hd. now left.
      - injection E' as H0 H1. subst. elim Hp. now left.
      - injection E' as H0 H1. subst. destruct (IH (fun H => Hp (or_intror H)) p (fun H => Hd (or_intror H)) H1) as [-> ->]. now split. }
    repeat split. now rewrite atoms_text.
  - rewrite atoms_text in E. destruct (Text _ _ _ _ _ E F) as (B' & -> & E' & F'). clear E F Text.
    destruct s as [|c s].
    + cbn [map app] in E'. destruct B' as [|b B']; [destruct p; discriminate|]. cbn [app] in E'. injection E' as <- E'. cbn [forallb is_edge is_other orb andb] in F'.
      destruct (IH _ _ _ E' F' Hd) as (-> & O & -> & R). cbn [text_chunk3 app]. repeat split; assumption.
    + exfalso. cbn [map app] in E'. destruct B' as [|b B']; [|injection E' as <- _; discriminate F'].
      cbn [app] in E'. change (map Ch (c :: s) ++ TextEnd :: atoms cs = map Ch p ++ Ch c_dollar :: A) in E'.
      revert E' Hs Hd. generalize (c :: s). clear. intros l E Hs. revert p E. induction l as [|c l IH]; intros [|d p] E Hd; cbn [map app] in E; try discriminate.
      * injection E as -> _. apply Hs. now left.
      * injection E as _ E. exact (IH (fun H => Hs (or_intror H)) p E (fun H => Hd (or_intror H))).
  - assert (Ho : atoms_chunk (mkChunk2 l v) = [Other v]) by (destruct v; [elim (Hv s); reflexivity|reflexivity..]).
    rewrite atoms_cons, Ho in E. cbn [app] in E. destruct B as [|b B]; [destruct p; discriminate|]. cbn [app] in E. injection E as <- E. cbn [forallb is_edge is_other orb andb] in F.
    destruct (IH _ _ _ E F Hd) as (-> & O & -> & R). rewrite atoms_cons, Ho. unfold others in *. cbn [filter is_other app]. rewrite O. repeat split; assumption.
Qed.
Lemma atoms_text_chunk l p : atoms (text_chunk2 l p) = text_atoms p.
Proof. destruct p; [reflexivity|]. unfold text_chunk2, text_atoms. now rewrite atoms_text. Qed.

Lemma tidy_dollar X : tidy (Ch c_dollar :: X) ->
  (exists B p A, X = B ++ map Ch p ++ Ch c_dollar :: A /\ forallb (fun a => is_edge a || is_other a) B = true /\ ~ In c_dollar p /\ (others B <> [] \/ p <> []) /\ tidy (others B ++ text_atoms p) /\ tidy A) \/
  (exists e B p e' A, X = e ++ Ch c_dollar :: B ++ map Ch p ++ Ch c_dollar :: e' ++ Ch c_dollar :: A /\ forallb is_edge e = true /\
    forallb (fun a => is_edge a || is_other a) B = true /\ ~ In c_dollar p /\ forallb is_edge e' = true /\ (e' = [] \/ p = []) /\ tidy (others B ++ text_atoms p) /\ tidy A).
Proof.
  intros H. inversion H as [|c A Hc HA|a A Ha HA|v A Hp Hi HA|t body A Hn Hb HA|B pr A HB Hpr Hne Hy HA|e B pr e' A He HB Hpr He' Hx Hy HA]; subst.
  - congruence.
  - discriminate.
  - left. exists B, pr, A. repeat split; assumption.
  - right. exists e, B, pr, e', A. repeat split; assumption.
Qed.
Lemma block_tidy t cs leaks lb content rest s X : dollar_block t cs leaks lb content rest -> atoms cs = TextBegin :: X -> tidy (Ch c_dollar :: X) -> s = dollars_of t ->
  leaks = [] /\ tidy (atoms content) /\ tidy (atoms rest) /\ map Letter [c_dollar] ++ seen cs = map Letter s ++ seen content ++ map Letter s ++ seen rest.
Proof.
  intros D E T ->. rewrite !seen_by_atoms. rewrite E. change (seen_atoms (TextBegin :: X)) with (seen_atoms X).
  assert (LC : forall A, seen_atoms (Ch c_dollar :: A) = Letter c_dollar :: seen_atoms A) by reflexivity.
  assert (LB : forall A, seen_atoms (TextBegin :: A) = seen_atoms A) by reflexivity.
  assert (TA : forall p, seen_atoms (text_atoms p) = map Letter p).
  { intros [|c p]; [reflexivity|]. cbn [text_atoms]. rewrite LB, seen_atoms_app, seen_chars, app_nil_r. reflexivity. }
  destruct D as [cs leaks inner lb q rest U N|cs leaks0 lb0 rest0 leaks1 inner1 lb1 p1 lr r cs1 leaks2 inner2 lb q rest U0 U1 U2];
  destruct (tidy_dollar _ T) as [(B & p & A & -> & HB & Hp & Hn & Hy & HA)|(e & B & p & e' & A & -> & He & HB & Hp & He' & Hx & Hy & HA)].
  - destruct (upto_tidy _ _ _ _ _ _ U (TextBegin :: B) p A) as (-> & O & -> & R); [exact E|exact HB|exact Hp|].
    rewrite atoms_app, atoms_text_chunk, R. change (others (TextBegin :: B)) with (others B) in O. rewrite <- O. split; [reflexivity|]. split; [exact Hy|]. split; [apply td_edge; [reflexivity|exact HA]|].
    rewrite !seen_atoms_app, TA, seen_others, seen_chars, LC, LB by exact HB. cbn [dollars_of map app]. now rewrite <- !app_assoc.
  - exfalso. destruct (seen_edges e He) as (E1 & E2 & E3). destruct (upto_tidy _ _ _ _ _ _ U (TextBegin :: e) [] (B ++ map Ch p ++ Ch c_dollar :: e' ++ Ch c_dollar :: A)) as (-> & O & <- & R); [exact E|exact E3|intros []|].
    change (others (TextBegin :: e)) with (others e) in O. rewrite E2 in O. destruct N as [N|N]; [|congruence]. destruct inner as [|[l [s|x|x|x]] inner]; [congruence|discriminate..].
  - exfalso. destruct (upto_tidy _ _ _ _ _ _ U0 (TextBegin :: B) p A) as (-> & O & -> & R); [exact E|exact HB|exact Hp|]. change (others (TextBegin :: B)) with (others B) in O. change (atoms []) with (@nil atom) in O. destruct Hn as [Hn|Hn]; congruence.
  - destruct (seen_edges e He) as (E1 & E2 & E3). destruct (seen_edges e' He') as (E1' & E2' & E3').
    destruct (upto_tidy _ _ _ _ _ _ U0 (TextBegin :: e) [] (B ++ map Ch p ++ Ch c_dollar :: e' ++ Ch c_dollar :: A)) as (-> & O & _ & R); [exact E|exact E3|intros []|].
    destruct (upto_tidy _ _ _ _ _ _ U1 (TextBegin :: B) p (e' ++ Ch c_dollar :: A)) as (-> & O1 & -> & R1); [exact R|exact HB|exact Hp|].
    rewrite atoms_text in R1. injection R1 as R1.
    assert (U2' : atoms (mkChunk2 lb1 (Text2 (p1 ++ r)) :: cs1) = TextBegin :: map Ch p1 ++ e' ++ Ch c_dollar :: A) by (rewrite atoms_text, map_app, <- app_assoc, R1; reflexivity).
    assert (leaks2 = [] /\ inner2 = [] /\ p1 = q /\ atoms rest = TextBegin :: A) as (-> & -> & -> & R2).
    { destruct Hx as [Hx|Hx]; rewrite Hx in *; cbn [app map] in U2'.
      - destruct (upto_tidy _ _ _ _ _ _ U2 [TextBegin] p1 A U2' eq_refl Hp) as (-> & Oo & -> & R2). repeat split; [|exact R2]. destruct inner2 as [|[l [s|x|x|x]] z]; [reflexivity|discriminate..].
      - destruct (upto_tidy _ _ _ _ _ _ U2 (TextBegin :: e') [] A U2' E3' ltac:(intros [])) as (-> & Oo & -> & R2). change (others (TextBegin :: e')) with (others e') in Oo. rewrite E2' in Oo.
        repeat split; [|exact R2]. destruct inner2 as [|[l [s|x|x|x]] z]; [reflexivity|discriminate..]. }
    change (others (TextBegin :: B)) with (others B) in O1. cbn [app]. rewrite atoms_app, atoms_text_chunk, R2, <- O1. split; [reflexivity|]. split; [exact Hy|]. split; [apply td_edge; [reflexivity|exact HA]|].
    rewrite !seen_atoms_app, TA, seen_others, E1, LC, LB by exact HB. rewrite !seen_atoms_app, LC, seen_atoms_app, seen_chars, LC, E1'. cbn [dollars_of map app]. now rewrite <- !app_assoc.
Qed.

(** ** The way up and down *)
Lemma tidy_chars s A : ~ In c_dollar s -> tidy (map Ch s ++ A) -> tidy A.
Proof.
  induction s as [|c s IH]; intros H T; [exact T|]. apply IH; [intros K; apply H; now right|]. cbn [map app] in T.
  inversion T as [|x X Hc HA|a X Ha HA|v X Hp Hi HA|t body X Hn Hb HA|B pr X HB Hpr Hne Hy HA|e B pr e' X He HB Hpr He' Hx Hy HA]; subst; [exact HA|discriminate| |]; elim H; now left.
Qed.
Lemma tidy_edge a A : is_edge a = true -> tidy (a :: A) -> tidy A.
Proof. intros He T. destruct a as [c| | |v]; try discriminate; inversion T; subst; assumption. Qed.
Lemma tidy_text l s cs : ~ In c_dollar s -> tidy (atoms (mkChunk2 l (Text2 s) :: cs)) -> tidy (atoms cs).
Proof. intros D T. rewrite atoms_text in T. apply tidy_edge in T; [|reflexivity]. apply tidy_chars in T; [|exact D]. now apply tidy_edge in T. Qed.
Lemma tidy_plain v A : plain v -> tidy (Other v :: A) -> (forall cs, inside v cs -> tidy (atoms cs)) /\ tidy A.
Proof.
  intros P T. inversion T as [|x X Hc HA|a X Ha HA|w X Hp Hi HA|t body X Hn Hb HA|B pr X HB Hpr Hne Hy HA|e B pr e' X He HB Hpr He' Hx Hy HA]; subst; [discriminate|split; assumption|].
  exfalso. destruct (P t) as [P1 _]. apply P1. now exists [].
Qed.
(** a bracket block in a tidy list *)
Definition of_kind (t : maths_type) (a : atom) : Prop := exists v, a = Other v /\ (has_label [opener t] v \/ has_label [closer t] v).
Lemma first_kind t (X Y A B : list atom) x y : (forall a, In a X -> ~ of_kind t a) -> (forall a, In a Y -> ~ of_kind t a) -> of_kind t x -> of_kind t y ->
  X ++ x :: A = Y ++ y :: B -> X = Y /\ x = y /\ A = B.
Proof.
  revert Y. induction X as [|a X IH]; intros [|b Y] HX HY Hx Hy E; cbn [app] in E; injection E as E1 E2.
  - now subst.
  - subst. elim (HY b); [now left|exact Hx].
  - subst. elim (HX y); [now left|exact Hy].
  - subst b. destruct (IH Y) as (-> & -> & ->); auto; intros c Hc; [apply HX|apply HY]; now right.
Qed.
Lemma atoms_kind t cs a : In a (atoms cs) -> of_kind t a -> exists l v, In (mkChunk2 l v) cs /\ (has_label [opener t] v \/ has_label [closer t] v).
Proof.
  intros H (v & -> & K). unfold atoms in H. apply in_concat in H as (y & Hy & H). apply in_map_iff in Hy as ([l w] & <- & Hc). exists l, v. split; [|exact K].
  destruct w as [s|c|s|e]; cbn [atoms_chunk] in H; [|destruct H as [H|[]]; injection H as <-; exact Hc..].
  destruct H as [H|H]; [discriminate|]. apply in_app_or in H as [H|[H|[]]]; [|discriminate]. apply in_map_iff in H as (? & ? & _). discriminate.
Qed.
Lemma nesting_first t body kept : nesting t 1 body kept 1 ->
  (body = kept /\ forall l v, In (mkChunk2 l v) body -> ~ has_label [opener t] v /\ ~ has_label [closer t] v) \/
  (exists X l v Y, body = X ++ mkChunk2 l v :: Y /\ has_label [opener t] v /\ forall l v, In (mkChunk2 l v) X -> ~ has_label [opener t] v /\ ~ has_label [closer t] v).
Proof.
  intros H. remember 1 as d eqn:Ed in H at 1. remember 1 as d' eqn:Ed' in H.
  induction H as [d|d l v body kept d' Ho _ _|d l v body kept d' Hc Hd _ _|d l v body kept d' Ho Hc _ IH].
  - left. split; [reflexivity|intros l v []].
  - right. exists [], l, v, body. split; [reflexivity|]. split; [exact Ho|intros ? ? []].
  - lia.
  - destruct (IH Ed Ed') as [(-> & K)|(X & l0 & v0 & Y & -> & K1 & K2)].
    + left. split; [reflexivity|]. intros l0 v0 [E|Hi]; [injection E as <- <-; now split|exact (K _ _ Hi)].
    + right. exists (mkChunk2 l v :: X), l0, v0, Y. split; [reflexivity|]. split; [exact K1|]. intros l1 v1 [E|Hi]; [injection E as <- <-; now split|exact (K2 _ _ Hi)].
Qed.
Lemma labels_differ t v : has_label [opener t] v -> ~ has_label [closer t] v.
Proof. intros (a & ->) (b & E). destruct t; discriminate. Qed.
Lemma command_atom l lab args : atoms_chunk (mkChunk2 l (Command2 (mkCommand2 lab args))) = [Other (Command2 (mkCommand2 lab args))]. Proof. reflexivity. Qed.
Lemma brackets_tidy t l args body kept l' args' cs : nesting t 1 body kept 1 ->
  tidy (atoms (mkChunk2 l (Command2 (mkCommand2 [opener t] args)) :: body ++ mkChunk2 l' (Command2 (mkCommand2 [closer t] args')) :: cs)) ->
  args = [] /\ args' = [] /\ body = kept /\ tidy (atoms kept) /\ tidy (atoms cs).
Proof.
  intros N T. rewrite atoms_cons, atoms_app, atoms_cons, !command_atom in T. cbn [app] in T.
  inversion T as [|x X Hc HA|a X Ha HA|w X Hp Hi HA|t' body' X Hn Hb HA|B pr X HB Hpr Hne Hy HA|e B pr e' X He HB Hpr He' Hx Hy HA]; subst; [discriminate|elim (proj1 (Hp t)); now exists args|].
  assert (t' = t) as -> by (destruct t, t'; try reflexivity; discriminate).
  assert (KB : forall a, In a (atoms body') -> ~ of_kind t a).
  { intros a Ha K. destruct (atoms_kind t body' a Ha K) as (l0 & v0 & Hi & [K'|K']); destruct (Hn _ _ Hi); contradiction. }
  assert (KO : forall a, of_kind t (Other (Command2 (mkCommand2 [closer t] a)))) by (intros a; eexists; split; [reflexivity|right; now exists a]).
  destruct (nesting_first t body kept N) as [(-> & KK)|(Z & l0 & v0 & Y & -> & K1 & K2)].
  - assert (KX : forall a, In a (atoms kept) -> ~ of_kind t a).
    { intros a Ha K. destruct (atoms_kind t kept a Ha K) as (l0 & v0 & Hi & [K'|K']); destruct (KK _ _ Hi); contradiction. }
    match goal with E : _ ++ _ = _ ++ _ |- _ => symmetry in E; apply (first_kind t) in E; [destruct E as (E3 & E4 & E5)|exact KX|exact KB|apply KO|apply KO] end.
    injection E4 as ->. subst X. rewrite E3. repeat split; assumption.
  - exfalso. assert (KX : forall a, In a (atoms Z) -> ~ of_kind t a).
    { intros a Ha K. destruct (atoms_kind t Z a Ha K) as (l1 & v1 & Hi & [K'|K']); destruct (K2 _ _ Hi); contradiction. }
    destruct K1 as (a0 & ->). match goal with E : _ ++ _ = _ ++ _ |- _ => rewrite atoms_app, atoms_cons, command_atom, <- app_assoc in E; cbn [app] in E; apply (first_kind t) in E; [destruct E as (_ & E4 & _); destruct t; discriminate E4|exact KB|exact KX|apply KO|] end.
    eexists. split; [reflexivity|]. left. now exists a0.
Qed.
Lemma atoms_moved lb a b : Forall2 (moved32 lb) a b -> atoms b = atoms a /\ seen b = seen a.
Proof.
  induction 1 as [|[l v] [l' v'] a b H _ [IH1 IH2]]; [now split|]. destruct H as (-> & _). rewrite !seen_cons, IH2. unfold atoms in *. cbn [map concat]. rewrite IH1. split; [destruct v; reflexivity|reflexivity].
Qed.
Lemma seen_pieces L s pieces : paragraphs L s pieces -> seen (flats pieces) = map Letter s.
Proof.
  assert (T : forall L s, seen (flats (text_chunk3 L s)) = map Letter s) by (intros l [|c x]; [reflexivity|]; unfold seen; cbn; now rewrite app_nil_r).
  induction 1 as [L s H|L t b rest cs Ht Hb Hr P IH]; [apply T|]. rewrite flats_app, seen_app, T. change (flats (mkChunk3 (break_line (L + count_newlines t) b) (ParagraphBreak3 b) :: cs)) with ([mkChunk2 1 (Text2 b)] ++ flats cs).
  rewrite seen_app, IH, !map_app. unfold seen. cbn [flat_map seen_chunk]. now rewrite app_nil_r.
Qed.
Lemma sv_back v : sv2_of_sv3 (variant3_of v) = v. Proof. now destruct v. Qed.
Theorem tidy_restored :
  (forall bl cs r, wreads bl cs r -> forall out, r = Good out -> tidy (atoms cs) -> seen (flats out) = seen cs) /\
  (forall v r, wreads_variant v r -> forall v3, r = Good v3 -> (forall cs, inside v cs -> tidy (atoms cs)) -> forall l, seen (flat (mkChunk3 l v3)) = seen_variant v) /\
  (forall args r, wreads_args args r -> forall args3, r = Good args3 -> (forall pre cs v, In (pre, mkScope2 cs v) args -> tidy (atoms cs)) -> seen_args (flat_args args3) = seen_args args).
Proof.
  apply wreads_ind'.
  - intros bl out [= <-] _. reflexivity.
  - intros bl l s cs pieces r Hs Hp _ IH out E0 T. apply on_good in E0 as (o & -> & ->). rewrite flats_app, seen_app, (seen_pieces _ _ _ Hp), seen_cons, (IH o eq_refl (tidy_text _ _ _ Hs T)). reflexivity.
  - intros bl l v cs rv r P Hv IHv _ IH out E0 T. apply andthen_good in E0 as (v3 & o & -> & -> & ->).
    assert (Ho : atoms_chunk (mkChunk2 l v) = [Other v]) by (destruct v as [s| | |]; [inversion Hv|reflexivity..]).
    rewrite atoms_cons, Ho in T. cbn [app] in T. destruct (tidy_plain _ _ P T) as [T1 T2]. change (flats (mkChunk3 l v3 :: o)) with (flat (mkChunk3 l v3) ++ flats o).
    rewrite seen_app, seen_cons, (IHv v3 eq_refl T1), (IH o eq_refl T2). reflexivity.
  - intros bl t l args body kept l' args' cs rco r N _ IHc _ IH out E0 T. apply andthen_good in E0 as (co & o & -> & -> & ->).
    destruct (brackets_tidy _ _ _ _ _ _ _ _ N T) as (-> & -> & -> & T1 & T2).
    change (flats (mkChunk3 l (Maths3 (mkMaths3 Brackets t co)) :: o)) with ((mkChunk2 1 (Command2 (mkCommand2 [opener t] [])) :: flats co ++ [mkChunk2 1 (Command2 (mkCommand2 [closer t] []))]) ++ flats o).
    cbn [app]. rewrite !seen_cons, <- app_assoc. cbn [app]. rewrite !seen_app, !seen_cons, (IHc co eq_refl T1), (IH o eq_refl T2). reflexivity.
  - discriminate.
  - discriminate.
  - intros bl l u s cs t leaks lb content rest pieces content' rco r Hu HD Hsp Hm _ IHc _ IH out E0 T. apply andthen_good in E0 as (co & o & -> & -> & ->).
    rewrite atoms_text, map_app, <- app_assoc in T. apply tidy_edge in T; [|reflexivity]. apply tidy_chars in T; [|exact Hu]. cbn [map app] in T.
    destruct (block_tidy _ _ _ _ _ _ (dollars_of t) (map Ch s ++ TextEnd :: atoms cs) HD) as (-> & T1 & T2 & E); [now rewrite atoms_text|exact T|reflexivity|].
    destruct (atoms_moved _ _ _ Hm) as [M1 M2]. rewrite <- M1 in T1. rewrite flats_app, seen_app.
    change (flats (mkChunk3 lb (Maths3 (mkMaths3 Dollars t co)) :: o)) with (dollared (dollars_of t) (flats co) ++ flats o).
    rewrite seen_app, seen_dollared, (IHc co eq_refl T1), (IH o eq_refl T2), M2, <- !app_assoc, <- E.
    assert (Hp : seen (flats pieces) = map Letter u).
    { rewrite app_nil_r in Hsp. destruct u as [|c u]; [inversion Hsp; reflexivity|]. unfold text_chunk3 in Hsp. inversion Hsp as [|L x ps y y' HP Hn|]; subst; [|match goal with K : forall s, _ <> _ |- _ => elim (K (c :: u)); reflexivity end].
      inversion Hn; subst. rewrite app_nil_r. eapply seen_pieces. exact HP. }
    rewrite Hp, !seen_cons. unfold seen_variant. cbn [seen_chunk]. rewrite map_app, <- app_assoc. reflexivity.
  - discriminate.
  - intros cs v r _ IH v3 E0 T l. apply on_good in E0 as (o & -> & ->). change (seen_variant (Scope2 (mkScope2 cs v))) with [Sco v (seen cs)].
    change (flat (mkChunk3 l (Scope3 (mkScope3 o (variant3_of v))))) with [mkChunk2 1 (Scope2 (mkScope2 (flats o) (sv2_of_sv3 (variant3_of v))))].
    rewrite sv_back. change ([Sco v (seen (flats o))] = [Sco v (seen cs)]). rewrite (IH o eq_refl); [reflexivity|]. apply T. constructor.
  - intros lab args r _ IH v3 E0 T l. apply on_good in E0 as (o & -> & ->). change ([Com lab (seen_args (flat_args o))] = [Com lab (seen_args args)]).
    rewrite (IH o eq_refl); [reflexivity|]. intros pre cs v Hi. apply T. econstructor. exact Hi.
  - intros lab args content pb pe ra rc _ IHa _ IHc v3 E0 T l. apply andthen_good in E0 as (a & o & -> & -> & ->).
    change ([Env lab (seen_args (flat_args a)) (seen (flats o)) pb pe] = [Env lab (seen_args args) (seen content) pb pe]).
    rewrite (IHa a eq_refl), (IHc o eq_refl); [reflexivity|apply T; constructor|]. intros pre cs v Hi. apply T. econstructor. exact Hi.
  - intros args3 [= <-] _. reflexivity.
  - intros pre cs v args r ra _ IHc _ IHa args3 E0 T. apply andthen_good in E0 as (o & a & -> & -> & ->).
    change ((pre, sv2_of_sv3 (variant3_of v), seen (flats o)) :: seen_args (flat_args a) = (pre, v, seen cs) :: seen_args args).
    rewrite sv_back, (IHc o eq_refl), (IHa a eq_refl); [reflexivity| |]; intros; eapply T; [right; eassumption|now left].
Qed.
