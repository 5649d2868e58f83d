(** * Reads: maths recognition is exactly the declared reading (SpecReads.v) *)
From Verif Require Import Base Ast1 Parse1 Ast2 Ast3 SpecDoc1 SpecDoc2 SpecDoc3 SpecMaths3 SpecPar3 SpecReads Tok Ind Lines Eqb Refine1 Facts1 Valid1 Par3 Maths3 MathsRun Mono MathsRec Dollars Facts2 Valid2 Env2.
From Coq Require Import Lia.

Scheme reads_mut := Induction for reads Sort Prop
  with reads_variant_mut := Induction for reads_variant Sort Prop
  with reads_args_mut := Induction for reads_args Sort Prop.
Combined Scheme reads_ind' from reads_mut, reads_variant_mut, reads_args_mut.

Definition to_outcome {A} (r : result A) : outcome error A :=
  match r with Good a => Ok a | Bad e => Err e | Overflow => Panic end.

(** ** Range *)
Definition ncmd (cs : list chunk2) : nat := length (filter is_command cs).
Lemma ncmd_cons c cs : ncmd (c :: cs) = ((if is_command c then 1 else 0) + ncmd cs)%nat.
Proof. unfold ncmd. cbn [filter]. now destruct (is_command c). Qed.
Lemma ncmd_app a b : ncmd (a ++ b) = (ncmd a + ncmd b)%nat.
Proof. unfold ncmd. now rewrite filter_app, app_length. Qed.
Lemma range_cons c cs : in_range (c :: cs) -> in_range cs.
Proof.
  intros H. inversion H as [cs0 H1 H2 H3]; subst. constructor.
  - fold (ncmd (c :: cs)) in H1. rewrite ncmd_cons in H1. fold (ncmd cs). lia.
  - intros l s Hi. apply H2. right; exact Hi.
  - intros l v i Hi. apply (H3 l). right; exact Hi.
Qed.
Lemma range_app a b : in_range (a ++ b) -> in_range b.
Proof. induction a as [|c a IH]; intros H; [exact H|]. apply IH. now apply range_cons in H. Qed.
Lemma range_text l s cs : in_range (mkChunk2 l (Text2 s) :: cs) -> count_newlines s < 2147483648 /\ l + count_newlines s < two32.
Proof. intros H. inversion H as [cs0 H1 H2 H3]; subst. apply (H2 l s). left; reflexivity. Qed.
Lemma range_inside l v cs inner : in_range (mkChunk2 l v :: cs) -> inside v inner -> in_range inner.
Proof. intros H Hi. inversion H as [cs0 H1 H2 H3]; subst. eapply H3; [left; reflexivity|exact Hi]. Qed.
Lemma range_length cs : in_range cs -> N.of_nat (ncmd cs) < two32.
Proof. intros H. inversion H as [cs0 H1 H2 H3]; subst. exact H1. Qed.
Lemma range_sub a b : (forall c, In c a -> In c b) -> (ncmd a <= ncmd b)%nat -> in_range b -> in_range a.
Proof.
  intros Hs Hl H. inversion H as [cs0 H1 H2 H3]; subst. constructor.
  - fold (ncmd a). fold (ncmd b) in H1. lia.
  - intros l s Hi. apply (H2 l s), Hs, Hi.
  - intros l v i Hi. apply (H3 l), Hs, Hi.
Qed.
Lemma range_nil : in_range []. Proof. constructor; [reflexivity|intros l s []|intros l v i []]. Qed.
Lemma range_text_cons l s cs : count_newlines s < 2147483648 -> l + count_newlines s < two32 ->
  in_range cs -> in_range (mkChunk2 l (Text2 s) :: cs).
Proof.
  intros H1 H2 H. inversion H as [cs0 K1 K2 K3]; subst. constructor; [exact K1| |].
  - intros l0 s0 [E|E]; [injection E as <- <-; split; [exact H1|exact H2]|apply (K2 _ _ E)].
  - intros l0 v inner [E|E] Hi; [injection E as <- <-; inversion Hi|exact (K3 _ _ _ E Hi)].
Qed.

(** ** From one dollar to the next *)
Definition in_dollars (md : maths_mode) : Prop := md = SingleDollar Dollars \/ md = DoubleDollar Dollars \/ md = DoubleClosing.
Section F.
  Context (p : profile) (rec : list chunk2 -> outcome error (list chunk3)).
  (** the rest of a text and the chunks after it *)
  Definition resume (m : mtext) (r : str) (cs : list chunk2) : outcome error mstate :=
    let* m := foldM (mt_step p rec) m r in foldM (m_step p rec) (mt_st (mt_push_str m)) cs.
  Lemma text_dollars st l s : in_dollars (ms_mode st) \/ ms_mode st = MNone -> m_step p rec st (mkChunk2 l (Text2 s)) = m_text p rec st l s.
  Proof. intros H. unfold m_step. destruct H as [[H|[H|H]]|H]; rewrite H; reflexivity. Qed.
  Lemma resume_start st l r cs : in_dollars (ms_mode st) \/ ms_mode st = MNone -> foldM (m_step p rec) st (mkChunk2 l (Text2 r) :: cs) = resume (mkMT st l [] l) r cs.
  Proof. intros H. cbn [foldM]. rewrite text_dollars by exact H. unfold m_text, resume. destruct (foldM (mt_step p rec) _ r); reflexivity. Qed.
  Lemma resume_text st l q r cs : in_dollars (ms_mode st) \/ ms_mode st = MNone -> ~ In c_dollar q -> l + count_newlines q < two32 ->
    foldM (m_step p rec) st (mkChunk2 l (Text2 (q ++ r)) :: cs) = resume (mkMT st (l + count_newlines q) q l) r cs.
  Proof.
    intros H Hq HL. rewrite resume_start by exact H. unfold resume. rewrite foldM_app', chars_fold by assumption. reflexivity.
  Qed.
  Lemma upto_fold cs leaks inner lb q rest : upto cs leaks inner lb q rest -> in_range cs ->
    exists r cs', rest = mkChunk2 (lb + count_newlines q) (Text2 r) :: cs' /\ in_range (mkChunk2 lb (Text2 (q ++ c_dollar :: r)) :: cs') /\
    (forall c, In c inner -> In c cs) /\ (ncmd inner + ncmd cs' <= ncmd cs)%nat /\
    ~ In c_dollar q /\ Forall text_in_range leaks /\ (size2 inner + S (length q) + size2 rest <= size2 cs)%nat /\
    forall O md d B bl, in_dollars md ->
    foldM (m_step p rec) (mkM O md d B bl) cs =
    let* m := mt_step p rec (mkMT (mkM (O ++ leaks) md d (B ++ inner) bl) (lb + count_newlines q) q lb) c_dollar in resume m r cs'.
  Proof.
    induction 1 as [l q r cs Hq|l s cs leaks inner l' q rest Hs H IH|l v cs leaks inner l' q rest Hv H IH]; intros R.
    - exists r, cs. split; [reflexivity|]. split; [exact R|]. split; [intros c []|]. split; [rewrite ncmd_cons; cbn; lia|]. split; [exact Hq|]. split; [constructor|].
      split; [rewrite !size2_cons; cbn [size_chunk2 size_variant2]; rewrite app_length; cbn [length]; change (size2 []) with 0%nat; lia|].
      intros O md d B bl Hm. pose proof (range_text _ _ _ R) as [R1 R2]. rewrite count_newlines_app in R2.
      rewrite resume_text by (auto || lia). rewrite !app_nil_r. unfold resume. cbn [foldM].
      destruct (mt_step p rec _ c_dollar); reflexivity.
    - destruct (IH (range_cons _ _ R)) as (r & cs' & E & R' & Hin & Hlen & Hq & Hleak & Hsz & F). exists r, cs'. split; [exact E|]. split; [exact R'|].
      split; [intros c Hc; right; auto|]. split; [rewrite ncmd_cons; lia|]. split; [exact Hq|]. pose proof (range_text _ _ _ R) as [R1 R2].
      split; [apply Forall_app; split; [|exact Hleak]; destruct s; cbn [text_chunk3]; constructor; [split; assumption|constructor]|].
      split; [rewrite size2_cons; lia|].
      intros O md d B bl Hm. cbn [foldM]. rewrite text_dollars by auto. unfold m_text. rewrite chars_fold by assumption. cbn [bind]. rewrite push_str_eq. cbn [mt_st ms_out ms_mode ms_depth ms_buffer ms_bline].
      rewrite F by exact Hm. cbn [app]. now rewrite <- app_assoc.
    - destruct (IH (range_cons _ _ R)) as (r & cs' & E & R' & Hin & Hlen & Hq & Hleak & Hsz & F). exists r, cs'. split; [exact E|]. split; [exact R'|].
      split; [intros c [<-|Hc]; [now left|right; auto]|]. split; [rewrite !ncmd_cons; lia|]. split; [exact Hq|]. split; [exact Hleak|].
      split; [rewrite !size2_cons; lia|].
      intros O md d B bl Hm. cbn [foldM]. assert (Hv' : not_text v) by (destruct v as [s| | |]; [now elim (Hv s)|exact I..]).
      rewrite m_step_other by exact Hv'. unfold m_other. cbn [ms_mode].
      replace (match md with SingleDollar Brackets => _ | _ => _ end) with (@Ok error _ (m_push_buffer (mkM O md d B bl) (mkChunk2 l v))) by (destruct Hm as [->|[->| ->]]; reflexivity).
      cbn [bind]. unfold m_push_buffer. cbn [ms_out ms_mode ms_depth ms_buffer ms_bline]. rewrite F by exact Hm. now rewrite <- app_assoc.
  Qed.
End F.

(** ** Closing a dollar block *)
Definition shift (p : profile) (lb : N) (c : chunk2) : outcome error chunk2 :=
  match c with mkChunk2 l v => let* o := sub32 p lb 1 in let* l := sub32 p l o in Ok (mkChunk2 l v) end.
Lemma shift_moved p lb content content' : Forall2 (moved lb) content content' -> mapM (shift p lb) content = Ok content'.
Proof.
  induction 1 as [|[l v] [l' v'] content content' H HF IH]; [reflexivity|]. cbn [mapM shift]. destruct H as (-> & H1 & H2).
  rewrite sub32_ok by lia. cbn [bind]. rewrite sub32_ok by lia. cbn [bind]. rewrite IH. cbn [bind]. do 3 f_equal. lia.
Qed.
Lemma moved_or lb content : (exists content', Forall2 (moved lb) content content') \/ (~ exists content', Forall2 (moved lb) content content').
Proof.
  induction content as [|[l v] content IH]; [left; exists []; constructor|].
  destruct IH as [[c' IH]|IH].
  - destruct (N.le_gt_cases 1 lb) as [H1|H1]; [destruct (N.le_gt_cases lb (l + 1)) as [H2|H2]|].
    + left. exists (mkChunk2 (l + 1 - lb) v :: c'). constructor; [|exact IH]. split; [reflexivity|lia].
    + right. intros [x Hx]. inversion Hx as [|a [l' v'] b y Ha Hb]; subst. destruct Ha as (_ & _ & Ha). lia.
    + right. intros [x Hx]. inversion Hx as [|a [l' v'] b y Ha Hb]; subst. destruct Ha as (_ & Ha & _). lia.
  - right. intros [x Hx]. inversion Hx as [|a y b z Ha Hb]; subst. apply IH. now exists z.
Qed.
Lemma shift_panic lb content : ~ (exists content', Forall2 (moved lb) content content') -> mapM (shift Debug lb) content = Panic.
Proof.
  induction content as [|[l v] content IH]; intros H; [elim H; exists []; constructor|]. cbn [mapM shift].
  destruct (N.le_gt_cases 1 lb) as [H1|H1].
  - rewrite sub32_ok by lia. cbn [bind]. destruct (N.le_gt_cases lb (l + 1)) as [H2|H2].
    + rewrite sub32_ok by lia. cbn [bind]. rewrite IH; [reflexivity|]. intros [c' Hc]. apply H. exists (mkChunk2 (l + 1 - lb) v :: c'). constructor; [|exact Hc]. split; [reflexivity|lia].
    + unfold sub32. destruct (N.leb_spec (lb - 1) l) as [K|K]; [lia|]. reflexivity.
  - unfold sub32 at 1. destruct (N.leb_spec 1 lb) as [K|K]; [lia|]. reflexivity.
Qed.
Lemma close_resume p rec O md d B bl q lb t r cs' :
  (let* m := mt_close p rec (mkMT (mkM O md d B bl) (lb + count_newlines q) q lb) t in resume p rec m r cs') =
  let* sh := mapM (shift p lb) (B ++ text_chunk2 lb q) in let* co := rec sh in
  foldM (m_step p rec) (mkM (O ++ [mkChunk3 lb (Maths3 (mkMaths3 Dollars t co))]) MNone d [] bl) (mkChunk2 (lb + count_newlines q) (Text2 r) :: cs').
Proof.
  unfold mt_close. cbn [mt_st mt_text mt_line ms_out ms_depth ms_buffer ms_bline mt_cursor].
  replace (if negb (is_empty q) then B ++ [mkChunk2 lb (Text2 q)] else B) with (B ++ text_chunk2 lb q) by (destruct q; cbn [is_empty negb text_chunk2]; [apply app_nil_r|reflexivity]).
  change (fun c : chunk2 => match c with mkChunk2 l v => let* o := sub32 p lb 1 in let* l0 := sub32 p l o in Ok (mkChunk2 l0 v) end) with (shift p lb).
  destruct (mapM (shift p lb) _) as [sh|e| |]; cbn [bind]; try reflexivity. destruct (rec sh) as [co|e| |]; cbn [bind]; try reflexivity.
  rewrite resume_start by (right; reflexivity). reflexivity.
Qed.
Lemma range_suffix lb q r cs' : in_range (mkChunk2 lb (Text2 (q ++ c_dollar :: r)) :: cs') -> in_range (mkChunk2 (lb + count_newlines q) (Text2 r) :: cs').
Proof.
  intros R. pose proof (range_text _ _ _ R) as [R1 R2]. pose proof (range_length _ R) as R3. change (c_dollar :: r) with ([c_dollar] ++ r) in *. rewrite !count_newlines_app in *. change (count_newlines [c_dollar]) with 0 in *.
  apply range_text_cons; [lia|lia|now apply range_cons in R].
Qed.
Lemma range_erased lb q r cs' : in_range (mkChunk2 lb (Text2 (q ++ c_dollar :: r)) :: cs') -> in_range (mkChunk2 lb (Text2 (q ++ r)) :: cs').
Proof.
  intros R. pose proof (range_text _ _ _ R) as [R1 R2]. pose proof (range_length _ R) as R3. change (c_dollar :: r) with ([c_dollar] ++ r) in *. rewrite !count_newlines_app in *. change (count_newlines [c_dollar]) with 0 in *.
  apply range_text_cons; [rewrite count_newlines_app; lia|rewrite count_newlines_app; lia|now apply range_cons in R].
Qed.
(** the content of a block: chunks of the list that are not texts, and the last text *)
Lemma range_content lb q r cs' (inner cs : list chunk2) : in_range cs -> (forall c, In c inner -> In c cs) -> (ncmd inner + ncmd cs' <= ncmd cs)%nat ->
  in_range (mkChunk2 lb (Text2 (q ++ c_dollar :: r)) :: cs') -> in_range (inner ++ text_chunk2 lb q).
Proof.
  intros R Hin Hlen R'. pose proof (range_text _ _ _ R') as [R1 R2]. pose proof (range_length _ R) as R3. rewrite count_newlines_app in *.
  inversion R as [x K1 K2 K3]; subst. constructor.
  - fold (ncmd (inner ++ text_chunk2 lb q)). rewrite ncmd_app. fold (ncmd cs) in K1. destruct q; cbn; lia.
  - intros l s Hi. apply in_app_or in Hi as [Hi|Hi]; [apply (K2 l s), Hin, Hi|]. destruct q as [|c q]; [destruct Hi|]. destruct Hi as [E|[]]. injection E as <- <-. split; [lia|unfold two32 in R2; lia].
  - intros l v i Hi Hv. apply in_app_or in Hi as [Hi|Hi]; [apply (K3 l v i (Hin _ Hi) Hv)|]. destruct q as [|c q]; [destruct Hi|]. destruct Hi as [E|[]]. injection E as <- <-. inversion Hv.
Qed.
Lemma range_moved lb content content' : Forall2 (moved lb) content content' -> in_range content -> in_range content'.
Proof.
  intros H R. inversion R as [x K1 K2 K3]; subst. constructor.
  - clear K2 K3. fold (ncmd content'). fold (ncmd content) in K1. assert (ncmd content = ncmd content') as <-; [|exact K1]. clear K1 R.
    induction H as [|[l v] [l' v'] c c' Hm HF IH]; [reflexivity|]. rewrite !ncmd_cons, IH. destruct Hm as (-> & _). reflexivity.
  - intros l s Hi. clear K1 K3 R. induction H as [|[l0 v0] [l' v'] c c' Hm HF IH]; [destruct Hi|]. destruct Hi as [E|Hi].
    + injection E as -> ->. destruct Hm as (<- & H1 & H2). destruct (K2 l0 s (or_introl eq_refl)) as [J1 J2]. split; [exact J1|lia].
    + apply IH; [|exact Hi]. intros l1 s1 H1. apply (K2 l1). right; exact H1.
  - intros l v i Hi Hv. clear K1 K2 R. induction H as [|[l0 v0] [l' v'] c c' Hm HF IH]; [destruct Hi|]. destruct Hi as [E|Hi].
    + injection E as -> ->. destruct Hm as (<- & H1 & H2). apply (K3 l0 v i (or_introl eq_refl) Hv).
    + apply IH; [|exact Hi]. intros l1 v1 i1 H1. apply (K3 l1). right; exact H1.
Qed.
Lemma size_moved lb content content' : Forall2 (moved lb) content content' -> size2 content' = size2 content.
Proof.
  intros H. apply size2_variants. induction H as [|[l v] [l' v'] c c' Hm HF IH]; [reflexivity|]. cbn [map variant_of2]. destruct Hm as (-> & _). now f_equal.
Qed.
Lemma size_content lb (inner : list chunk2) q : (size2 (inner ++ text_chunk2 lb q) <= size2 inner + S (length q))%nat.
Proof. rewrite size2_app. destruct q; cbn; lia. Qed.

Lemma block_fold p rec t cs leaks lb content rest : dollar_block t cs leaks lb content rest -> in_range cs ->
  in_range content /\ in_range rest /\ Forall text_in_range leaks /\ (size2 content + size2 rest <= size2 cs)%nat /\
  forall O d bl, foldM (m_step p rec) (mkM O (SingleDollar Dollars) d [] bl) cs =
  let* sh := mapM (shift p lb) content in let* co := rec sh in
  foldM (m_step p rec) (mkM (O ++ leaks ++ [mkChunk3 lb (Maths3 (mkMaths3 Dollars t co))]) MNone d [] bl) rest.
Proof.
  intros H R. destruct H as [cs leaks inner lb q rest H Hne|cs leaks0 lb0 rest0 leaks1 inner1 lb1 p1 lr r1 cs1 leaks2 inner2 lb q rest H0 H1 H2].
  - destruct (upto_fold p rec _ _ _ _ _ _ H R) as (r & cs' & -> & R' & Hin & Hlen & Hq & Hleak & Hsz & F).
    split; [exact (range_content lb q r cs' inner cs R Hin Hlen R')|]. split; [now apply range_suffix|]. split; [exact Hleak|]. split; [pose proof (size_content lb inner q); lia|].
    intros O d bl. rewrite F by (left; reflexivity). rewrite mt_step_dollar. cbn [mt_st ms_mode mt_text ms_buffer app].
    replace (is_empty q && is_empty inner) with false by (destruct Hne as [K|K]; [destruct inner; [congruence|]; now destruct q|destruct q; [congruence|reflexivity]]).
    rewrite close_resume. destruct (mapM _ _) as [sh|e| |]; cbn [bind]; try reflexivity. destruct (rec sh); cbn [bind]; try reflexivity. now rewrite app_assoc.
  - destruct (upto_fold p rec _ _ _ _ _ _ H0 R) as (ra & csa & -> & Ra & _ & Hlena & _ & Hleaka & Hsza & Fa).
    apply range_suffix in Ra as Ra'.
    destruct (upto_fold p rec _ _ _ _ _ _ H1 Ra') as (rb & csb & Eb & Rb & Hinb & Hlenb & Hqb & Hleakb & Hszb & Fb). injection Eb as -> -> ->.
    apply range_erased in Rb as Rb'.
    destruct (upto_fold p rec _ _ _ _ _ _ H2 Rb') as (r & cs' & -> & R' & Hin & Hlen & Hq & Hleak & Hsz & F).
    split; [|split; [now apply range_suffix|split; [|split]]].
    + rewrite app_assoc.
      assert (X : in_range (inner2 ++ text_chunk2 lb q)) by (apply (range_content lb q r cs' inner2 _ Rb' Hin); [exact Hlen|exact R']).
      inversion X as [x X1 X2 X3]; subst.
      inversion Ra' as [y Y1 Y2 Y3]; subst. constructor.
      * pose proof (range_length _ Ra') as K. fold (ncmd ((inner1 ++ inner2) ++ text_chunk2 lb q)). rewrite !ncmd_app. rewrite !ncmd_cons in *. cbn [is_command] in *. assert (ncmd (text_chunk2 lb q) = 0)%nat by (destruct q; reflexivity). unfold two32 in K. lia.
      * intros l s Hi. rewrite <- app_assoc in Hi. apply in_app_or in Hi as [Hi|Hi]; [apply (Y2 l s), Hinb, Hi|apply (X2 l s), Hi].
      * intros l v i Hi. rewrite <- app_assoc in Hi. apply in_app_or in Hi as [Hi|Hi]; [apply (Y3 l v i), Hinb, Hi|apply (X3 l v i), Hi].
    + apply Forall_app. split; [exact Hleaka|]. apply Forall_app. split; assumption.
    + rewrite app_assoc. pose proof (size_content lb (inner1 ++ inner2) q) as K. rewrite (size2_app inner1 inner2) in K.
      rewrite !size2_cons in *. cbn [size_chunk2 size_variant2] in *. rewrite !app_length in *. cbn [length] in *. change (size2 []) with 0%nat in *. lia.
    + intros O d bl. rewrite Fa by (left; reflexivity). rewrite mt_step_dollar. cbn [mt_st ms_mode mt_text ms_buffer app is_empty andb bind].
      unfold mt_set_mode. cbn [mt_st ms_out ms_depth ms_buffer ms_bline mt_cursor mt_text mt_line]. change (count_newlines []) with 0 in *. rewrite !N.add_0_r in *.
      rewrite <- (resume_start p rec (mkM (O ++ leaks0) (DoubleDollar Dollars) d [] bl) lb0 ra csa) by (left; right; left; reflexivity).
      rewrite Fb by (right; left; reflexivity). rewrite mt_step_dollar. cbn [mt_st ms_mode bind].
      unfold mt_set_mode. cbn [mt_st ms_out ms_depth ms_buffer ms_bline mt_cursor mt_text mt_line app].
      pose proof (range_text _ _ _ Rb) as [K1 K2]. rewrite count_newlines_app in K2.
      rewrite <- (resume_text p rec (mkM ((O ++ leaks0) ++ leaks1) DoubleClosing d inner1 bl)) by (auto || (left; right; right; reflexivity) || lia).
      rewrite F by (right; right; reflexivity). rewrite mt_step_dollar. cbn [mt_st ms_mode]. rewrite close_resume, <- (app_assoc inner1 inner2). destruct (mapM _ _) as [sh|e| |]; cbn [bind]; try reflexivity. destruct (rec sh); cbn [bind]; try reflexivity. now rewrite <- !app_assoc.
Qed.

(** ** A dollar without a partner *)
Definition no_dollar (cs : list chunk2) : Prop := forall l s, In (mkChunk2 l (Text2 s)) cs -> ~ In c_dollar s.
Lemma first_dollar s : ~ In c_dollar s \/ exists q r, s = q ++ c_dollar :: r /\ ~ In c_dollar q.
Proof.
  induction s as [|c s IH]; [left; intros []|]. destruct (N.eq_dec c c_dollar) as [->|Hc]; [right; exists [], s; split; [reflexivity|intros []]|].
  destruct IH as [IH|(q & r & -> & Hq)]; [left; intros [E|E]; [congruence|now apply IH]|right]. exists (c :: q), r. split; [reflexivity|]. intros [E|E]; [congruence|now apply Hq].
Qed.
Lemma upto_or cs : no_dollar cs \/ exists leaks inner lb q rest, upto cs leaks inner lb q rest.
Proof.
  induction cs as [|[l v] cs IH]; [left; intros l s []|].
  assert (T : (exists s, v = Text2 s) \/ (forall s, v <> Text2 s)) by (destruct v as [s| | |]; [left; now exists s|right; discriminate..]).
  destruct T as [[s ->]|T].
  - destruct (first_dollar s) as [Hs|(q & r & -> & Hq)].
    + destruct IH as [IH|(leaks & inner & lb & q & rest & IH)].
      * left. intros l0 s0 [E|E]; [injection E as <- <-; exact Hs|exact (IH l0 s0 E)].
      * right. exists (text_chunk3 l s ++ leaks), inner, lb, q, rest. now constructor.
    + right. exists [], [], l, q, (mkChunk2 (l + count_newlines q) (Text2 r) :: cs). now constructor.
  - destruct IH as [IH|(leaks & inner & lb & q & rest & IH)].
    + left. intros l0 s0 [E|E]; [injection E as _ K; now elim (T s0)|exact (IH l0 s0 E)].
    + right. exists leaks, (mkChunk2 l v :: inner), lb, q, rest. now constructor.
Qed.
Lemma no_dollar_fold p rec cs : no_dollar cs -> in_range cs -> forall O md d B bl, in_dollars md ->
  exists O' B', foldM (m_step p rec) (mkM O md d B bl) cs = Ok (mkM O' md d B' bl).
Proof.
  induction cs as [|[l v] cs IH]; intros Hn R O md d B bl Hm; [exists O, B; reflexivity|].
  assert (Hn' : no_dollar cs) by (intros l0 s0 Hi; apply (Hn l0); right; exact Hi). specialize (IH Hn' (range_cons _ _ R)).
  cbn [foldM]. destruct (match v with Text2 _ => true | _ => false end) eqn:Ev.
  - destruct v as [s| | |]; try discriminate. rewrite text_dollars by auto. unfold m_text. pose proof (range_text _ _ _ R) as [R1 R2].
    rewrite chars_fold by (try assumption; apply (Hn l s); left; reflexivity). cbn [bind]. rewrite push_str_eq. cbn [mt_st ms_out ms_mode ms_depth ms_buffer ms_bline]. now apply IH.
  - assert (Hv' : not_text v) by (destruct v; [discriminate|exact I..]). rewrite m_step_other by exact Hv'. unfold m_other. cbn [ms_mode].
    replace (match md with SingleDollar Brackets => _ | _ => _ end) with (@Ok error _ (m_push_buffer (mkM O md d B bl) (mkChunk2 l v))) by (destruct Hm as [->|[->| ->]]; reflexivity).
    cbn [bind]. unfold m_push_buffer. cbn [ms_out ms_mode ms_depth ms_buffer ms_bline]. now apply IH.
Qed.
Definition open_end p rec cs : Prop := forall O d bl, exists O' md B', in_dollars md /\
  foldM (m_step p rec) (mkM O (SingleDollar Dollars) d [] bl) cs = Ok (mkM O' md d B' bl).
Lemma block_or p rec cs : in_range cs ->
  (exists t leaks lb content rest, dollar_block t cs leaks lb content rest) \/ open_end p rec cs.
Proof.
  intros R. destruct (upto_or cs) as [Hn|(leaks0 & inner0 & lb0 & q0 & rest0 & H0)].
  { right. intros O d bl. destruct (no_dollar_fold p rec cs Hn R O (SingleDollar Dollars) d [] bl (or_introl eq_refl)) as (O' & B' & E). exists O', (SingleDollar Dollars), B'. split; [now left|exact E]. }
  assert (E0 : (inner0 <> [] \/ q0 <> []) \/ (inner0 = [] /\ q0 = [])) by (destruct inner0; [destruct q0; [right; auto|left; right; discriminate]|left; left; discriminate]).
  destruct E0 as [E0|[-> ->]]; [left; do 5 eexists; eapply db_inline; eassumption|].
  destruct (upto_fold p rec _ _ _ _ _ _ H0 R) as (ra & csa & -> & Ra & _ & _ & _ & _ & _ & Fa). apply range_suffix in Ra as Ra'.
  assert (Fa' : forall O d bl, foldM (m_step p rec) (mkM O (SingleDollar Dollars) d [] bl) cs =
    foldM (m_step p rec) (mkM (O ++ leaks0) (DoubleDollar Dollars) d [] bl) (mkChunk2 (lb0 + count_newlines []) (Text2 ra) :: csa)).
  { intros O d bl. rewrite Fa by (left; reflexivity). rewrite mt_step_dollar. cbn [mt_st ms_mode mt_text ms_buffer app is_empty andb bind].
    unfold mt_set_mode. cbn [mt_st ms_out ms_depth ms_buffer ms_bline mt_cursor mt_text mt_line]. change (count_newlines []) with 0 in *. rewrite !N.add_0_r in *.
    rewrite resume_start by (left; right; left; reflexivity). reflexivity. }
  destruct (upto_or (mkChunk2 (lb0 + count_newlines []) (Text2 ra) :: csa)) as [Hn|(leaks1 & inner1 & lb1 & q1 & rest1 & H1)].
  { right. intros O d bl. rewrite Fa'. destruct (no_dollar_fold p rec _ Hn Ra' (O ++ leaks0) (DoubleDollar Dollars) d [] bl ltac:(right; left; reflexivity)) as (O' & B' & E). exists O', (DoubleDollar Dollars), B'. split; [right; now left|exact E]. }
  destruct (upto_fold p rec _ _ _ _ _ _ H1 Ra') as (rb & csb & -> & Rb & _ & _ & Hqb & _ & _ & Fb). apply range_erased in Rb as Rb'.
  destruct (upto_or (mkChunk2 lb1 (Text2 (q1 ++ rb)) :: csb)) as [Hn|(leaks2 & inner2 & lb2 & q2 & rest2 & H2)].
  { right. intros O d bl. rewrite Fa', Fb by (right; left; reflexivity). rewrite mt_step_dollar. cbn [mt_st ms_mode bind].
    unfold mt_set_mode. cbn [mt_st ms_out ms_depth ms_buffer ms_bline mt_cursor mt_text mt_line app].
    pose proof (range_text _ _ _ Rb) as [K1 K2]. rewrite count_newlines_app in K2.
    rewrite <- (resume_text p rec (mkM ((O ++ leaks0) ++ leaks1) DoubleClosing d inner1 bl)) by (auto || (left; right; right; reflexivity) || lia).
    destruct (no_dollar_fold p rec _ Hn Rb' ((O ++ leaks0) ++ leaks1) DoubleClosing d inner1 bl ltac:(right; right; reflexivity)) as (O' & B' & E). exists O', DoubleClosing, B'. split; [right; now right|exact E]. }
  left. do 5 eexists. eapply db_display; eassumption.
Qed.
Lemma block_not_open t cs leaks lb content rest : in_range cs -> dollar_block t cs leaks lb content rest ->
  ~ open_end Debug (fun _ => Panic) cs.
Proof.
  intros R H K. destruct (block_fold Debug (fun _ => Panic) _ _ _ _ _ _ H R) as (_ & _ & _ & _ & F).
  destruct (K [] 0 0) as (O' & md & B' & _ & E). rewrite F in E. destruct (mapM _ _); cbn [bind] in E; discriminate.
Qed.
Lemma no_block_open p rec cs : in_range cs -> (forall t leaks lb content rest, ~ dollar_block t cs leaks lb content rest) -> open_end p rec cs.
Proof. intros R H. destruct (block_or p rec cs R) as [(t & leaks & lb & content & rest & K)|K]; [now elim (H t leaks lb content rest)|exact K]. Qed.
Lemma block_dec cs : in_range cs -> (exists t leaks lb content rest, dollar_block t cs leaks lb content rest) \/
  (forall t leaks lb content rest, ~ dollar_block t cs leaks lb content rest).
Proof.
  intros R. destruct (block_or Debug (fun _ => Panic) cs R) as [K|K]; [now left|right]. intros t leaks lb content rest H. now apply (block_not_open _ _ _ _ _ _ R H).
Qed.

(** ** The reading is what the code does *)
Lemma split_app a a' b b' : split_all a a' -> split_all b b' -> split_all (a ++ b) (a' ++ b').
Proof.
  induction 1 as [|L s pieces cs cs' Hp H IH|c cs cs' Hc H IH]; intros Hb; [exact Hb| |].
  - cbn [app]. rewrite <- app_assoc. constructor; auto.
  - cbn [app]. constructor; auto.
Qed.
Definition settled (out : list chunk3) : Prop := Forall text_in_range out /\ split_all out out.
Lemma settled_app a b : settled a -> settled b -> settled (a ++ b).
Proof. intros [A1 A2] [B1 B2]. split; [now apply Forall_app|now apply split_app]. Qed.
Lemma settled_cons l v out : (forall s, v <> Text3 s) -> settled out -> settled (mkChunk3 l v :: out).
Proof. intros Hv [B1 B2]. split; [constructor; [destruct v; try exact I; now elim (Hv s)|exact B1]|constructor; assumption]. Qed.
Lemma settled_split cs out : Forall text_in_range cs -> split_all cs out -> settled out.
Proof. intros H K. split; [now apply (split_all_range cs)|now apply (split_all_idem cs)]. Qed.
Lemma settled_par p out : settled out -> paragraph_from_chunks p out = @Ok error _ out.
Proof. intros [H1 H2]. now apply paragraph_iff. Qed.
Lemma text_chunk_range l s : count_newlines s < 2147483648 -> l + count_newlines s < two32 -> Forall text_in_range (text_chunk3 l s).
Proof. intros H1 H2. destruct s; cbn [text_chunk3]; constructor; [split; assumption|constructor]. Qed.
Lemma split_text l s pieces : paragraphs l s pieces -> split_all (text_chunk3 l s) pieces.
Proof.
  intros H. destruct s as [|c s].
  - cbn [text_chunk3]. assert (pieces = []) as ->; [|constructor].
    apply (paragraphs_unique l [] _ H []). apply (pp_text l []). rewrite scan_has. discriminate.
  - cbn [text_chunk3]. rewrite <- (app_nil_r pieces). constructor; [exact H|constructor].
Qed.
Lemma nesting_sub t d body kept d' : nesting t d body kept d' -> (forall c, In c kept -> In c body) /\ (ncmd kept <= ncmd body)%nat /\ (size2 kept <= size2 body)%nat.
Proof.
  induction 1 as [d|d l v body k d' Hv H (I1 & I2 & I3)|d l v body k d' Hv Hd H (I1 & I2 & I3)|d l v body k d' H1 H2 H (I1 & I2 & I3)]; rewrite ?size2_cons, ?ncmd_cons.
  - repeat split; auto.
  - split; [intros c Hc; right; auto|lia].
  - split; [intros c Hc; right; auto|lia].
  - split; [intros c [<-|Hc]; [left; reflexivity|right; auto]|lia].
Qed.
Lemma range_kept t body kept c1 c2 cs : nesting t 1 body kept 1 -> in_range (c1 :: body ++ c2 :: cs) -> in_range kept.
Proof.
  intros H. apply nesting_sub in H as (H1 & H2 & H3). apply range_sub; [intros c Hc; right; apply in_or_app; left; auto|rewrite ncmd_cons, ncmd_app; lia].
Qed.

Lemma nesting_run p rec t o bl d body kept d' : nesting t d body kept d' -> d + N.of_nat (ncmd body) < two32 ->
  forall buf, foldM (m_step p rec) (mkM o (br t) d buf bl) body = Ok (mkM o (br t) d' (buf ++ kept) bl).
Proof.
  induction 1 as [d|d l v body k d' Hv H IH|d l v body k d' Hv Hd H IH|d l v body k d' H1 H2 H IH]; intros HL buf; cbn [foldM]; try rewrite br_step; try rewrite ncmd_cons in HL.
  - now rewrite app_nil_r.
  - rewrite (proj2 (delta_open t v) Hv). destruct Hv as [args ->]. cbn [is_command] in HL. rewrite add32_ok by lia. cbn [bind]. apply IH. lia.
  - rewrite (proj2 (delta_close t v) Hv). destruct (N.eqb_spec (d + 1) 1) as [K|K]; [lia|]. rewrite sub32_ok by lia. cbn [bind]. replace (d + 1 - 1) with d by lia. apply IH. lia.
  - destruct (delta t v) as [[|]|] eqn:E; [apply delta_open in E; now elim H1|apply delta_close in E; now elim H2|]. cbn [bind]. rewrite IH by lia.
    now rewrite <- app_assoc.
Qed.
Definition run p O d bl cs : outcome error (list chunk3) :=
  let* st := foldM (m_step p (maths_from_chunks p)) (mkM O MNone d [] bl) cs in m_finish p st.
Definition gives (O : list chunk3) (r : result (list chunk3)) : outcome error (list chunk3) :=
  match r with Good out => let* o := paragraph_from_chunks Debug O in Ok (o ++ out) | Bad e => Err e | Overflow => Panic end.
Lemma gives_nil r : gives [] r = to_outcome r. Proof. destruct r; reflexivity. Qed.
Lemma gives_app O new new' r : paragraph_from_chunks Debug new = @Ok error _ new' -> gives (O ++ new) r = gives O (on (app new') r).
Proof.
  intros H. destruct r as [out|e|]; cbn [gives on]; try reflexivity. rewrite par_app, H. destruct (paragraph_from_chunks Debug O); cbn [bind]; try reflexivity. now rewrite <- app_assoc.
Qed.

Definition P1 (bl : N) (cs : list chunk2) (r : result (list chunk3)) : Prop :=
  in_range cs -> (forall O d, run Debug O d bl cs = gives O r) /\ forall out, r = Good out -> settled out.
Definition P2 (v : variant2) (r : result variant3) : Prop :=
  (forall inner, inside v inner -> in_range inner) ->
  not_text v /\ conv_variant Debug (maths_from_chunks Debug) v = to_outcome r /\ forall v3, r = Good v3 -> forall s, v3 <> Text3 s.
Definition P3 (args : list (str * scope2)) (r : result (list (str * scope3))) : Prop :=
  (forall pre cs v, In (pre, mkScope2 cs v) args -> in_range cs) ->
  args3_try_from Debug (maths_from_chunks Debug) args = to_outcome r.

Lemma P1_maths cs r : P1 0 cs r -> in_range cs -> maths_from_chunks Debug cs = to_outcome r /\
  (let* x := maths_from_chunks Debug cs in paragraph_from_chunks Debug x) = to_outcome r.
Proof.
  intros H R. destruct (H R) as [H1 H2]. specialize (H1 [] 0). rewrite gives_nil in H1.
  assert (E : maths_from_chunks Debug cs = to_outcome r) by (rewrite maths_unfold; exact H1). split; [exact E|]. rewrite E.
  destruct r as [out|e|]; cbn [to_outcome bind]; try reflexivity. apply settled_par. now apply H2.
Qed.
Lemma bind_bind {E A B C} (x : outcome E A) (f : A -> outcome E B) (g : B -> outcome E C) : (let* b := (let* a := x in f a) in g b) = let* a := x in let* b := f a in g b.
Proof. now destruct x. Qed.
Lemma mapM_cons {E A B} (f : A -> outcome E B) a l : mapM f (a :: l) = let* b := f a in let* bs := mapM f l in Ok (b :: bs).
Proof. reflexivity. Qed.

Lemma run_other O d bl l v cs v3 : not_text v -> plain v -> conv_variant Debug (maths_from_chunks Debug) v = Ok v3 ->
  run Debug O d bl (mkChunk2 l v :: cs) = run Debug (O ++ [mkChunk3 l v3]) d bl cs.
Proof.
  intros Hv Hp Hc. unfold run. cbn [foldM]. rewrite m_step_other by exact Hv. unfold m_other. cbn [ms_mode].
  destruct (kind v) as [[b t]|] eqn:Ek; [apply kind_some in Ek; destruct (Hp t) as [H1 H2]; destruct b; [now elim H1|now elim H2]|].
  rewrite Hc. reflexivity.
Qed.
Lemma run_other_fails O d bl l v cs (x : result variant3) : not_text v -> plain v -> conv_variant Debug (maths_from_chunks Debug) v = to_outcome x -> (forall v3, x <> Good v3) ->
  run Debug O d bl (mkChunk2 l v :: cs) = match x with Bad e => Err e | _ => Panic end.
Proof.
  intros Hv Hp Hc Hx. unfold run. cbn [foldM]. rewrite m_step_other by exact Hv. unfold m_other. cbn [ms_mode].
  destruct (kind v) as [[b t]|] eqn:Ek; [apply kind_some in Ek; destruct (Hp t) as [H1 H2]; destruct b; [now elim H1|now elim H2]|].
  rewrite Hc. destruct x; [now elim (Hx a)|reflexivity..].
Qed.
Lemma run_dollar O d bl l u s cs : ~ In c_dollar u -> in_range (mkChunk2 l (Text2 (u ++ c_dollar :: s)) :: cs) ->
  run Debug O d bl (mkChunk2 l (Text2 (u ++ c_dollar :: s)) :: cs) =
  let* st := foldM (m_step Debug (maths_from_chunks Debug)) (mkM (O ++ text_chunk3 l u) (SingleDollar Dollars) d [] bl) (mkChunk2 (l + count_newlines u) (Text2 s) :: cs) in m_finish Debug st.
Proof.
  intros Hu R. pose proof (range_text _ _ _ R) as [R1 R2]. rewrite count_newlines_app in R2. unfold run. rewrite resume_text by (auto || lia).
  rewrite resume_start by (left; left; reflexivity). unfold resume. cbn [foldM]. rewrite mt_step_dollar. cbn [mt_st ms_mode]. rewrite push_str_eq. unfold mt_set_mode. cbn [bind mt_st mt_cursor mt_text mt_line ms_out ms_depth ms_buffer ms_bline]. reflexivity.
Qed.
Theorem reads_run : (forall bl cs r, reads bl cs r -> P1 bl cs r) /\ (forall v r, reads_variant v r -> P2 v r) /\ (forall args r, reads_args args r -> P3 args r).
Proof.
  apply reads_ind'.
  - (* nil *) intros bl R. split; [intros O d|intros out E; injection E as <-; split; constructor].
    unfold run, m_finish. cbn [foldM bind ms_mode is_none negb ms_out gives]. destruct (paragraph_from_chunks Debug O) eqn:E; cbn [bind]; try reflexivity. now rewrite app_nil_r.
  - (* text *) intros bl l s cs pieces r Hs Hp H IH R. destruct (IH (range_cons _ _ R)) as [I1 I2]. pose proof (range_text _ _ _ R) as [R1 R2].
    pose proof (text_chunk_range l s R1 R2) as RT. pose proof (split_text _ _ _ Hp) as SP. split.
    + intros O d. unfold run. cbn [foldM]. rewrite m_text_none by reflexivity. unfold m_text. rewrite chars_fold by assumption. cbn [bind]. rewrite push_str_eq. cbn [mt_st ms_out ms_mode ms_depth ms_buffer ms_bline].
      rewrite <- (gives_app O (text_chunk3 l s)) by (apply paragraph_iff; assumption). apply I1.
    + intros out E. destruct r as [o|e|]; try discriminate. injection E as <-. apply settled_app; [now apply (settled_split (text_chunk3 l s))|now apply I2].
  - (* plain *) intros bl l v cs rv r Hpl Hv IV H IH R. destruct (IH (range_cons _ _ R)) as [I1 I2]. destruct (IV (fun inner => range_inside l v cs inner R)) as (V1 & V2 & V3). split.
    + intros O d. destruct rv as [v3|e|]; cbn [andthen to_outcome] in *.
      * rewrite (run_other O d bl l v cs v3 V1 Hpl V2), I1.
        replace (on (fun out => mkChunk3 l v3 :: out) r) with (on (app [mkChunk3 l v3]) r) by reflexivity.
        apply gives_app. unfold paragraph_from_chunks. cbn [foldM par_chunk]. specialize (V3 v3 eq_refl). destruct v3; try reflexivity. now elim (V3 s).
      * now rewrite (run_other_fails O d bl l v cs (Bad e) V1 Hpl V2).
      * now rewrite (run_other_fails O d bl l v cs Overflow V1 Hpl V2).
    + intros out E. destruct rv as [v3|e|]; try discriminate. destruct r as [o|e|]; try discriminate. injection E as <-. apply settled_cons; [now apply V3|now apply I2].
  - (* brackets *) intros bl t l args body kept l' args' cs rco r HN Hk IK H IH R.
    assert (RB : in_range cs) by (apply range_cons, range_app, range_cons in R; exact R). destruct (IH RB) as [I1 I2].
    pose proof (range_kept _ _ _ _ _ _ HN R) as RK. pose proof (proj1 (P1_maths kept rco IK RK)) as K. pose proof (range_length _ R) as RL. rewrite ncmd_cons, ncmd_app in RL. cbn [is_command] in RL.
    split.
    + intros O d. unfold run. cbn [foldM]. rewrite m_step_other by exact I. unfold m_other at 1. cbn [ms_mode]. rewrite kind_opener. cbn [bind ms_out ms_buffer]. rewrite foldM_app'.
      rewrite (nesting_run Debug _ t O l 1 body kept 1 HN) by lia. cbn [bind foldM app]. rewrite br_step. rewrite (proj2 (delta_close t _)) by (exists args'; reflexivity).
      change (1 =? 1) with true. cbn iota. rewrite K. destruct rco as [co|e|]; cbn [to_outcome bind andthen]; try reflexivity.
      specialize (I1 (O ++ [mkChunk3 l (Maths3 (mkMaths3 Brackets t co))]) 0). unfold run in I1. rewrite I1.
      replace (on (fun out => mkChunk3 l (Maths3 (mkMaths3 Brackets t co)) :: out) r) with (on (app [mkChunk3 l (Maths3 (mkMaths3 Brackets t co))]) r) by reflexivity. apply gives_app. reflexivity.
    + intros out E. destruct rco as [co|e|]; try discriminate. destruct r as [o|e|]; try discriminate. injection E as <-. apply settled_cons; [discriminate|now apply I2].
  - (* unclosed brackets *) intros bl t l args body kept d HN R. split; [|discriminate]. intros O dd. pose proof (range_length _ R) as RL. rewrite ncmd_cons in RL. cbn [is_command] in RL.
    unfold run. cbn [foldM]. rewrite m_step_other by exact I. unfold m_other at 1. cbn [ms_mode]. rewrite kind_opener. cbn [bind ms_out ms_buffer].
    rewrite (nesting_run Debug _ t O l 1 body kept d HN) by lia. cbn [bind]. now destruct t.
  - (* stray *) intros bl t l args cs R. split; [|discriminate]. intros O d. unfold run. cbn [foldM]. rewrite m_step_other by exact I. unfold m_other at 1. cbn [ms_mode]. rewrite kind_closer. reflexivity.
  - (* dollars *) intros bl l u s cs t leaks lb content rest pieces content' rco r Hu HB HS HM Hco IC Hr IR R.
    pose proof (range_suffix _ _ _ _ R) as R'. destruct (block_fold Debug (maths_from_chunks Debug) _ _ _ _ _ _ HB R') as (B1 & B2 & B3 & B4 & F).
    pose proof (range_moved _ _ _ HM B1) as B1'. pose proof (proj1 (P1_maths content' rco IC B1')) as K. destruct (IR B2) as [I1 I2].
    pose proof (range_text _ _ _ R) as [T1 T2]. rewrite count_newlines_app in T1, T2.
    assert (RT : Forall text_in_range (text_chunk3 l u ++ leaks)) by (apply Forall_app; split; [apply text_chunk_range; lia|exact B3]).
    split.
    + intros O d. rewrite run_dollar by assumption. rewrite F, (shift_moved _ _ _ _ HM). cbn [bind]. rewrite K. destruct rco as [co|e|]; cbn [to_outcome bind andthen]; try reflexivity.
      specialize (I1 ((O ++ text_chunk3 l u) ++ leaks ++ [mkChunk3 lb (Maths3 (mkMaths3 Dollars t co))]) d). unfold run in I1. rewrite I1.
      replace ((O ++ text_chunk3 l u) ++ leaks ++ [mkChunk3 lb (Maths3 (mkMaths3 Dollars t co))]) with (O ++ (text_chunk3 l u ++ leaks) ++ [mkChunk3 lb (Maths3 (mkMaths3 Dollars t co))]) by (now rewrite <- !app_assoc).
      rewrite (gives_app O _ (pieces ++ [mkChunk3 lb (Maths3 (mkMaths3 Dollars t co))])).
      * f_equal. destruct r; cbn [on]; try reflexivity. now rewrite <- app_assoc.
      * rewrite par_app, (proj2 (paragraph_iff Debug _ _ RT) HS). reflexivity.
    + intros out E. destruct rco as [co|e|]; try discriminate. destruct r as [o|e|]; try discriminate. injection E as <-.
      apply settled_app; [now apply (settled_split (text_chunk3 l u ++ leaks))|]. apply settled_cons; [discriminate|now apply I2].
  - (* overflow *) intros bl l u s cs t leaks lb content rest Hu HB HM R. split; [|discriminate]. intros O d.
    pose proof (range_suffix _ _ _ _ R) as R'. destruct (block_fold Debug (maths_from_chunks Debug) _ _ _ _ _ _ HB R') as (B1 & B2 & B3 & B4 & F).
    rewrite run_dollar by assumption. rewrite F, (shift_panic _ _ HM). reflexivity.
  - (* unclosed dollar *) intros bl l u s cs Hu HB R. split; [|discriminate]. intros O d.
    pose proof (range_suffix _ _ _ _ R) as R'. destruct (no_block_open Debug (maths_from_chunks Debug) _ R' HB (O ++ text_chunk3 l u) d bl) as (O' & md & B' & Hm & E).
    rewrite run_dollar by assumption. rewrite E. cbn [bind]. unfold m_finish. cbn [ms_mode]. destruct Hm as [->|[->| ->]]; reflexivity.
  - (* scope *) intros cs v r H IH R. specialize (R cs (in_scope cs v)). destruct (P1_maths cs r IH R) as [_ K]. split; [exact I|]. split.
    + cbn [conv_variant scope3_try_from].
      transitivity (let* x := (let* x := maths_from_chunks Debug cs in paragraph_from_chunks Debug x) in Ok (Scope3 (mkScope3 x (sv3_of_sv2 v)))).
      { destruct (maths_from_chunks Debug cs) as [x|e| |]; cbn [bind]; try reflexivity. now destruct (paragraph_from_chunks Debug x). }
      rewrite K. destruct r; reflexivity.
    + intros v3 E. destruct r; try discriminate. injection E as <-. discriminate.
  - (* command *) intros lab args r H IH R. split; [exact I|].
    assert (K : args3_try_from Debug (maths_from_chunks Debug) args = to_outcome r) by (apply IH; intros pre cs v Hi; eapply R, in_arg, Hi). split.
    + cbn [conv_variant command3_try_from]. rewrite K. destruct r; reflexivity.
    + intros v3 E. destruct r; try discriminate. injection E as <-. discriminate.
  - (* environment *) intros lab args content pb pe ra rc Ha IA Hc IC R. split; [exact I|].
    assert (K : args3_try_from Debug (maths_from_chunks Debug) args = to_outcome ra) by (apply IA; intros pre cs v Hi; eapply R, in_env_arg, Hi).
    destruct (P1_maths content rc IC (R content (in_env _ _ _ _ _))) as [_ K2]. split.
    + cbn [conv_variant env3_try_from]. rewrite K. destruct ra as [a|e|]; cbn [to_outcome bind andthen]; try reflexivity.
      transitivity (let* x := (let* x := maths_from_chunks Debug content in paragraph_from_chunks Debug x) in Ok (Environment3 (mkEnv3 lab a x pb pe))).
      { destruct (maths_from_chunks Debug content) as [x|e| |]; cbn [bind]; try reflexivity. now destruct (paragraph_from_chunks Debug x). }
      rewrite K2. destruct rc; reflexivity.
    + intros v3 E. destruct ra; try discriminate. destruct rc; try discriminate. injection E as <-. discriminate.
  - (* no argument *) intros _. reflexivity.
  - (* arguments *) intros pre cs v args r ra H IH Ha IA R. pose proof (R pre cs v (or_introl eq_refl)) as RC. destruct (P1_maths cs r IH RC) as [_ K].
    assert (KA : args3_try_from Debug (maths_from_chunks Debug) args = to_outcome ra) by (apply IA; intros; eapply R; right; eassumption).
    unfold args3_try_from in *. rewrite mapM_cons, KA. cbn [scope3_try_from].
    transitivity (let* x := (let* x := maths_from_chunks Debug cs in paragraph_from_chunks Debug x) in let* bs := to_outcome ra in Ok ((pre, mkScope3 x (sv3_of_sv2 v)) :: bs)).
    { destruct (maths_from_chunks Debug cs) as [x|e| |]; cbn [bind]; try reflexivity. now destruct (paragraph_from_chunks Debug x). }
    rewrite K. destruct r; cbn [to_outcome bind andthen]; try reflexivity. destruct ra; reflexivity.
Qed.

(** ** Every list has a reading *)
Lemma nesting_or t cs : forall d, 1 <= d ->
  (exists body kept l v cs', cs = body ++ mkChunk2 l v :: cs' /\ nesting t d body kept 1 /\ has_label [closer t] v) \/
  (exists kept d', nesting t d cs kept d').
Proof.
  induction cs as [|[l v] cs IH]; intros d Hd; [right; exists [], d; constructor|].
  destruct (delta t v) as [[|]|] eqn:E.
  - apply delta_open in E. destruct (IH (d + 1)) as [(body & kept & l' & v' & cs' & -> & HN & Hv)|(kept & d' & HN)]; [lia|left|right].
    + exists (mkChunk2 l v :: body), kept, l', v', cs'. split; [reflexivity|]. split; [now apply ne_open|exact Hv].
    + exists kept, d'. now apply ne_open.
  - apply delta_close in E. destruct (N.eq_dec d 1) as [->|K].
    + left. exists [], [], l, v, cs. split; [reflexivity|]. split; [constructor|exact E].
    + replace d with (d - 1 + 1) by lia. destruct (IH (d - 1)) as [(body & kept & l' & v' & cs' & -> & HN & Hv)|(kept & d' & HN)]; [lia|left|right].
      * exists (mkChunk2 l v :: body), kept, l', v', cs'. split; [reflexivity|]. split; [apply ne_close; [exact E|lia|exact HN]|exact Hv].
      * exists kept, d'. apply ne_close; [exact E|lia|exact HN].
  - assert (E1 : ~ has_label [opener t] v) by (intros K; apply delta_open in K; congruence). assert (E2 : ~ has_label [closer t] v) by (intros K; apply delta_close in K; congruence).
    destruct (IH d Hd) as [(body & kept & l' & v' & cs' & -> & HN & Hv)|(kept & d' & HN)]; [left|right].
    + exists (mkChunk2 l v :: body), (mkChunk2 l v :: kept), l', v', cs'. split; [reflexivity|]. split; [now apply ne_other|exact Hv].
    + exists (mkChunk2 l v :: kept), d'. now apply ne_other.
Qed.
Lemma kind_plain v : kind v = None -> plain v.
Proof. intros E t. split; intros K; [apply (kind_label true) in K|apply (kind_label false) in K]; congruence. Qed.
Lemma paragraphs_exist l s : count_newlines s < 2147483648 -> l + count_newlines s < two32 -> exists pieces, paragraphs l s pieces.
Proof.
  intros H1 H2. destruct (@paragraph_split error Debug [mkChunk3 l (Text3 s)]) as (cs' & _ & K); [constructor; [split; assumption|constructor]|].
  inversion K as [|L s0 pieces cs0 cs1 Hp Hr|c cs0 cs1 Hc Hr]; subst; [now exists pieces|]. now elim (Hc s).
Qed.
Lemma split_exist cs : Forall text_in_range cs -> exists cs', split_all cs cs'.
Proof. intros H. destruct (@paragraph_split error Debug cs H) as (cs' & _ & K). now exists cs'. Qed.
Theorem reads_total : forall n cs, (size2 cs < n)%nat -> in_range cs -> forall bl, exists r, reads bl cs r.
Proof.
  induction n as [|n IHn]; intros cs Hs R bl; [lia|].
  assert (IHa : forall args : list (str * scope2), (list_sum (map (fun a : str * scope2 => match a with (_, sc) => size_scope2 sc end) args) <= n)%nat ->
    (forall pre cs v, In (pre, mkScope2 cs v) args -> in_range cs) -> exists r, reads_args args r).
  { induction args as [|[pre [ics v]] args IHargs]; intros Hsz Hr; [eexists; constructor|]. cbn [map list_sum fold_right size_scope2] in Hsz. fold (list_sum (map (fun a : str * scope2 => match a with (_, sc) => size_scope2 sc end) args)) in Hsz.
    fold (size2 ics) in Hsz. destruct (IHn ics) with (bl := 0) as [ri Hi]; [unfold size2 in *; lia|eapply Hr; left; reflexivity|].
    destruct IHargs as [ra Ha]; [unfold size2 in *; lia|intros; eapply Hr; right; eassumption|]. eexists. econstructor; eassumption. }
  destruct cs as [|[l v] cs]; [eexists; constructor|]. rewrite size2_cons in Hs. cbn [size_chunk2] in Hs.
  assert (REST : exists r, reads bl cs r) by (apply IHn; [lia|now apply range_cons in R]). destruct REST as [r Hr].
  destruct (match v with Text2 _ => true | _ => false end) eqn:Ev.
  - destruct v as [s| | |]; try discriminate. pose proof (range_text _ _ _ R) as [R1 R2]. destruct (first_dollar s) as [Hd|(u & x & -> & Hu)].
    + destruct (paragraphs_exist l s R1 R2) as [pieces Hp]. eexists. eapply rd_text; eassumption.
    + pose proof (range_suffix _ _ _ _ R) as R'. destruct (block_dec _ R') as [(t & leaks & lb & content & rest & HB)|HB]; [|eexists; now apply rd_unclosed_dollar].
      destruct (block_fold Debug (fun _ => Panic) _ _ _ _ _ _ HB R') as (B1 & B2 & B3 & B4 & _).
      destruct (moved_or lb content) as [[content' HM]|HM]; [|eexists; eapply rd_overflow; eassumption].
      cbn [size_variant2] in Hs. rewrite app_length in Hs. cbn [length] in Hs. rewrite size2_cons in B4. cbn [size_chunk2 size_variant2] in B4.
      rewrite count_newlines_app in R1, R2.
      destruct (split_exist (text_chunk3 l u ++ leaks)) as [pieces Hp]; [apply Forall_app; split; [apply text_chunk_range; lia|exact B3]|].
      destruct (IHn content') with (bl := 0) as [rco Hco]; [rewrite (size_moved _ _ _ HM); lia|eapply range_moved; eassumption|].
      destruct (IHn rest) with (bl := bl) as [rr Hrr]; [lia|exact B2|]. eexists. eapply rd_dollars; eassumption.
  - destruct (kind v) as [[b t]|] eqn:Ek.
    + apply kind_some in Ek as [args ->]. destruct b; [|eexists; apply rd_stray].
      destruct (nesting_or t cs 1) as [(body & kept & l' & v' & cs' & -> & HN & [args' ->])|(kept & d' & HN)]; [lia| |eexists; eapply rd_unclosed_brackets; eassumption].
      pose proof (range_kept _ _ _ _ _ _ HN R) as RK. pose proof (nesting_sub _ _ _ _ _ HN) as (_ & _ & N3). rewrite size2_app, size2_cons in Hs.
      destruct (IHn kept) with (bl := 0) as [rco Hco]; [lia|exact RK|]. destruct (IHn cs') with (bl := l) as [rr Hrr]; [lia|apply range_cons, range_app, range_cons in R; exact R|].
      eexists. eapply rd_brackets; eassumption.
    + apply kind_plain in Ek. assert (V : exists rv, reads_variant v rv).
      { destruct v as [s|[lab args]|[ics sv]|[lab args content pb pe]]; try discriminate.
        - cbn [size_variant2 size_command2] in Hs. destruct (IHa args) as [ra Ha]; [lia|intros pre ics sv Hi; eapply (range_inside _ _ _ _ R), in_arg, Hi|]. eexists. econstructor; eassumption.
        - cbn [size_variant2 size_scope2] in Hs. fold (size2 ics) in Hs. destruct (IHn ics) with (bl := 0) as [ri Hi]; [lia|eapply (range_inside _ _ _ _ R), in_scope|]. eexists. econstructor; eassumption.
        - cbn [size_variant2 size_env2] in Hs. fold (size2 content) in Hs. destruct (IHa args) as [ra Ha]; [lia|intros pre ics sv Hi; eapply (range_inside _ _ _ _ R), in_env_arg, Hi|].
          destruct (IHn content) with (bl := 0) as [ri Hi]; [lia|eapply (range_inside _ _ _ _ R), in_env|]. eexists. econstructor; eassumption. }
      destruct V as [rv Hv]. eexists. eapply rd_plain; eassumption.
Qed.

(** ** C54 *)
Theorem maths_reads_debug cs r : in_range cs -> (maths_from_chunks Debug cs = to_outcome r <-> reads 0 cs r).
Proof.
  intros R. assert (F : forall r, reads 0 cs r -> maths_from_chunks Debug cs = to_outcome r) by (intros x Hx; apply (P1_maths cs x (proj1 reads_run _ _ _ Hx) R)).
  split; [|apply F]. intros E. destruct (reads_total (S (size2 cs)) cs ltac:(lia) R 0) as [x Hx]. assert (x = r) as <-; [|exact Hx].
  rewrite (F x Hx) in E. destruct x, r; cbn in E; congruence.
Qed.
Theorem maths_reads_exists cs : in_range cs -> exists r, reads 0 cs r.
Proof. intros R. apply (reads_total (S (size2 cs))); [lia|exact R]. Qed.
Theorem maths_reads_unique cs a b : in_range cs -> reads 0 cs a -> reads 0 cs b -> a = b.
Proof.
  intros R Ha Hb. apply maths_reads_debug in Ha; [|exact R]. apply maths_reads_debug in Hb; [|exact R]. rewrite Ha in Hb. destruct a, b; cbn in Hb; congruence.
Qed.
Theorem maths_reads_release cs r : in_range cs -> reads 0 cs r -> r <> Overflow -> maths_from_chunks Release cs = to_outcome r.
Proof.
  intros R H Hr. apply maths_reads_debug in H; [|exact R]. destruct (maths_leq true Debug Release dr cs) as [K|K]; [|now rewrite <- K].
  exfalso. rewrite K in H. destruct r; cbn in H; congruence.
Qed.

(** ** Parsed documents are in range *)
Lemma show2_in c cs : In c cs -> exists a b, show2 cs = a ++ show_chunk2 c ++ b.
Proof.
  induction cs as [|x cs IH]; intros H; [destruct H|]. unfold show2 in *. cbn [map concat]. destruct H as [->|H]; [exists [], (concat (map show_chunk2 cs)); reflexivity|].
  destruct (IH H) as (a & b & ->). exists (show_chunk2 x ++ a), b. now rewrite <- app_assoc.
Qed.
Lemma show_args2_in pre sc args : In (pre, sc) args -> exists a b, show_args2 args = a ++ show_scope2 sc ++ b.
Proof.
  induction args as [|[q x] args IH]; intros H; [destruct H|]. unfold show_args2 in *. cbn [map concat]. destruct H as [E|H]; [injection E as -> ->; eexists pre, _; rewrite <- app_assoc; reflexivity|].
  destruct (IH H) as (a & b & ->). eexists (_ ++ a), b. rewrite <- (app_assoc _ a). reflexivity.
Qed.
Definition sub (a b : str) : Prop := exists x y, b = x ++ a ++ y.
Lemma sub_refl a : sub a a. Proof. exists [], []. cbn [app]. now rewrite app_nil_r. Qed.
Lemma sub_l a b c : sub a b -> sub a (b ++ c).
Proof. intros (x & y & ->). exists x, (y ++ c). now rewrite <- !app_assoc. Qed.
Lemma sub_r a b c : sub a b -> sub a (c ++ b).
Proof. intros (x & y & ->). exists (c ++ x), y. now rewrite <- !app_assoc. Qed.
Lemma sub_cons a b c : sub a b -> sub a (c :: b).
Proof. apply (sub_r a b [c]). Qed.
Lemma sub_trans a b c : sub a b -> sub b c -> sub a c.
Proof. intros H (x & y & ->). now apply sub_r, sub_l. Qed.
Lemma sub_nl a b : sub a b -> count_newlines a <= count_newlines b.
Proof. intros (x & y & ->). rewrite !count_newlines_app. lia. Qed.
Lemma sub_len a b : sub a b -> (length a <= length b)%nat.
Proof. intros (x & y & ->). rewrite !app_length. lia. Qed.
Lemma sub_scope cs v : sub (show2 cs) (show_scope2 (mkScope2 cs v)).
Proof. cbn [show_scope2]. fold (show2 cs). apply sub_cons, sub_l, sub_refl. Qed.
Lemma inside_show v cs : inside v cs -> sub (show2 cs) (show_variant2 v).
Proof.
  intros H. destruct H as [cs v|lab args pre cs v Hi|lab args content pb pe pre cs v Hi|lab args content pb pe].
  - apply sub_scope.
  - apply show_args2_in in Hi. cbn [show_variant2 show_command2]. fold (show_args2 args). apply sub_cons, sub_r.
    eapply sub_trans; [apply (sub_scope cs v)|exact Hi].
  - apply show_args2_in in Hi. cbn [show_variant2 show_env2]. fold (show_args2 args). apply sub_r, sub_r, sub_r, sub_r, sub_r, sub_l.
    eapply sub_trans; [apply (sub_scope cs v)|exact Hi].
  - cbn [show_variant2 show_env2]. fold (show_args2 args) (show2 content). apply sub_r, sub_r, sub_r, sub_r, sub_r, sub_r, sub_l, sub_refl.
Qed.
Lemma inside_within d cs l v inner : within2 d cs -> In (mkChunk2 l v) cs -> inside v inner -> within2 d inner.
Proof.
  intros W I H. destruct H; [eapply w2_scope|eapply w2_arg|eapply w2_env_arg|eapply w2_env]; eassumption.
Qed.
Lemma ncmd_show cs : (ncmd cs <= length (show2 cs))%nat.
Proof.
  induction cs as [|[l v] cs IH]; [cbn; lia|]. rewrite ncmd_cons. unfold show2 in *. cbn [map concat]. rewrite app_length.
  destruct v as [s|[lab args]| |]; cbn [is_command show_chunk2 show_variant2 show_command2 length]; lia.
Qed.
Lemma parsed_in_range p s d : source_fits s -> count_newlines s < 2147483648 -> from_str2 p s = Ok d -> in_range d.
Proof.
  intros B Bn H. pose proof H as H0. destruct (from_str2_split p s d B H) as (d1 & H1 & _ & H2 & _).
  pose proof (try_from2_show _ _ _ H2) as Hs. pose proof (from_str1_newlines p s d1 B H1) as Hn.
  pose proof (Facts1.degrades_length _ _ (from_str1_degrades p s d1 B H1)) as Dl. rewrite <- Hs in Dl.
  assert (Hn' : count_newlines (show2 d) = count_newlines s) by (rewrite Hs; exact Hn).
  assert (G : forall n cs, (size2 cs < n)%nat -> within2 d cs -> sub (show2 cs) (show2 d) -> in_range cs).
  { induction n as [|n IH]; intros cs Hz W S; [lia|]. constructor.
    - fold (ncmd cs). pose proof (ncmd_show cs). apply sub_len in S. unfold source_fits, two32 in B. lia.
    - intros l t Hi. apply in_split in Hi as (pre & post & E). pose proof (other_line2 p s d B H0 cs W pre _ post E) as [_ L]. cbn [line_no2] in L.
      apply sub_nl in S. rewrite E, show2_app in S. rewrite show2_app, show2_one, count_newlines_app in L. unfold show2 in S at 2. cbn [map concat] in S. rewrite !count_newlines_app in S.
      cbn [show_chunk2 show_variant2] in S, L. split; lia.
    - intros l v inner Hi Hin. pose proof (inside_size _ _ Hin) as Z. apply IH.
      + apply in_split in Hi as (pre & post & ->). rewrite size2_app, size2_cons in Hz. cbn [size_chunk2] in Hz. lia.
      + eapply inside_within; eassumption.
      + eapply sub_trans; [apply inside_show, Hin|]. eapply sub_trans; [exact (show2_in _ _ Hi)|exact S]. }
  apply (G (S (size2 d))); [lia|constructor|apply sub_refl].
Qed.
