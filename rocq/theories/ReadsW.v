(** * ReadsW: maths recognition and the conversion to stage 3 in builds without overflow checks are the declared reading (SpecWrap.v) *)
From Verif Require Import Base Ast1 Parse1 Ast2 Ast3 SpecDoc1 SpecDoc2 SpecDoc3 SpecMaths3 SpecPar3 SpecReads SpecClass3 SpecRead3 SpecWrap Tok Ind Lines Eqb Refine1 Facts1 Valid1 Par3 Maths3 MathsRun Mono MathsRec Dollars Facts2 Valid2 Env2 Reads Class3 Options3 Doc3 Read3.
From Coq Require Import Lia.

Scheme wreads_mut := Induction for wreads Sort Prop
  with wreads_variant_mut := Induction for wreads_variant Sort Prop
  with wreads_args_mut := Induction for wreads_args Sort Prop.
Combined Scheme wreads_ind' from wreads_mut, wreads_variant_mut, wreads_args_mut.

(** ** Lines of 32 bits *)
Lemma u32_cons c cs : u32_lines (c :: cs) -> u32_lines cs.
Proof. intros H. inversion H as [cs0 H1 H2]; subst. constructor; [intros l v Hi; apply (H1 l v); right; exact Hi|intros l v i Hi; apply (H2 l); right; exact Hi]. Qed.
Lemma u32_sub a b : (forall c, In c a -> In c b) -> u32_lines b -> u32_lines a.
Proof. intros Hs H. inversion H as [cs0 H1 H2]; subst. constructor; [intros l v Hi; apply (H1 l v), Hs, Hi|intros l v i Hi; apply (H2 l), Hs, Hi]. Qed.
Lemma u32_app a b : u32_lines (a ++ b) -> u32_lines b.
Proof. apply u32_sub. intros c Hc. apply in_or_app. right; exact Hc. Qed.
Lemma u32_join a b : u32_lines a -> u32_lines b -> u32_lines (a ++ b).
Proof.
  intros A B. inversion A as [x A1 A2]; inversion B as [y B1 B2]; subst. constructor.
  - intros l v Hi. apply in_app_or in Hi as [Hi|Hi]; [apply (A1 _ _ Hi)|apply (B1 _ _ Hi)].
  - intros l v i Hi. apply in_app_or in Hi as [Hi|Hi]; [apply (A2 _ _ _ Hi)|apply (B2 _ _ _ Hi)].
Qed.
Lemma u32_inside l v cs inner : u32_lines (mkChunk2 l v :: cs) -> inside v inner -> u32_lines inner.
Proof. intros H Hi. inversion H as [cs0 H1 H2]; subst. eapply H2; [left; reflexivity|exact Hi]. Qed.
Lemma u32_line l v cs : u32_lines (mkChunk2 l v :: cs) -> l < two32.
Proof. intros H. inversion H as [cs0 H1 H2]; subst. apply (H1 l v). left; reflexivity. Qed.
Lemma u32_text l s cs : l < two32 -> u32_lines cs -> u32_lines (mkChunk2 l (Text2 s) :: cs).
Proof.
  intros L H. inversion H as [cs0 H1 H2]; subst. constructor.
  - intros l0 v0 [E|E]; [injection E as <- <-; exact L|apply (H1 _ _ E)].
  - intros l0 v0 i [E|E] Hi; [injection E as <- <-; inversion Hi|apply (H2 _ _ _ E Hi)].
Qed.
Lemma u32_text_chunk l s : l < two32 -> u32_lines (text_chunk2 l s).
Proof. intros L. assert (N0 : u32_lines []) by (constructor; [intros l0 v0 []|intros l0 v0 i []]). destruct s; cbn [text_chunk2]; [exact N0|now apply u32_text]. Qed.

(** the hypotheses of the theorems: all counters and all lines fit *)
Definition fits (cs : list chunk2) : Prop := in_range cs /\ u32_lines cs.
Lemma fits_cons c cs : fits (c :: cs) -> fits cs.
Proof. intros [A B]. split; [now apply range_cons in A|now apply u32_cons in B]. Qed.
Lemma fits_app a b : fits (a ++ b) -> fits b.
Proof. intros [A B]. split; [now apply range_app in A|now apply u32_app in B]. Qed.
Lemma fits_inside l v cs inner : fits (mkChunk2 l v :: cs) -> inside v inner -> fits inner.
Proof. intros [A B] H. split; [eapply range_inside; eassumption|eapply u32_inside; eassumption]. Qed.
Lemma fits_kept t body kept c1 c2 cs : nesting t 1 body kept 1 -> fits (c1 :: body ++ c2 :: cs) -> fits kept.
Proof.
  intros H [A B]. split; [eapply range_kept; eassumption|]. apply nesting_sub in H as (H1 & _). apply (u32_sub kept (c1 :: body ++ c2 :: cs)); [|exact B]. intros c Hc. right. apply in_or_app. left; auto.
Qed.
Lemma fits_suffix lb q r cs' : fits (mkChunk2 lb (Text2 (q ++ c_dollar :: r)) :: cs') -> fits (mkChunk2 (lb + count_newlines q) (Text2 r) :: cs').
Proof.
  intros [A B]. split; [now apply range_suffix|]. apply u32_cons in B. pose proof (range_text _ _ _ A) as [_ A2]. rewrite count_newlines_app in A2. apply u32_text; [lia|exact B].
Qed.

(** ** The content of a dollar block *)
Definition no_text (cs : list chunk2) : Prop := forall l s, ~ In (mkChunk2 l (Text2 s)) cs.
Lemma upto_u32 cs leaks inner lb q rest : upto cs leaks inner lb q rest -> in_range cs -> u32_lines cs ->
  no_text inner /\ u32_lines inner /\ lb < two32 /\ u32_lines rest.
Proof.
  induction 1 as [l q r cs Hq|l s cs leaks inner l' q rest Hs H IH|l v cs leaks inner l' q rest Hv H IH]; intros R U.
  - split; [intros l0 s0 []|]. split; [constructor; [intros l0 v0 []|intros l0 v0 i []]|]. split; [exact (u32_line _ _ _ U)|]. exact (proj2 (fits_suffix l q r cs (conj R U))).
  - apply IH; [now apply range_cons in R|now apply u32_cons in U].
  - destruct (IH (range_cons _ _ R) (u32_cons _ _ U)) as (I1 & I2 & I3 & I4). split; [|split; [|split; assumption]].
    + intros l0 s0 [E|E]; [injection E as -> ->; now elim (Hv s0)|exact (I1 l0 s0 E)].
    + inversion U as [x U1 U2]; inversion I2 as [y V1 V2]; subst. constructor.
      * intros l0 v0 [E|E]; [injection E as <- <-; apply (U1 l v); left; reflexivity|apply (V1 _ _ E)].
      * intros l0 v0 i [E|E]; [injection E as <- <-; apply (U2 l v); left; reflexivity|apply (V2 _ _ _ E)].
Qed.
Lemma upto_rest cs leaks inner lb q rest : upto cs leaks inner lb q rest -> exists r cs', rest = mkChunk2 (lb + count_newlines q) (Text2 r) :: cs'.
Proof. induction 1; eauto. Qed.
Lemma no_text_app a b : no_text a -> no_text b -> no_text (a ++ b).
Proof. intros A B l s H. apply in_app_or in H as [H|H]; [exact (A l s H)|exact (B l s H)]. Qed.
Lemma texts_at lb (inner : list chunk2) q : no_text inner -> forall l s, In (mkChunk2 l (Text2 s)) (inner ++ text_chunk2 lb q) -> l = lb.
Proof. intros H l s Hi. apply in_app_or in Hi as [Hi|Hi]; [now elim (H l s)|]. destruct q; [destruct Hi|]. destruct Hi as [E|[]]. now injection E as <- _. Qed.
Lemma block_u32 t cs leaks lb content rest : dollar_block t cs leaks lb content rest -> fits cs ->
  lb < two32 /\ u32_lines content /\ u32_lines rest /\ forall l s, In (mkChunk2 l (Text2 s)) content -> l = lb.
Proof.
  intros H [R U]. destruct H as [cs leaks inner lb q rest H Hne|cs leaks0 lb0 rest0 leaks1 inner1 lb1 p1 lr r1 cs1 leaks2 inner2 lb q rest H0 H1 H2].
  - destruct (upto_u32 _ _ _ _ _ _ H R U) as (I1 & I2 & I3 & I4). split; [exact I3|]. split; [apply u32_join; [exact I2|now apply u32_text_chunk]|]. split; [exact I4|]. now apply texts_at.
  - destruct (upto_u32 _ _ _ _ _ _ H0 R U) as (_ & _ & _ & U0).
    destruct (upto_fold Debug (fun _ => Panic) _ _ _ _ _ _ H0 R) as (ra & csa & -> & Ra & _). apply range_suffix in Ra as Ra'.
    destruct (upto_u32 _ _ _ _ _ _ H1 Ra' U0) as (I1 & I2 & I3 & I4).
    destruct (upto_fold Debug (fun _ => Panic) _ _ _ _ _ _ H1 Ra') as (rb & csb & Eb & Rb & _). injection Eb as -> -> ->.
    apply range_erased in Rb as Rb'. assert (U1 : u32_lines (mkChunk2 lb1 (Text2 (p1 ++ rb)) :: csb)) by (apply u32_text; [exact I3|now apply u32_cons in I4]).
    destruct (upto_u32 _ _ _ _ _ _ H2 Rb' U1) as (J1 & J2 & J3 & J4). split; [exact J3|]. rewrite app_assoc.
    split; [apply u32_join; [now apply u32_join|now apply u32_text_chunk]|]. split; [exact J4|]. apply texts_at. now apply no_text_app.
Qed.
Lemma mod_sub_cases a b M : 0 < M -> a < M -> b < M -> (a + M - b) mod M = if b <=? a then a - b else a + M - b.
Proof.
  intros HM Ha Hb. destruct (N.leb_spec b a) as [K|K].
  - replace (a + M - b) with (a - b + 1 * M) by lia. rewrite N.mod_add by lia. apply N.mod_small. lia.
  - apply N.mod_small. lia.
Qed.
Lemma mod_add_cases a M : 0 < M -> a < M + M -> a mod M = if a <? M then a else a - M.
Proof.
  intros HM Ha. destruct (N.ltb_spec a M) as [K|K]; [now apply N.mod_small|]. replace a with (a - M + 1 * M) at 1 by lia. rewrite N.mod_add by lia. apply N.mod_small. lia.
Qed.
Lemma sub32_release (a b : N) : a < two32 -> b < two32 -> sub32 Release a b = @Ok error _ (if b <=? a then a - b else a + two32 - b).
Proof.
  intros Ha Hb. unfold sub32, overflow32. pose proof (mod_sub_cases a b two32 ltac:(reflexivity) Ha Hb) as K. destruct (b <=? a); [reflexivity|]. now rewrite K.
Qed.
Lemma shift_one lb l v l' : lb < two32 -> l < two32 -> (moved32 lb (mkChunk2 l v) (mkChunk2 l' v) <-> shift Release lb (mkChunk2 l v) = Ok (mkChunk2 l' v)).
Proof.
  intros Hb Hl. cbn [shift moved32]. rewrite sub32_release by (assumption || reflexivity). cbn [bind].
  assert (T : two32 = 4294967296) by reflexivity.
  set (o := if 1 <=? lb then lb - 1 else lb + two32 - 1).
  assert (Ho : o < two32) by (unfold o; destruct (N.leb_spec 1 lb); lia).
  rewrite sub32_release by assumption. cbn [bind]. rewrite <- T. rewrite (mod_add_cases (l + 1)) by lia. split.
  - intros (_ & H1 & H2). rewrite (mod_add_cases (l' + lb)) in H2 by lia. do 2 f_equal. unfold o in *.
    destruct (N.leb_spec 1 lb); destruct (N.ltb_spec (l + 1) two32); destruct (N.ltb_spec (l' + lb) two32);
    match goal with |- context [?a <=? ?b] => destruct (N.leb_spec a b) end; lia.
  - intros H. injection H as H. assert (Hl' : l' < two32) by (destruct (N.leb_spec o l); lia). split; [reflexivity|]. split; [exact Hl'|].
    rewrite (mod_add_cases (l' + lb)) by lia. unfold o in *.
    destruct (N.leb_spec 1 lb); destruct (N.ltb_spec (l + 1) two32); destruct (N.ltb_spec (l' + lb) two32);
    match goal with H : context [?a <=? ?b] |- _ => destruct (N.leb_spec a b) end; lia.
Qed.
Lemma shift_moved32 lb content content' : lb < two32 -> u32_lines content -> Forall2 (moved32 lb) content content' -> mapM (shift Release lb) content = Ok content'.
Proof.
  intros Hb U H. induction H as [|[l v] [l' v'] content content' H HF IH]; [reflexivity|]. cbn [mapM].
  pose proof H as (E & _). subst v'. rewrite (proj1 (shift_one lb l v l' Hb (u32_line _ _ _ U)) H). cbn [bind]. rewrite IH by (now apply u32_cons in U). reflexivity.
Qed.
Lemma moved32_exists lb content : lb < two32 -> u32_lines content -> exists content', Forall2 (moved32 lb) content content'.
Proof.
  intros Hb U. induction content as [|[l v] content IH]; [exists []; constructor|]. destruct IH as [c' IH]; [now apply u32_cons in U|].
  assert (T : exists l', shift Release lb (mkChunk2 l v) = Ok (mkChunk2 l' v)).
  { cbn [shift]. rewrite sub32_release by (assumption || reflexivity). cbn [bind]. rewrite sub32_release; [eexists; reflexivity|exact (u32_line _ _ _ U)|].
    assert (T : two32 = 4294967296) by reflexivity. destruct (N.leb_spec 1 lb); lia. }
  destruct T as [l' T]. exists (mkChunk2 l' v :: c'). constructor; [|exact IH]. apply shift_one; [exact Hb|exact (u32_line _ _ _ U)|exact T].
Qed.
Lemma moved32_in lb content content' l' v : Forall2 (moved32 lb) content content' -> In (mkChunk2 l' v) content' ->
  exists l, In (mkChunk2 l v) content /\ moved32 lb (mkChunk2 l v) (mkChunk2 l' v).
Proof.
  intros H Hi. induction H as [|[l0 v0] [l1 v1] c c' Hm HF IH]; [destruct Hi|]. destruct Hi as [E|Hi].
  - injection E as -> ->. pose proof Hm as (E & _). subst v0. exists l0. split; [left; reflexivity|exact Hm].
  - destruct (IH Hi) as (l & I1 & I2). exists l. split; [right; exact I1|exact I2].
Qed.
Lemma moved32_one lb v l' : lb < two32 -> moved32 lb (mkChunk2 lb v) (mkChunk2 l' v) -> l' = 1.
Proof.
  intros Hb (_ & H1 & H2). assert (T : two32 = 4294967296) by reflexivity. rewrite <- T in *. rewrite !mod_add_cases in H2 by lia.
  destruct (N.ltb_spec (l' + lb) two32); destruct (N.ltb_spec (lb + 1) two32); lia.
Qed.
Lemma fits_moved lb content content' : lb < two32 -> (forall l s, In (mkChunk2 l (Text2 s)) content -> l = lb) ->
  Forall2 (moved32 lb) content content' -> fits content -> fits content'.
Proof.
  intros Hb Ht H [R U]. inversion R as [x K1 K2 K3]; inversion U as [y U1 U2]; subst. split; constructor.
  - fold (ncmd content'). fold (ncmd content) in K1. assert (ncmd content = ncmd content') as <-; [|exact K1]. clear - H.
    induction H as [|[l v] [l' v'] c c' Hm HF IH]; [reflexivity|]. rewrite !ncmd_cons, IH. destruct Hm as (-> & _). reflexivity.
  - intros l s Hi. destruct (moved32_in _ _ _ _ _ H Hi) as (l0 & I1 & I2). pose proof (Ht _ _ I1) as ->. apply moved32_one in I2; [|exact Hb]. subst l.
    destruct (K2 _ _ I1) as [J1 J2]. split; [exact J1|lia].
  - intros l v i Hi Hv. destruct (moved32_in _ _ _ _ _ H Hi) as (l0 & I1 & I2). exact (K3 _ _ _ I1 Hv).
  - intros l v Hi. destruct (moved32_in _ _ _ _ _ H Hi) as (l0 & I1 & _ & I2 & _). exact I2.
  - intros l v i Hi Hv. destruct (moved32_in _ _ _ _ _ H Hi) as (l0 & I1 & I2). exact (U2 _ _ _ I1 Hv).
Qed.
Lemma size_moved32 lb content content' : Forall2 (moved32 lb) content content' -> size2 content' = size2 content.
Proof.
  intros H. apply size2_variants. induction H as [|[l v] [l' v'] c c' Hm HF IH]; [reflexivity|]. cbn [map variant_of2]. destruct Hm as (-> & _). now f_equal.
Qed.

(** ** The reading is what the code does *)
Definition wgives (O : list chunk3) (r : result (list chunk3)) : outcome error (list chunk3) :=
  match r with Good out => let* o := paragraph_from_chunks Release O in Ok (o ++ out) | Bad e => Err e | Overflow => Panic end.
Lemma wgives_nil r : wgives [] r = to_outcome r. Proof. destruct r; reflexivity. Qed.
Lemma wgives_app O new new' r : paragraph_from_chunks Release new = @Ok error _ new' -> wgives (O ++ new) r = wgives O (on (app new') r).
Proof.
  intros H. destruct r as [out|e|]; cbn [wgives on]; try reflexivity. rewrite par_app, H. destruct (paragraph_from_chunks Release O); cbn [bind]; try reflexivity. now rewrite <- app_assoc.
Qed.

Definition wP1 (bl : N) (cs : list chunk2) (r : result (list chunk3)) : Prop :=
  fits cs -> (forall O d, run Release O d bl cs = wgives O r) /\ forall out, r = Good out -> settled out.
Definition wP2 (v : variant2) (r : result variant3) : Prop :=
  (forall inner, inside v inner -> fits inner) ->
  not_text v /\ conv_variant Release (maths_from_chunks Release) v = to_outcome r /\ forall v3, r = Good v3 -> forall s, v3 <> Text3 s.
Definition wP3 (args : list (str * scope2)) (r : result (list (str * scope3))) : Prop :=
  (forall pre cs v, In (pre, mkScope2 cs v) args -> fits cs) ->
  args3_try_from Release (maths_from_chunks Release) args = to_outcome r.

Lemma wP1_maths cs r : wP1 0 cs r -> fits cs -> maths_from_chunks Release cs = to_outcome r /\
  (let* x := maths_from_chunks Release cs in paragraph_from_chunks Release x) = to_outcome r.
Proof.
  intros H R. destruct (H R) as [H1 H2]. specialize (H1 [] 0). rewrite wgives_nil in H1.
  assert (E : maths_from_chunks Release cs = to_outcome r) by (rewrite maths_unfold; exact H1). split; [exact E|]. rewrite E.
  destruct r as [out|e|]; cbn [to_outcome bind]; try reflexivity. apply settled_par. now apply H2.
Qed.
Lemma wrun_other O d bl l v cs v3 : not_text v -> plain v -> conv_variant Release (maths_from_chunks Release) v = Ok v3 ->
  run Release O d bl (mkChunk2 l v :: cs) = run Release (O ++ [mkChunk3 l v3]) d bl cs.
Proof.
  intros Hv Hp Hc. unfold run. cbn [foldM]. rewrite m_step_other by exact Hv. unfold m_other. cbn [ms_mode].
  destruct (kind v) as [[b t]|] eqn:Ek; [apply kind_some in Ek; destruct (Hp t) as [H1 H2]; destruct b; [now elim H1|now elim H2]|].
  rewrite Hc. reflexivity.
Qed.
Lemma wrun_other_fails O d bl l v cs (x : result variant3) : not_text v -> plain v -> conv_variant Release (maths_from_chunks Release) v = to_outcome x -> (forall v3, x <> Good v3) ->
  run Release O d bl (mkChunk2 l v :: cs) = match x with Bad e => Err e | _ => Panic end.
Proof.
  intros Hv Hp Hc Hx. unfold run. cbn [foldM]. rewrite m_step_other by exact Hv. unfold m_other. cbn [ms_mode].
  destruct (kind v) as [[b t]|] eqn:Ek; [apply kind_some in Ek; destruct (Hp t) as [H1 H2]; destruct b; [now elim H1|now elim H2]|].
  rewrite Hc. destruct x; [now elim (Hx a)|reflexivity..].
Qed.
Lemma wrun_dollar O d bl l u s cs : ~ In c_dollar u -> fits (mkChunk2 l (Text2 (u ++ c_dollar :: s)) :: cs) ->
  run Release O d bl (mkChunk2 l (Text2 (u ++ c_dollar :: s)) :: cs) =
  let* st := foldM (m_step Release (maths_from_chunks Release)) (mkM (O ++ text_chunk3 l u) (SingleDollar Dollars) d [] bl) (mkChunk2 (l + count_newlines u) (Text2 s) :: cs) in m_finish Release st.
Proof.
  intros Hu R. pose proof (range_text _ _ _ (proj1 R)) as [R1 R2]. rewrite count_newlines_app in R2. unfold run. rewrite resume_text by (auto || lia).
  rewrite resume_start by (left; left; reflexivity). unfold resume. cbn [foldM]. rewrite mt_step_dollar. cbn [mt_st ms_mode]. rewrite push_str_eq. unfold mt_set_mode. cbn [bind mt_st mt_cursor mt_text mt_line ms_out ms_depth ms_buffer ms_bline]. reflexivity.
Qed.
Theorem wreads_run : (forall bl cs r, wreads bl cs r -> wP1 bl cs r) /\ (forall v r, wreads_variant v r -> wP2 v r) /\ (forall args r, wreads_args args r -> wP3 args r).
Proof.
  apply wreads_ind'.
  - (* nil *) intros bl R. split; [intros O d|intros out E; injection E as <-; split; constructor].
    unfold run, m_finish. cbn [foldM bind ms_mode is_none negb ms_out wgives]. destruct (paragraph_from_chunks Release O) eqn:E; cbn [bind]; try reflexivity. now rewrite app_nil_r.
  - (* text *) intros bl l s cs pieces r Hs Hp H IH R. destruct (IH (fits_cons _ _ R)) as [I1 I2]. pose proof (range_text _ _ _ (proj1 R)) as [R1 R2].
    pose proof (text_chunk_range l s R1 R2) as RT. pose proof (split_text _ _ _ Hp) as SP. split.
    + intros O d. unfold run. cbn [foldM]. rewrite m_text_none by reflexivity. unfold m_text. rewrite chars_fold by assumption. cbn [bind]. rewrite push_str_eq. cbn [mt_st ms_out ms_mode ms_depth ms_buffer ms_bline].
      rewrite <- (wgives_app O (text_chunk3 l s)) by (apply paragraph_iff; assumption). apply I1.
    + intros out E. destruct r as [o|e|]; try discriminate. injection E as <-. apply settled_app; [now apply (settled_split (text_chunk3 l s))|now apply I2].
  - (* plain *) intros bl l v cs rv r Hpl Hv IV H IH R. destruct (IH (fits_cons _ _ R)) as [I1 I2]. destruct (IV (fun inner => fits_inside l v cs inner R)) as (V1 & V2 & V3). split.
    + intros O d. destruct rv as [v3|e|]; cbn [andthen to_outcome] in *.
      * rewrite (wrun_other O d bl l v cs v3 V1 Hpl V2), I1.
        replace (on (fun out => mkChunk3 l v3 :: out) r) with (on (app [mkChunk3 l v3]) r) by reflexivity.
        apply wgives_app. unfold paragraph_from_chunks. cbn [foldM par_chunk]. specialize (V3 v3 eq_refl). destruct v3; try reflexivity. now elim (V3 s).
      * now rewrite (wrun_other_fails O d bl l v cs (Bad e) V1 Hpl V2).
      * now rewrite (wrun_other_fails O d bl l v cs Overflow V1 Hpl V2).
    + intros out E. destruct rv as [v3|e|]; try discriminate. destruct r as [o|e|]; try discriminate. injection E as <-. apply settled_cons; [now apply V3|now apply I2].
  - (* brackets *) intros bl t l args body kept l' args' cs rco r HN Hk IK H IH R.
    assert (RB : fits cs) by (apply fits_cons, fits_app, fits_cons in R; exact R). destruct (IH RB) as [I1 I2].
    pose proof (fits_kept _ _ _ _ _ _ HN R) as RK. pose proof (proj1 (wP1_maths kept rco IK RK)) as K. pose proof (range_length _ (proj1 R)) as RL. rewrite ncmd_cons, ncmd_app in RL. cbn [is_command] in RL.
    split.
    + intros O d. unfold run. cbn [foldM]. rewrite m_step_other by exact I. unfold m_other at 1. cbn [ms_mode]. rewrite kind_opener. cbn [bind ms_out ms_buffer]. rewrite foldM_app'.
      rewrite (nesting_run Release _ t O l 1 body kept 1 HN) by lia. cbn [bind foldM app]. rewrite br_step. rewrite (proj2 (delta_close t _)) by (exists args'; reflexivity).
      change (1 =? 1) with true. cbn iota. rewrite K. destruct rco as [co|e|]; cbn [to_outcome bind andthen]; try reflexivity.
      specialize (I1 (O ++ [mkChunk3 l (Maths3 (mkMaths3 Brackets t co))]) 0). unfold run in I1. rewrite I1.
      replace (on (fun out => mkChunk3 l (Maths3 (mkMaths3 Brackets t co)) :: out) r) with (on (app [mkChunk3 l (Maths3 (mkMaths3 Brackets t co))]) r) by reflexivity. apply wgives_app. reflexivity.
    + intros out E. destruct rco as [co|e|]; try discriminate. destruct r as [o|e|]; try discriminate. injection E as <-. apply settled_cons; [discriminate|now apply I2].
  - (* unclosed brackets *) intros bl t l args body kept d HN R. split; [|discriminate]. intros O dd. pose proof (range_length _ (proj1 R)) as RL. rewrite ncmd_cons in RL. cbn [is_command] in RL.
    unfold run. cbn [foldM]. rewrite m_step_other by exact I. unfold m_other at 1. cbn [ms_mode]. rewrite kind_opener. cbn [bind ms_out ms_buffer].
    rewrite (nesting_run Release _ t O l 1 body kept d HN) by lia. cbn [bind]. now destruct t.
  - (* stray *) intros bl t l args cs R. split; [|discriminate]. intros O d. unfold run. cbn [foldM]. rewrite m_step_other by exact I. unfold m_other at 1. cbn [ms_mode]. rewrite kind_closer. reflexivity.
  - (* dollars *) intros bl l u s cs t leaks lb content rest pieces content' rco r Hu HB HS HM Hco IC Hr IR R.
    pose proof (fits_suffix _ _ _ _ R) as R'. destruct (block_fold Release (maths_from_chunks Release) _ _ _ _ _ _ HB (proj1 R')) as (B1 & B2 & B3 & B4 & F).
    destruct (block_u32 _ _ _ _ _ _ HB R') as (Z1 & Z2 & Z3 & Z4). pose proof (fits_moved _ _ _ Z1 Z4 HM (conj B1 Z2)) as B1'. pose proof (proj1 (wP1_maths content' rco IC B1')) as K. destruct (IR (conj B2 Z3)) as [I1 I2].
    pose proof (range_text _ _ _ (proj1 R)) as [T1 T2]. rewrite count_newlines_app in T1, T2.
    assert (RT : Forall text_in_range (text_chunk3 l u ++ leaks)) by (apply Forall_app; split; [apply text_chunk_range; lia|exact B3]).
    split.
    + intros O d. rewrite wrun_dollar by assumption. rewrite F, (shift_moved32 _ _ _ Z1 Z2 HM). cbn [bind]. rewrite K. destruct rco as [co|e|]; cbn [to_outcome bind andthen]; try reflexivity.
      specialize (I1 ((O ++ text_chunk3 l u) ++ leaks ++ [mkChunk3 lb (Maths3 (mkMaths3 Dollars t co))]) d). unfold run in I1. rewrite I1.
      replace ((O ++ text_chunk3 l u) ++ leaks ++ [mkChunk3 lb (Maths3 (mkMaths3 Dollars t co))]) with (O ++ (text_chunk3 l u ++ leaks) ++ [mkChunk3 lb (Maths3 (mkMaths3 Dollars t co))]) by (now rewrite <- !app_assoc).
      rewrite (wgives_app O _ (pieces ++ [mkChunk3 lb (Maths3 (mkMaths3 Dollars t co))])).
      * f_equal. destruct r; cbn [on]; try reflexivity. now rewrite <- app_assoc.
      * rewrite par_app, (proj2 (paragraph_iff Release _ _ RT) HS). reflexivity.
    + intros out E. destruct rco as [co|e|]; try discriminate. destruct r as [o|e|]; try discriminate. injection E as <-.
      apply settled_app; [now apply (settled_split (text_chunk3 l u ++ leaks))|]. apply settled_cons; [discriminate|now apply I2].
  - (* unclosed dollar *) intros bl l u s cs Hu HB R. split; [|discriminate]. intros O d.
    pose proof (fits_suffix _ _ _ _ R) as R'. destruct (no_block_open Release (maths_from_chunks Release) _ (proj1 R') HB (O ++ text_chunk3 l u) d bl) as (O' & md & B' & Hm & E).
    rewrite wrun_dollar by assumption. rewrite E. cbn [bind]. unfold m_finish. cbn [ms_mode]. destruct Hm as [->|[->| ->]]; reflexivity.
  - (* scope *) intros cs v r H IH R. specialize (R cs (in_scope cs v)). destruct (wP1_maths cs r IH R) as [_ K]. split; [exact I|]. split.
    + cbn [conv_variant scope3_try_from].
      transitivity (let* x := (let* x := maths_from_chunks Release cs in paragraph_from_chunks Release x) in Ok (Scope3 (mkScope3 x (sv3_of_sv2 v)))).
      { destruct (maths_from_chunks Release cs) as [x|e| |]; cbn [bind]; try reflexivity. now destruct (paragraph_from_chunks Release x). }
      rewrite K. destruct r; reflexivity.
    + intros v3 E. destruct r; try discriminate. injection E as <-. discriminate.
  - (* command *) intros lab args r H IH R. split; [exact I|].
    assert (K : args3_try_from Release (maths_from_chunks Release) args = to_outcome r) by (apply IH; intros pre cs v Hi; eapply R, in_arg, Hi). split.
    + cbn [conv_variant command3_try_from]. rewrite K. destruct r; reflexivity.
    + intros v3 E. destruct r; try discriminate. injection E as <-. discriminate.
  - (* environment *) intros lab args content pb pe ra rc Ha IA Hc IC R. split; [exact I|].
    assert (K : args3_try_from Release (maths_from_chunks Release) args = to_outcome ra) by (apply IA; intros pre cs v Hi; eapply R, in_env_arg, Hi).
    destruct (wP1_maths content rc IC (R content (in_env _ _ _ _ _))) as [_ K2]. split.
    + cbn [conv_variant env3_try_from]. rewrite K. destruct ra as [a|e|]; cbn [to_outcome bind andthen]; try reflexivity.
      transitivity (let* x := (let* x := maths_from_chunks Release content in paragraph_from_chunks Release x) in Ok (Environment3 (mkEnv3 lab a x pb pe))).
      { destruct (maths_from_chunks Release content) as [x|e| |]; cbn [bind]; try reflexivity. now destruct (paragraph_from_chunks Release x). }
      rewrite K2. destruct rc; reflexivity.
    + intros v3 E. destruct ra; try discriminate. destruct rc; try discriminate. injection E as <-. discriminate.
  - (* no argument *) intros _. reflexivity.
  - (* arguments *) intros pre cs v args r ra H IH Ha IA R. pose proof (R pre cs v (or_introl eq_refl)) as RC. destruct (wP1_maths cs r IH RC) as [_ K].
    assert (KA : args3_try_from Release (maths_from_chunks Release) args = to_outcome ra) by (apply IA; intros; eapply R; right; eassumption).
    unfold args3_try_from in *. rewrite mapM_cons, KA. cbn [scope3_try_from].
    transitivity (let* x := (let* x := maths_from_chunks Release cs in paragraph_from_chunks Release x) in let* bs := to_outcome ra in Ok ((pre, mkScope3 x (sv3_of_sv2 v)) :: bs)).
    { destruct (maths_from_chunks Release cs) as [x|e| |]; cbn [bind]; try reflexivity. now destruct (paragraph_from_chunks Release x). }
    rewrite K. destruct r; cbn [to_outcome bind andthen]; try reflexivity. destruct ra; reflexivity.
Qed.


Theorem wreads_total : forall n cs, (size2 cs < n)%nat -> fits cs -> forall bl, exists r, wreads bl cs r.
Proof.
  induction n as [|n IHn]; intros cs Hs R bl; [lia|].
  assert (IHa : forall args : list (str * scope2), (list_sum (map (fun a : str * scope2 => match a with (_, sc) => size_scope2 sc end) args) <= n)%nat ->
    (forall pre cs v, In (pre, mkScope2 cs v) args -> fits cs) -> exists r, wreads_args args r).
  { induction args as [|[pre [ics v]] args IHargs]; intros Hsz Hr; [eexists; constructor|]. cbn [map list_sum fold_right size_scope2] in Hsz. fold (list_sum (map (fun a : str * scope2 => match a with (_, sc) => size_scope2 sc end) args)) in Hsz.
    fold (size2 ics) in Hsz. destruct (IHn ics) with (bl := 0) as [ri Hi]; [unfold size2 in *; lia|eapply Hr; left; reflexivity|].
    destruct IHargs as [ra Ha]; [unfold size2 in *; lia|intros; eapply Hr; right; eassumption|]. eexists. econstructor; eassumption. }
  destruct cs as [|[l v] cs]; [eexists; constructor|]. rewrite size2_cons in Hs. cbn [size_chunk2] in Hs.
  assert (REST : exists r, wreads bl cs r) by (apply IHn; [lia|now apply fits_cons in R]). destruct REST as [r Hr].
  destruct (match v with Text2 _ => true | _ => false end) eqn:Ev.
  - destruct v as [s| | |]; try discriminate. pose proof (range_text _ _ _ (proj1 R)) as [R1 R2]. destruct (first_dollar s) as [Hd|(u & x & -> & Hu)].
    + destruct (paragraphs_exist l s R1 R2) as [pieces Hp]. eexists. eapply wd_text; eassumption.
    + pose proof (fits_suffix _ _ _ _ R) as R'. destruct (block_dec _ (proj1 R')) as [(t & leaks & lb & content & rest & HB)|HB]; [|eexists; now apply wd_unclosed_dollar].
      destruct (block_fold Release (fun _ => Panic) _ _ _ _ _ _ HB (proj1 R')) as (B1 & B2 & B3 & B4 & _).
      destruct (block_u32 _ _ _ _ _ _ HB R') as (Z1 & Z2 & Z3 & Z4). destruct (moved32_exists lb content Z1 Z2) as [content' HM].
      cbn [size_variant2] in Hs. rewrite app_length in Hs. cbn [length] in Hs. rewrite size2_cons in B4. cbn [size_chunk2 size_variant2] in B4.
      rewrite count_newlines_app in R1, R2.
      destruct (split_exist (text_chunk3 l u ++ leaks)) as [pieces Hp]; [apply Forall_app; split; [apply text_chunk_range; lia|exact B3]|].
      destruct (IHn content') with (bl := 0) as [rco Hco]; [rewrite (size_moved32 _ _ _ HM); lia|exact (fits_moved _ _ _ Z1 Z4 HM (conj B1 Z2))|].
      destruct (IHn rest) with (bl := bl) as [rr Hrr]; [lia|exact (conj B2 Z3)|]. eexists. eapply wd_dollars; eassumption.
  - destruct (kind v) as [[b t]|] eqn:Ek.
    + apply kind_some in Ek as [args ->]. destruct b; [|eexists; apply wd_stray].
      destruct (nesting_or t cs 1) as [(body & kept & l' & v' & cs' & -> & HN & [args' ->])|(kept & d' & HN)]; [lia| |eexists; eapply wd_unclosed_brackets; eassumption].
      pose proof (fits_kept _ _ _ _ _ _ HN R) as RK. pose proof (nesting_sub _ _ _ _ _ HN) as (_ & _ & N3). rewrite size2_app, size2_cons in Hs.
      destruct (IHn kept) with (bl := 0) as [rco Hco]; [lia|exact RK|]. destruct (IHn cs') with (bl := l) as [rr Hrr]; [lia|apply fits_cons, fits_app, fits_cons in R; exact R|].
      eexists. eapply wd_brackets; eassumption.
    + apply kind_plain in Ek. assert (V : exists rv, wreads_variant v rv).
      { destruct v as [s|[lab args]|[ics sv]|[lab args content pb pe]]; try discriminate.
        - cbn [size_variant2 size_command2] in Hs. destruct (IHa args) as [ra Ha]; [lia|intros pre ics sv Hi; eapply (fits_inside _ _ _ _ R), in_arg, Hi|]. eexists. econstructor; eassumption.
        - cbn [size_variant2 size_scope2] in Hs. fold (size2 ics) in Hs. destruct (IHn ics) with (bl := 0) as [ri Hi]; [lia|eapply (fits_inside _ _ _ _ R), in_scope|]. eexists. econstructor; eassumption.
        - cbn [size_variant2 size_env2] in Hs. fold (size2 content) in Hs. destruct (IHa args) as [ra Ha]; [lia|intros pre ics sv Hi; eapply (fits_inside _ _ _ _ R), in_env_arg, Hi|].
          destruct (IHn content) with (bl := 0) as [ri Hi]; [lia|eapply (fits_inside _ _ _ _ R), in_env|]. eexists. econstructor; eassumption. }
      destruct V as [rv Hv]. eexists. eapply wd_plain; eassumption.
Qed.


(** no overflow *)
Definition definite {A} (r : result A) : Prop := r <> Overflow.
Lemma andthen_definite {A B C} (f : A -> B -> C) a b : definite a -> definite b -> definite (andthen f a b).
Proof. unfold definite. intros H1 H2. destruct a, b; cbn; congruence. Qed.
Lemma on_definite {A B} (f : A -> B) a : definite a -> definite (on f a).
Proof. unfold definite. intros H1. destruct a; cbn; congruence. Qed.
Theorem wreads_definite : (forall bl cs r, wreads bl cs r -> definite r) /\ (forall v r, wreads_variant v r -> definite r) /\ (forall args r, wreads_args args r -> definite r).
Proof.
  apply wreads_ind'; intros; try discriminate; try (now apply andthen_definite); try (now apply on_definite).
Qed.

Theorem wmaths_reads cs r : fits cs -> (maths_from_chunks Release cs = to_outcome r <-> wreads 0 cs r).
Proof.
  intros R. assert (F : forall r, wreads 0 cs r -> maths_from_chunks Release cs = to_outcome r) by (intros x Hx; apply (wP1_maths cs x (proj1 wreads_run _ _ _ Hx) R)).
  split; [|apply F]. intros E. destruct (wreads_total (S (size2 cs)) cs ltac:(lia) R 0) as [x Hx]. assert (x = r) as <-; [|exact Hx].
  rewrite (F x Hx) in E. destruct x, r; cbn in E; congruence.
Qed.
Theorem wmaths_reads_exists cs : fits cs -> exists r, wreads 0 cs r.
Proof. intros R. apply (wreads_total (S (size2 cs))); [lia|exact R]. Qed.
Theorem wmaths_reads_unique cs a b : fits cs -> wreads 0 cs a -> wreads 0 cs b -> a = b.
Proof.
  intros R Ha Hb. apply wmaths_reads in Ha; [|exact R]. apply wmaths_reads in Hb; [|exact R]. rewrite Ha in Hb. destruct a, b; cbn in Hb; congruence.
Qed.

(** ** Documents *)
Lemma parts_fits d pr envs trail : parts d pr envs trail -> fits d ->
  fits pr /\ fits trail /\ (forall e, In e envs -> forall inner, inside (Environment2 e) inner -> fits inner).
Proof.
  intros HP [R U]. destruct (parts_range _ _ _ _ HP R) as (R1 & R2 & R3). destruct HP as (post & -> & HF & Hp & HD). apply divided_in in HD as (I1 & I2 & I3).
  pose proof (u32_app _ _ U) as UP. split; [split; [exact R1|]; apply (u32_sub pr (pr ++ post)); [intros c Hc; apply in_or_app; left; exact Hc|exact U]|].
  split; [split; [exact R2|now apply (u32_sub trail post)]|]. intros e He inner Hi. split; [exact (R3 e He inner Hi)|].
  destruct (I3 e He) as [l K]. inversion UP as [cs0 H1 H2]; subst. exact (H2 l _ inner K Hi).
Qed.
Lemma wbodies_fold post envs trail : divided post envs trail -> (forall e, In e envs -> forall inner, inside (Environment2 e) inner -> fits inner) ->
  forall rb, wreads_bodies envs rb -> forall c pre tr,
  foldM (d_step Release) (mkD c pre tr true) post = (let* body := to_outcome rb in Ok (mkD (set_body c body) pre (tr ++ trail) true)) /\
  (forall v, rb = Good (Some v) -> exists e, v = Environment3 e).
Proof.
  induction 1 as [|l args content pb pe cs envs rest H IH|x cs envs rest Hc H IH]; intros R rb HB c pre tr.
  - inversion HB; subst. split; [cbn [foldM to_outcome bind set_body]; now rewrite app_nil_r|discriminate].
  - inversion HB as [|e envs' re r Hre Hr]; subst. cbn [foldM]. unfold d_step at 1. cbn [env_label2]. change (str_eqb (S! "document") s_document) with true. cbn iota.
    destruct (proj1 (proj2 wreads_run) _ _ Hre (R _ (or_introl eq_refl))) as (_ & E & _). cbn [conv_variant] in E.
    destruct (env3_try_from Release (maths_from_chunks Release) (mkEnv2 (S! "document") args content pb pe)) as [[lab' args' content' pb' pe']|err| |] eqn:EE; cbn [bind] in E.
    + destruct re as [v|e|]; try discriminate. cbn [to_outcome] in E. injection E as <-. cbn [bind ds_construct ds_pre ds_trail].
      destruct (IH (fun e He => R e (or_intror He)) r Hr (mkDoc3 (d_class c) (d_options c) (d_preamable c) content' args' pb' pe' (d_trailing c)) pre tr) as [F V].
      rewrite F. destruct r as [[v|]|e|]; cbn [andthen on to_outcome bind].
      * destruct (V v eq_refl) as [[? ? ? ? ?] ->]. split; [reflexivity|]. intros v' K. injection K as <-. eauto.
      * split; [reflexivity|]. intros v' K. injection K as <-. eauto.
      * split; [reflexivity|discriminate].
      * split; [reflexivity|discriminate].
    + destruct re as [v|e|]; try discriminate. cbn [to_outcome] in E. injection E as <-. cbn [bind andthen to_outcome]. split; [reflexivity|discriminate].
    + destruct re as [v|e|]; try discriminate. cbn [bind andthen to_outcome]. split; [reflexivity|discriminate].
    + destruct re; discriminate.
  - cbn [foldM]. assert (d_step Release (mkD c pre tr true) x = Ok (mkD c pre (tr ++ [x]) true)) as ->.
    { pose proof (fold_post_plain Release [x] ltac:(constructor; [exact Hc|constructor]) c pre tr) as K. cbn [foldM] in K. destruct (d_step Release _ x); cbn [bind] in K; exact K. }
    cbn [bind]. destruct (IH R rb HB c pre (tr ++ [x])) as [F V]. rewrite F. split; [|exact V]. destruct rb as [b|e|]; cbn [to_outcome bind]; try reflexivity. now rewrite <- app_assoc.
Qed.
Lemma wbodies_total envs : (forall e, In e envs -> forall inner, inside (Environment2 e) inner -> fits inner) -> exists rb, wreads_bodies envs rb.
Proof.
  induction envs as [|e envs IH]; intros R; [eexists; constructor|]. destruct IH as [r Hr]; [intros e' He; apply R; right; exact He|].
  assert (V : exists rv, wreads_variant (Environment2 e) rv).
  { destruct e as [lab args content pb pe].
    assert (A : forall args, (forall pre cs v, In (pre, mkScope2 cs v) args -> fits cs) -> exists ra, wreads_args args ra).
    { clear. induction args as [|[pre [cs v]] args IH]; intros H; [eexists; constructor|].
      destruct (wmaths_reads_exists cs) as [rc Hc]; [eapply H; left; reflexivity|]. destruct IH as [ra Ha]; [intros; eapply H; right; eassumption|]. eexists. econstructor; eassumption. }
    destruct (A args) as [ra Ha]; [intros pre cs v Hi; eapply R; [left; reflexivity|]; eapply in_env_arg; exact Hi|].
    destruct (wmaths_reads_exists content) as [rc Hc]; [eapply R; [left; reflexivity|]; apply in_env|]. eexists. econstructor; eassumption. }
  destruct V as [rv Hv]. eexists. econstructor; eassumption.
Qed.
Lemma wtry_parts d pr post : d = pr ++ post -> Forall (fun c => ~ is_document c) pr ->
  try_from3 Release d = match declared_class (class_commands pr) with
  | inl e => Err e
  | inr cls => let* st := foldM (d_step Release) (mkD (base (cls, flat_map (fun t => map parse_option (split_on c_comma t)) (all_options (class_commands pr)))) pr [] false) post in sections Release st
  end.
Proof.
  intros -> HF. rewrite try_from3_sections, dinit_base, foldM_app', (fold_pre Release pr HF). cbn [app].
  pose proof (cstep_fold (class_commands pr) []) as HC. destruct (declared_class (class_commands pr)); rewrite HC; reflexivity.
Qed.
Lemma wsections_read c pre trail rp rt : fits pre -> fits trail -> wreads 0 pre rp -> wreads 0 trail rt ->
  sections Release (mkD c pre trail true) = to_outcome (andthen (fun a b => mkDoc3 (d_class c) (d_options c) a (d_body c) (d_body_args c) (d_begin_prec c) (d_end_prec c) b) rp rt).
Proof.
  intros R1 R2 H1 H2. apply (proj1 wreads_run) in H1. apply (proj1 wreads_run) in H2. destruct (wP1_maths _ _ H1 R1) as [_ E1]. destruct (wP1_maths _ _ H2 R2) as [_ E2].
  unfold sections. cbn [ds_construct ds_pre ds_trail]. rewrite <- bind_bind, E1. destruct rp as [a|e|]; cbn [to_outcome bind andthen on]; try reflexivity.
  rewrite <- bind_bind, E2. destruct rt as [b|e|]; reflexivity.
Qed.
Theorem wdocument_forward d r : fits d -> wreads_document d r -> try_from3 Release d = to_outcome r.
Proof.
  intros R H. destruct H as [pr envs trail e HP Hc|pr envs trail cls pss opts rb rp rt HP Hc Ho1 Ho2 HB Hp Ht].
  - destruct HP as (post & -> & HF & _ & _). rewrite (wtry_parts _ pr post eq_refl HF), Hc. reflexivity.
  - destruct (parts_fits _ _ _ _ HP R) as (R1 & R2 & R3). destruct HP as (post & E & HF & Hpost & HD).
    rewrite (wtry_parts _ pr post E HF), Hc. rewrite <- (options_read _ _ _ Ho1 Ho2).
    destruct (wbodies_fold _ _ _ HD R3 rb HB (base (cls, opts)) pr []) as [F V]. cbn [app] in F.
    assert (F' : (let* st := foldM (d_step Release) (mkD (base (cls, opts)) pr [] false) post in sections Release st) =
      let* body := to_outcome rb in sections Release (mkD (set_body (base (cls, opts)) body) pr trail true)).
    { destruct post as [|c post].
      - inversion HD; subst. inversion HB; subst. reflexivity.
      - destruct (Hpost c post eq_refl) as (l & args & content & pb & pe & ->). cbn [foldM] in F |- *. rewrite step_env_any by reflexivity. rewrite F.
        destruct (to_outcome rb); reflexivity. }
    rewrite F'. destruct rb as [body|e|]; cbn [to_outcome bind andthen]; try reflexivity. rewrite (wsections_read _ _ _ rp rt R1 R2 Hp Ht).
    destruct rp as [a|e|]; cbn [andthen on to_outcome]; try reflexivity. destruct rt as [b|e|]; cbn [andthen on to_outcome]; try reflexivity. f_equal.
    destruct body as [v|]; [|reflexivity]. destruct (V v eq_refl) as [[? ? ? ? ?] ->]. reflexivity.
Qed.
Theorem wdocument_total d : fits d -> exists r, wreads_document d r.
Proof.
  intros R. destruct (parts_exist d) as (pr & envs & trail & HP). destruct (parts_fits _ _ _ _ HP R) as (R1 & R2 & R3).
  destruct (declared_class (class_commands pr)) as [e|cls] eqn:E; [eexists; eapply wc_class; eassumption|].
  destruct (options_exist (class_commands pr)) as (pss & opts & O1 & O2). destruct (wbodies_total envs R3) as [rb HB].
  destruct (wmaths_reads_exists pr R1) as [rp Hp]. destruct (wmaths_reads_exists trail R2) as [rt Ht]. eexists. eapply wc_parts; eassumption.
Qed.
Theorem wdocument_iff d r : fits d -> (try_from3 Release d = to_outcome r <-> wreads_document d r).
Proof.
  intros R. split; [|now apply wdocument_forward]. intros E. destruct (wdocument_total d R) as [x Hx]. assert (x = r) as <-; [|exact Hx].
  pose proof (wdocument_forward d x R Hx) as F. rewrite F in E. destruct x, r; cbn in E; congruence.
Qed.
Theorem wdocument_unique d a b : fits d -> wreads_document d a -> wreads_document d b -> a = b.
Proof.
  intros R Ha Hb. apply wdocument_forward in Ha; [|exact R]. apply wdocument_forward in Hb; [|exact R]. rewrite Ha in Hb. destruct a, b; cbn in Hb; congruence.
Qed.

(** ** Sources *)
Lemma parsed_u32 p s d : source_fits s -> count_newlines s < 2147483648 -> from_str2 p s = Ok d -> u32_lines d.
Proof.
  intros B Bn H. pose proof H as H0. destruct (from_str2_split p s d B H) as (d1 & H1 & _ & H2 & _).
  pose proof (try_from2_show _ _ _ H2) as Hs. pose proof (from_str1_newlines p s d1 B H1) as Hn.
  assert (Hn' : count_newlines (show2 d) = count_newlines s) by (rewrite Hs; exact Hn).
  assert (G : forall n cs, (size2 cs < n)%nat -> within2 d cs -> sub (show2 cs) (show2 d) -> u32_lines cs).
  { induction n as [|n IH]; intros cs Hz W S; [lia|]. constructor.
    - intros l v Hi. apply in_split in Hi as (pre & post & E). pose proof (other_line2 p s d B H0 cs W pre _ post E) as [_ L]. cbn [line_no2] in L.
      apply sub_nl in S. replace cs with ((pre ++ [mkChunk2 l v]) ++ post) in S by (rewrite E, <- app_assoc; reflexivity). rewrite show2_app, count_newlines_app in S. lia.
    - intros l v inner Hi Hin. pose proof (inside_size _ _ Hin) as Z. apply IH.
      + apply in_split in Hi as (pre & post & ->). rewrite size2_app, size2_cons in Hz. cbn [size_chunk2] in Hz. lia.
      + eapply inside_within; eassumption.
      + eapply sub_trans; [apply inside_show, Hin|]. eapply sub_trans; [exact (show2_in _ _ Hi)|exact S]. }
  apply (G (S (size2 d))); [lia|constructor|apply sub_refl].
Qed.
Lemma parsed_fits p s d : source_fits s -> count_newlines s < 2147483648 -> from_str2 p s = Ok d -> fits d.
Proof. intros B Bn H. split; [eapply parsed_in_range; eassumption|eapply parsed_u32; eassumption]. Qed.
Theorem wsource_iff s r : source_fits s -> count_newlines s < 2147483648 ->
  (from_str3 Release s = to_outcome r <-> (exists e, from_str2 Release s = Err e /\ r = Bad e) \/ exists d, from_str2 Release s = Ok d /\ wreads_document d r).
Proof.
  intros B Bn. unfold from_str3. destruct (from_str2 Release s) as [d|e| |] eqn:E; cbn [bind].
  - rewrite (wdocument_iff d r (parsed_fits _ _ _ B Bn E)). split; [intros H; right; exists d; auto|]. intros [(e & K & _)|(d' & K & H)]; [discriminate|]. injection K as <-. exact H.
  - split.
    + intros H. left. exists e. split; [reflexivity|]. destruct r; cbn in H; congruence.
    + intros [(e' & K & ->)|(d' & K & H)]; [|discriminate]. injection K as <-. reflexivity.
  - exfalso. destruct (from_str2_total Release s B) as [[? K]|[? K]]; congruence.
  - exfalso. destruct (from_str2_total Release s B) as [[? K]|[? K]]; congruence.
Qed.

(** ** Builds with and without overflow checks *)
Theorem wdocument_definite d r : wreads_document d r -> definite r.
Proof.
  intros H. destruct H as [pr envs trail e HP Hc|pr envs trail cls pss opts rb rp rt HP Hc Ho1 Ho2 HB Hp Ht]; [discriminate|].
  apply andthen_definite.
  - clear - HB. induction HB as [|e envs re r Hre Hr IH]; [discriminate|]. apply andthen_definite; [exact (proj1 (proj2 wreads_definite) _ _ Hre)|exact IH].
  - apply andthen_definite; [exact (proj1 wreads_definite _ _ _ Hp)|exact (proj1 wreads_definite _ _ _ Ht)].
Qed.
Theorem release_no_overflow cs : fits cs -> (exists out, maths_from_chunks Release cs = Ok out) \/ (exists e, maths_from_chunks Release cs = Err e).
Proof.
  intros R. destruct (wmaths_reads_exists cs R) as [r H]. pose proof (proj1 wreads_definite _ _ _ H) as K. apply wmaths_reads in H; [|exact R].
  destruct r; [left|right|now elim K]; eauto.
Qed.
Theorem document_release_definite d : fits d -> (exists out, try_from3 Release d = Ok out) \/ (exists e, try_from3 Release d = Err e).
Proof.
  intros R. destruct (wdocument_total d R) as [r H]. pose proof (wdocument_definite _ _ H) as K. apply wdocument_forward in H; [|exact R].
  destruct r; [left|right|now elim K]; eauto.
Qed.
Theorem reads_agree cs r : fits cs -> r <> Overflow -> reads 0 cs r -> wreads 0 cs r.
Proof. intros R Hr H. apply wmaths_reads; [exact R|]. apply maths_reads_release; [exact (proj1 R)|exact H|exact Hr]. Qed.
Theorem documents_agree d r : fits d -> r <> Overflow -> reads_document d r -> wreads_document d r.
Proof. intros R Hr H. apply wdocument_iff; [exact R|]. apply document_release; [exact (proj1 R)|exact H|exact Hr]. Qed.
