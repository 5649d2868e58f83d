(** * Cost3b: the stage-2 to stage-3 conversion takes a linear number of steps (C67) *)
From Verif Require Import Base Ast1 Parse1 Spec1 Tok Refine1 Gram1 Facts1 SpecDoc1 Canon1 Eqb Ind Ast2 Ast3 Spec2 Conv2 Facts2 Cost1 Cost2 Cost3.
Local Open Scope nat_scope.

(** ** Measures *)
(** chunks and characters of texts, at every depth *)
Fixpoint total_chunk (c : chunk2) : nat :=
  match c with mkChunk2 _ v =>
    match v with
    | Text2 s => S (length s)
    | Scope2 sc => S (total_scope sc)
    | Command2 (mkCommand2 _ args) => S (list_sum (map (fun a => total_scope (snd a)) args))
    | Environment2 (mkEnv2 _ args content _ _) =>
        S (list_sum (map (fun a => total_scope (snd a)) args) + list_sum (map total_chunk content))
    end
  end
with total_scope (s : scope2) : nat := match s with mkScope2 cs _ => list_sum (map total_chunk cs) end.
Definition total (d : list chunk2) : nat := list_sum (map total_chunk d).
Definition total_args (args : list (str * scope2)) : nat := list_sum (map (fun a => total_scope (snd a)) args).
(** the same, of a chunk without what is inside it, and of what is inside it *)
Definition w2 (c : chunk2) : nat := match c with mkChunk2 _ (Text2 s) => S (length s) | _ => 1 end.
Definition deep (c : chunk2) : nat :=
  match c with mkChunk2 _ v =>
    match v with
    | Text2 s => 0
    | Scope2 sc => total_scope sc
    | Command2 (mkCommand2 _ args) => total_args args
    | Environment2 (mkEnv2 _ args content _ _) => total_args args + total content
    end
  end.
Definition W2 (d : list chunk2) : nat := list_sum (map w2 d).
Definition Deep (d : list chunk2) : nat := list_sum (map deep d).
Lemma total_split d : total d = W2 d + Deep d.
Proof.
  unfold total, W2, Deep. induction d as [|c d IH]; [reflexivity|]. cbn [map list_sum fold_right]. unfold list_sum in *. rewrite IH.
  enough (total_chunk c = w2 c + deep c) by lia. destruct c as [l [s|[lab args]|sc|[lab args cs pb pe]]]; cbn [total_chunk w2 deep]; reflexivity || lia.
Qed.
Lemma W2_app a b : W2 (a ++ b) = W2 a + W2 b. Proof. unfold W2. now rewrite map_app, list_sum_app. Qed.
Lemma Deep_app a b : Deep (a ++ b) = Deep a + Deep b. Proof. unfold Deep. now rewrite map_app, list_sum_app. Qed.
Lemma W2_one c : W2 [c] = w2 c. Proof. unfold W2. cbn. lia. Qed.
Lemma Deep_one c : Deep [c] = deep c. Proof. unfold Deep. cbn. lia. Qed.
Lemma w2_pos c : 1 <= w2 c. Proof. destruct c as [l []]; cbn; lia. Qed.
Lemma len_W2 d : length d <= W2 d.
Proof. induction d as [|c d IH]; [cbn; lia|]. change (W2 (c :: d)) with (w2 c + W2 d). pose proof (w2_pos c). cbn [length]. lia. Qed.
(** output chunks *)
Definition w3 (c : chunk3) : nat := match c with mkChunk3 _ (Text3 s) => S (length s) | _ => 1 end.
Definition W3 (d : list chunk3) : nat := list_sum (map w3 d).
Lemma W3_app a b : W3 (a ++ b) = W3 a + W3 b. Proof. unfold W3. now rewrite map_app, list_sum_app. Qed.
Lemma W3_one c : W3 [c] = w3 c. Proof. unfold W3. cbn. lia. Qed.

(** ** Paying for the steps: [x] costs at most [b], and when it succeeds it leaves [q] of [b] and establishes [P] *)
Definition pays {A} (b : nat) (q : A -> nat) (P : A -> Prop) (x : counted A) : Prop :=
  match snd x with Ok a => fst x + q a <= b /\ P a | _ => fst x <= b end.
Lemma pays_bind {A B} b (q : A -> nat) (P : A -> Prop) (q' : B -> nat) P' x f :
  pays b q P x -> (forall a, snd x = Ok a -> P a -> pays (q a) q' P' (f a)) -> pays b q' P' (cbind x f).
Proof.
  unfold pays. intros H1 H2. unfold cbind. destruct (snd x) as [a| | |] eqn:E; cbn [fst snd]; try assumption.
  destruct H1 as [H1 HP]. specialize (H2 a eq_refl HP). destruct (snd (f a)); [destruct H2; split; [lia|assumption]| | |]; lia.
Qed.
Lemma pays_free {A} b (q : A -> nat) (P : A -> Prop) x : (forall a, x = Ok a -> q a <= b /\ P a) -> pays b q P (free x).
Proof. unfold pays. intros H. cbn. destruct x; try lia. exact (H a eq_refl). Qed.
Lemma pays_ok {A} b (q : A -> nat) (P : A -> Prop) a : q a <= b -> P a -> pays b q P (free (Ok a)).
Proof. intros. apply pays_free. intros a' [= <-]. auto. Qed.
Lemma pays_cost {A} b (q : A -> nat) P x : pays b q P x -> fst x <= b.
Proof. unfold pays. destruct (snd x); lia. Qed.
Lemma pays_mono {A} b b' (q q' : A -> nat) P P' x : pays b q P x -> b <= b' ->
  (forall a, snd x = Ok a -> P a -> q' a + b <= q a + b' /\ P' a) -> pays b' q' P' x.
Proof.
  unfold pays. intros H1 H2 H3. destruct (snd x) as [a| | |]; try lia. destruct H1 as [H1 HP].
  destruct (H3 a eq_refl HP). split; [lia|assumption].
Qed.
(** the loop: every element brings its own budget *)
Lemma pays_loop {T A} (f : T -> A -> counted T) (q : T -> nat) (P : T -> Prop) (w : A -> nat) (R : A -> Prop) l s :
  (forall s x, P s -> R x -> pays (q s + w x) q P (f s x)) -> Forall R l -> P s ->
  pays (q s + list_sum (map (fun x => S (w x)) l)) q P (cloop f s l).
Proof.
  intros H HR. revert s. induction HR as [|x l Hx HR IH]; intros s Hs.
  - cbn [cloop map list_sum fold_right]. apply pays_ok; [lia|assumption].
  - cbn [cloop map list_sum fold_right]. eapply (pays_bind _ (fun s' => q s' + list_sum (map (fun x => S (w x)) l)) P).
    + specialize (H s x Hs Hx). unfold pays in *. cbn [fst snd]. unfold list_sum in *.
      destruct (snd (f s x)); [destruct H; split; [lia|assumption]| | |]; lia.
    + intros s' _ Hs'. apply IH. exact Hs'.
Qed.

Lemma list_sum_le {A} (f g : A -> nat) l : (forall x, f x <= g x) -> list_sum (map f l) <= list_sum (map g l).
Proof. intros H. unfold list_sum. induction l as [|x l IH]; cbn [map fold_right]; [lia|]. specialize (H x). lia. Qed.
Lemma list_sum_ones {A} (l : list A) n : list_sum (map (fun _ => n) l) = n * length l.
Proof. unfold list_sum. induction l as [|x l IH]; cbn [map fold_right length]; lia. Qed.

(** ** Paragraphs *)
Lemma par_chunk_cost p new c : fst (cpar_chunk p new c) + 1 <= w3 c.
Proof.
  destruct c as [l [s|c|sc|e|m|b]]; cbn [cpar_chunk w3 free fst]; try lia.
  assert (H : fst (cloop (fun st c => free (par_step p st c)) (mkPar new l [] l [] l 0%Z) s) <= length s).
  { generalize (mkPar new l [] l [] l 0%Z). induction s as [|c s IH]; intros st; [cbn; lia|].
    cbn [cloop length]. unfold cbind. cbn [fst snd free]. destruct (par_step p st c); cbn [fst snd]; [specialize (IH a)| | |]; lia. }
  unfold cbind. destruct (snd (cloop _ _ _)); cbn [fst free]; lia.
Qed.
Lemma par_cost p cs : fst (cparagraph p cs) <= W3 cs.
Proof.
  unfold cparagraph, W3. generalize (@nil chunk3). induction cs as [|c cs IH]; intros new; [cbn; lia|].
  cbn [cloop map list_sum fold_right]. pose proof (par_chunk_cost p new c). unfold list_sum in *. unfold cbind. cbn [fst snd].
  destruct (snd (cpar_chunk p new c)) as [new'| | |]; cbn [fst snd]; [specialize (IH new')| | |]; lia.
Qed.
Definition par_size (st : parstate) : nat := W3 (pa_new st) + 2 * length (pa_text st) + 2 * length (pa_buf st).
Definition par_inv (st : parstate) : Prop := pa_consec st <> 0%Z -> pa_buf st <> [].
Lemma app_one_not_nil {A} (l : list A) x : l ++ [x] <> [].
Proof. destruct l; discriminate. Qed.
Lemma par_step_size p st c st' : par_inv st -> @par_step error p st c = Ok st' -> par_inv st' /\ par_size st' <= par_size st + 2.
Proof.
  destruct st as [new line text tline buf bline consec]. unfold par_inv, par_size. cbn [pa_consec pa_buf pa_new pa_text]. intros Hi.
  unfold par_step.
  destruct ((c =? c_newline)%N && (consec =? 1)%Z).
  { destruct (inc_i32 p consec) as [z| | |]; cbn [bind]; try discriminate. destruct (add32 p line 1) as [l| | |]; cbn [bind]; try discriminate.
    intros [= <-]. cbn [pa_consec pa_buf pa_new pa_text]. split; [intros _; apply app_one_not_nil|]. rewrite app_length.
    destruct text as [|x text]; cbn [is_empty negb]; [cbn [length]; lia|]. rewrite W3_app, W3_one. cbn [w3 length]. lia. }
  destruct (c =? c_newline)%N.
  { destruct (inc_i32 p consec) as [z| | |]; cbn [bind]; try discriminate. destruct (add32 p line 1) as [l| | |]; cbn [bind]; try discriminate.
    intros [= <-]. cbn [pa_consec pa_buf pa_new pa_text]. split; [intros _; apply app_one_not_nil|]. rewrite app_length. cbn [length]. lia. }
  destruct (is_whitespace c && (consec =? 0)%Z).
  { intros [= <-]. cbn [pa_consec pa_buf pa_new pa_text]. split; [exact Hi|]. rewrite app_length. cbn [length]. lia. }
  destruct (is_whitespace c).
  { intros [= <-]. cbn [pa_consec pa_buf pa_new pa_text]. split; [intros _; apply app_one_not_nil|]. rewrite app_length. cbn [length]. lia. }
  destruct (consec =? 0)%Z eqn:E0.
  { intros [= <-]. cbn [pa_consec pa_buf pa_new pa_text]. split; [exact Hi|]. rewrite app_length. cbn [length]. lia. }
  destruct (consec =? 1)%Z.
  { intros [= <-]. cbn [pa_consec pa_buf pa_new pa_text]. split; [intros []; reflexivity|]. rewrite !app_length. cbn [length]. lia. }
  intros [= <-]. cbn [pa_consec pa_buf pa_new pa_text]. split; [intros []; reflexivity|]. rewrite W3_app, W3_one, app_length. cbn [w3 length].
  apply Z.eqb_neq in E0. specialize (Hi E0). destruct buf; [contradiction|]. cbn [length]. lia.
Qed.
Lemma par_finish_size st : W3 (par_finish st) <= par_size st.
Proof.
  destruct st as [new line text tline buf bline consec]. unfold par_size. cbn [par_finish pa_new pa_text pa_buf].
  destruct buf as [|x buf]; cbn [is_empty negb].
  - destruct text as [|y text]; cbn [is_empty negb app]; [lia|]. rewrite W3_app, W3_one, app_nil_r. cbn [w3 length]. lia.
  - destruct (consec >? 1)%Z; [rewrite W3_app, W3_one; cbn [w3 length]; lia|].
    destruct text as [|y text]; cbn [is_empty negb app]; rewrite W3_app, W3_one; cbn [w3 length]; rewrite ?app_length; cbn [length]; lia.
Qed.
Lemma par_weight p cs cs' : @paragraph_from_chunks error p cs = Ok cs' -> W3 cs' <= 2 * W3 cs.
Proof.
  unfold paragraph_from_chunks.
  enough (H : forall new, foldM (@par_chunk error p) new cs = Ok cs' -> W3 cs' <= W3 new + 2 * W3 cs).
  { intros E. specialize (H [] E). cbn in H. lia. }
  induction cs as [|c cs IH]; intros new; cbn [foldM]; [intros [= <-]; lia|].
  destruct (par_chunk p new c) as [new'| | |] eqn:E; cbn [bind]; try discriminate. intros H. specialize (IH new' H).
  change (W3 (c :: cs)) with (w3 c + W3 cs). enough (W3 new' <= W3 new + 2 * w3 c) by lia. clear IH H.
  destruct c as [l v]. cbn [par_chunk] in E.
  destruct v as [s|c|sc|e|m|b].
  2-6: injection E as <-; rewrite W3_app, W3_one; cbn [w3]; lia.
  destruct (foldM (par_step p) _ s) as [st| | |] eqn:Es; cbn [bind] in E; try discriminate. injection E as <-.
  pose proof (par_finish_size st). cbn [w3].
  assert (Hs : forall st0, par_inv st0 -> foldM (@par_step error p) st0 s = Ok st -> par_size st <= par_size st0 + 2 * length s).
  { clear. induction s as [|c s IH]; intros st0 Hi; cbn [foldM length]; [intros [= <-]; lia|].
    destruct (@par_step error p st0 c) as [st1| | |] eqn:E; cbn [bind]; try discriminate. intros H.
    destruct (par_step_size p st0 c st1 Hi E) as [Hi1 H1]. specialize (IH st1 Hi1 H). lia. }
  specialize (Hs (mkPar new l [] l [] l 0%Z) ltac:(intros []; reflexivity) Es). unfold par_size at 2 in Hs. cbn [pa_new pa_text pa_buf length] in Hs. lia.
Qed.

(** ** Maths blocks *)
(** the delimiters that occur among the chunks (not inside them) are of the kinds [r] (round), [s] (square), [d] (dollar) *)
Definition allowed (r s d : bool) (c : chunk2) : Prop :=
  match c with
  | mkChunk2 _ (Command2 cmd) =>
      (label2 cmd = [c_lround] \/ label2 cmd = [c_rround] -> r = true) /\
      (label2 cmd = [c_lsquare] \/ label2 cmd = [c_rsquare] -> s = true)
  | mkChunk2 _ (Text2 t) => In c_dollar t -> d = true
  | _ => True
  end.
Definition kinds (r s d : bool) : nat := Nat.b2n r + Nat.b2n s + Nat.b2n d.
Lemma allowed_all c : allowed true true true c.
Proof. destruct c as [l [t|cmd|sc|e]]; cbn; auto. Qed.
Definition cost_bound (k : nat) (cs : list chunk2) : nat := 3 * (k + 1) * W2 cs + 14 * Deep cs.

Section Maths.
  Context (p : profile) (rec : list chunk2 -> counted (list chunk3)).
  Hypothesis Hrec : forall r s d cs, Forall (allowed r s d) cs -> fst (rec cs) <= cost_bound (kinds r s d) cs.
  Hypothesis HrecW : forall cs out, snd (rec cs) = Ok out -> W3 out <= 2 * W2 cs.

  Lemma rec_full cs : fst (let$ x := rec cs in cparagraph p x) <= 14 * total cs.
  Proof.
    pose proof (Hrec true true true cs ltac:(apply Forall_forall; intros; apply allowed_all)) as H.
    unfold cost_bound in H. change (kinds true true true) with 3 in H. rewrite total_split. unfold cbind.
    destruct (snd (rec cs)) as [out| | |] eqn:E; cbn [fst]; try lia.
    pose proof (HrecW _ _ E). pose proof (par_cost p out). lia.
  Qed.
  Lemma scope3_cost s : fst (cscope3_try_from p rec s) <= 14 * total_scope s.
  Proof.
    destruct s as [cs v]. pose proof (rec_full cs) as H. cbn [cscope3_try_from total_scope]. fold (total cs). unfold cbind in *.
    destruct (snd (rec cs)) as [out| | |]; cbn [fst snd] in *; try lia. destruct (snd (cparagraph p out)); cbn [fst snd free]; lia.
  Qed.
  Lemma args3_cost args : fst (cargs3_try_from p rec args) <= 14 * total_args args.
  Proof.
    unfold cargs3_try_from. induction args as [|[pr sc] args IH]; [cbn; lia|].
    cbn [cmapM]. match goal with |- context[cmapM ?f args] => set (F := f) in * end.
    change (total_args ((pr, sc) :: args)) with (total_scope sc + total_args args). pose proof (scope3_cost sc).
    unfold cbind. destruct (snd (cscope3_try_from p rec sc)); cbn [fst snd free]; try lia.
    destruct (snd (cmapM F args)); cbn [fst snd free]; lia.
  Qed.
  Lemma env3_cost e l : fst (cenv3_try_from p rec e) <= 14 * deep (mkChunk2 l (Environment2 e)).
  Proof.
    destruct e as [lab args cs pb pe]. cbn [cenv3_try_from deep]. pose proof (args3_cost args). pose proof (rec_full cs) as H'.
    unfold cbind in *. destruct (snd (cargs3_try_from p rec args)); cbn [fst snd]; try lia.
    destruct (snd (rec cs)) as [out| | |]; cbn [fst snd] in *; try lia. destruct (snd (cparagraph p out)); cbn [fst snd free]; lia.
  Qed.

  Context (r s d : bool).
  Let k := kinds r s d.
  (** what is in the buffer will be paid for when the block is closed *)
  Definition owed (b : list chunk2) : nat := 3 * k * W2 b + length b + 14 * Deep b.
  Definition mq (st : mstate) : nat := owed (ms_buffer st) + W3 (ms_out st).
  Definition minv (st : mstate) : Prop :=
    match ms_mode st with
    | MNone => ms_buffer st = []
    | SingleDollar Brackets => r = true /\ Forall (allowed false s d) (ms_buffer st)
    | DoubleDollar Brackets => s = true /\ Forall (allowed r false d) (ms_buffer st)
    | SingleDollar Dollars | DoubleDollar Dollars | DoubleClosing => d = true /\ Forall (allowed r s false) (ms_buffer st)
    end.
  Lemma owed_push b c : owed (b ++ [c]) = owed b + 3 * k * w2 c + 1 + 14 * deep c.
  Proof. unfold owed. rewrite W2_app, Deep_app, app_length, W2_one, Deep_one. cbn [length]. nia. Qed.
  Lemma owed_close r' s' d' b : Forall (allowed r' s' d') b -> kinds r' s' d' + 1 = k -> fst (rec b) + length b <= owed b.
  Proof. intros H E. pose proof (Hrec _ _ _ _ H) as H'. unfold cost_bound in H'. rewrite E in H'. unfold owed. lia. Qed.

  (** the text loop *)
  Definition tq (m : mtext) : nat := mq (mt_st m) + (3 * k + 2) * length (mt_text m).
  Definition tinv (m : mtext) : Prop :=
    minv (mt_st m) /\ is_single_br (ms_mode (mt_st m)) = false /\ is_double_br (ms_mode (mt_st m)) = false /\ ~ In c_dollar (mt_text m).
  Lemma push_str_size m : mq (mt_st (mt_push_str m)) + (3 * k + 2) * length (mt_text (mt_push_str m)) <= tq m + 1.
  Proof.
    unfold mt_push_str, tq. destruct (mt_text m) as [|x t] eqn:E; cbn [is_empty negb].
    - rewrite E. cbn [length]. lia.
    - cbn [mt_st mt_text]. unfold mq. cbn [m_push_out ms_buffer ms_out]. rewrite W3_app, W3_one. cbn [w3 length]. nia.
  Qed.
  Lemma push_str_st m : ms_mode (mt_st (mt_push_str m)) = ms_mode (mt_st m) /\ ms_buffer (mt_st (mt_push_str m)) = ms_buffer (mt_st m) /\
    mt_text (mt_push_str m) = [].
  Proof. unfold mt_push_str. destruct (mt_text m) eqn:E; cbn [is_empty negb]; auto. Qed.
  Lemma shifted_same o b b' : mapM (fun c => match c with mkChunk2 l v =>
              let* x := sub32 p o 1 in let* l := sub32 p l x in Ok (mkChunk2 l v) end) b = @Ok error _ b' ->
    W2 b' = W2 b /\ Deep b' = Deep b /\ length b' = length b /\ (Forall (allowed r s false) b -> Forall (allowed r s false) b').
  Proof.
    revert b'. induction b as [|[l v] b IH]; intros b'; cbn [mapM]; [intros [= <-]; auto|].
    destruct (sub32 p o 1) as [x| | |]; cbn [bind]; try discriminate. destruct (sub32 p l x) as [y| | |]; cbn [bind]; try discriminate.
    match goal with |- context[mapM ?f b] => destruct (mapM f b) as [b1| | |] eqn:E end; cbn [bind]; try discriminate.
    intros [= <-]. destruct (IH b1) as (H1 & H2 & H3 & H4); [exact E|].
    change (W2 (mkChunk2 y v :: b1)) with (w2 (mkChunk2 y v) + W2 b1). change (W2 (mkChunk2 l v :: b)) with (w2 (mkChunk2 l v) + W2 b).
    change (Deep (mkChunk2 y v :: b1)) with (deep (mkChunk2 y v) + Deep b1). change (Deep (mkChunk2 l v :: b)) with (deep (mkChunk2 l v) + Deep b).
    rewrite H1, H2. cbn [length]. rewrite H3. repeat split; auto. intros H. inversion H; subst. constructor; auto.
  Qed.
  Lemma close_pays m t : tinv m -> d = true -> Forall (allowed r s false) (ms_buffer (mt_st m)) ->
    pays (tq m + (3 * k + 2)) tq tinv (cmt_close p rec m t).
  Proof.
    intros (_ & _ & _ & Hn) Hd Ha. unfold cmt_close. cbv zeta.
    set (b := if negb (is_empty (mt_text m)) then _ else _).
    assert (Hb : owed b <= owed (ms_buffer (mt_st m)) + 3 * k * (length (mt_text m)) + 3 * k + 1 /\ Forall (allowed r s false) b).
    { unfold b. destruct (mt_text m) as [|x tx] eqn:E; cbn [is_empty negb]; [split; [lia|exact Ha]|].
      rewrite owed_push. cbn [w2 deep]. split; [cbn [length]; nia|]. apply Forall_app. split; [exact Ha|]. constructor; [|constructor].
      cbn. intros F. contradiction. }
    destruct Hb as [Hb Hba].
    set (L := tq m + (3 * k + 2)).
    assert (HL : owed b + W3 (ms_out (mt_st m)) + 1 <= L) by (unfold L, tq, mq; nia). clearbody L. clear Hb.
    apply (pays_bind _ (fun b' => fst (rec b') + W3 (ms_out (mt_st m)) + 1) (fun b' => True)).
    - unfold pays, per_item. cbn [fst snd].
      pose proof (owed_close r s false b Hba) as Hc. assert (Ek : kinds r s false + 1 = k) by (unfold k, kinds; rewrite Hd; cbn; lia).
      specialize (Hc Ek).
      match goal with |- match ?x with _ => _ end => destruct x as [b'| | |] eqn:E end; [|lia..].
      split; [|exact I]. apply shifted_same in E as (E1 & E2 & E3 & E4).
      pose proof (owed_close r s false b' (E4 Hba) Ek) as Hc'. unfold owed in *. rewrite E1, E2, E3 in Hc'. lia.
    - intros b' _ _. unfold pays, cbind. destruct (snd (rec b')) as [content| | |]; cbn [fst snd free]; try lia.
      split.
      + unfold tq, mq. cbn [mt_st mt_text ms_buffer ms_out length]. unfold owed, W2, Deep. cbn [map list_sum fold_right length].
        rewrite W3_app, W3_one. cbn [w3]. unfold list_sum. cbn. lia.
      + unfold tinv, minv. cbn. auto.
  Qed.
  Lemma mt_step_pays m c : tinv m -> (c = c_dollar -> d = true) -> pays (tq m + (3 * k + 2)) tq tinv (cmt_step p rec m c).
  Proof.
    intros Hi Hd. unfold cmt_step.
    apply (pays_bind _ (fun m' => tq m + (3 * k + 2)) (fun m' => mt_st m' = mt_st m /\ mt_text m' = mt_text m)).
    { apply pays_free. intros m'. destruct (c =? c_newline)%N; [|intros [= <-]; auto].
      destruct (add32 p (mt_cursor m) 1); cbn [bind]; try discriminate. intros [= <-]. auto. }
    intros m' _ [E1 E2].
    assert (Hi' : tinv m') by (unfold tinv in *; rewrite E1, E2; exact Hi).
    assert (Et : tq m' = tq m) by (unfold tq; rewrite E1, E2; reflexivity). rewrite <- Et. clear E1 E2 Et Hi m.
    destruct (c =? c_dollar)%N eqn:Ec.
    - apply N.eqb_eq in Ec. specialize (Hd Ec). pose proof Hi' as (Hm & Hs & Hdb & Hn). unfold minv in Hm.
      destruct (ms_mode (mt_st m')) as [[]|[]| |] eqn:Em; try discriminate.
      + destruct Hm as [Hm1 Hm2]. destruct (_ && _).
        * apply pays_ok; [unfold tq, mq, mt_set_mode; cbn [mt_st mt_text ms_buffer ms_out]; lia|]. unfold tinv, minv, mt_set_mode. cbn. auto.
        * apply close_pays; assumption.
      + destruct Hm as [Hm1 Hm2]. apply pays_ok; [unfold tq, mq, mt_set_mode; cbn [mt_st mt_text ms_buffer ms_out]; lia|]. unfold tinv, minv, mt_set_mode. cbn. auto.
      + destruct Hm as [Hm1 Hm2]. apply close_pays; assumption.
      + cbv zeta. destruct (push_str_st m') as (P1 & P2 & P3). pose proof (push_str_size m') as P4.
        apply pays_ok.
        * unfold tq, mq, mt_set_mode in *. cbn [mt_st mt_text ms_buffer ms_out] in *. lia.
        * unfold tinv, minv, mt_set_mode. cbn [mt_st mt_text ms_buffer ms_out ms_mode is_single_br is_double_br].
          rewrite P2, P3, Hm. cbn. auto.
    - apply pays_ok.
      + unfold tq. cbn [mt_st mt_text]. rewrite app_length. cbn [length]. lia.
      + destruct Hi' as (H1 & H2 & H3 & H4). unfold tinv. cbn [mt_st mt_text]. repeat split; auto.
        intros F. apply in_app_or in F as [F|[F|[]]]; [contradiction|]. subst. rewrite N.eqb_refl in Ec. discriminate.
  Qed.
  Lemma m_text_pays st l t : minv st -> is_single_br (ms_mode st) = false -> is_double_br (ms_mode st) = false ->
    (In c_dollar t -> d = true) -> pays (mq st + (3 * k + 3) * length t + 1) mq minv (cm_text p rec st l t).
  Proof.
    intros H1 H2 H3 H4. unfold cm_text.
    eapply (pays_bind _ (fun m => tq m + 1) tinv).
    - assert (HL : pays (tq (mkMT st l [] l) + list_sum (map (fun _ => S (3 * k + 2)) t)) tq tinv (cloop (cmt_step p rec) (mkMT st l [] l) t)).
      { apply (pays_loop _ tq tinv (fun _ => 3 * k + 2) (fun c => c = c_dollar -> d = true)).
        - intros m c Hm Hc. now apply mt_step_pays.
        - apply Forall_forall. intros c Hc ->. auto.
        - unfold tinv. cbn. auto. }
      eapply pays_mono; [exact HL| |].
      + rewrite list_sum_ones. unfold tq. cbn [mt_st mt_text length]. nia.
      + intros m _ Hm. split; [|exact Hm]. rewrite list_sum_ones. unfold tq. cbn [mt_st mt_text length]. nia.
    - intros m _ (Hm & _). destruct (push_str_st m) as (P1 & P2 & P3). pose proof (push_str_size m) as P4. apply pays_ok; [lia|].
      unfold minv in *. rewrite P1, P2. exact Hm.
  Qed.

  Definition share (c : chunk2) : nat := (3 * k + 3) * w2 c - 1 + 14 * deep c.
  Lemma push_pays st c : ms_mode st <> MNone ->
    (match ms_mode st with
     | SingleDollar Brackets => allowed false s d c
     | DoubleDollar Brackets => allowed r false d c
     | _ => allowed r s false c end) -> minv st ->
    pays (mq st + share c) mq minv (free (Ok (m_push_buffer st c))).
  Proof.
    intros Hn Ha Hi. apply pays_ok.
    - unfold mq, share. cbn [m_push_buffer ms_buffer ms_out]. rewrite owed_push. pose proof (w2_pos c). nia.
    - unfold minv in *. cbn [m_push_buffer ms_buffer ms_mode]. destruct (ms_mode st) as [[]|[]| |]; try contradiction;
        destruct Hi as [Hi1 Hi2]; (split; [exact Hi1|apply Forall_app; split; [exact Hi2|constructor; [exact Ha|constructor]]]).
  Qed.
  Lemma out_pays {A} st c l (x : counted A) f : w2 c = 1 -> (forall a, w3 (mkChunk3 l (f a)) = 1) ->
    fst x <= 14 * deep c -> minv st ->
    pays (mq st + share c) mq minv (let$ a := x in free (Ok (m_push_out st (mkChunk3 l (f a))))).
  Proof.
    intros Hw Hf Hx Hi. unfold pays, cbind, share. rewrite Hw.
    assert (Hmq : forall a, mq (m_push_out st (mkChunk3 l (f a))) = mq st + 1).
    { intros a. unfold mq. cbn [m_push_out ms_out ms_buffer]. rewrite W3_app, W3_one, Hf. lia. }
    destruct (snd x); cbn [fst snd free]; try lia. split; [rewrite Hmq; lia|]. exact Hi.
  Qed.
  Lemma close_br_pays st c t r' s' d' : Forall (allowed r' s' d') (ms_buffer st) -> kinds r' s' d' + 1 = k -> w2 c = 1 ->
    pays (mq st + share c) mq minv (cm_close_brackets rec st t).
  Proof.
    intros Ha Hk Hw. pose proof (owed_close _ _ _ _ Ha Hk) as H. unfold pays, cm_close_brackets, cbind, share. rewrite Hw. unfold mq.
    destruct (snd (rec (ms_buffer st))); cbn [fst snd free]; try lia. split; [|reflexivity].
    cbn [ms_buffer ms_out]. rewrite W3_app, W3_one. cbn [w3]. change (owed []) with (3 * k * 0 + 0 + 14 * 0). lia.
  Qed.
  Lemma m_step_pays st c : minv st -> allowed r s d c -> pays (mq st + share c) mq minv (cm_step p rec st c).
  Proof.
    intros Hi Ha. destruct c as [l v]. cbn [cm_step]. cbv zeta.
    assert (Hshare : w2 (mkChunk2 l v) = 1 -> 2 <= share (mkChunk2 l v)) by (intros E; unfold share; rewrite E; lia).
    destruct v as [t|cmd|sc|e].
    - destruct (is_single_br (ms_mode st) || is_double_br (ms_mode st)) eqn:E; cbn [negb].
      + apply push_pays; [|cbn in *|assumption].
        * intros F. rewrite F in E. discriminate.
        * destruct (ms_mode st) as [[]|[]| |]; try discriminate; exact Ha.
      + apply orb_false_iff in E as [E1 E2]. eapply pays_mono; [apply m_text_pays; assumption| |].
        * unfold share. cbn [w2 deep]. nia.
        * intros a _ Hm. split; [|exact Hm]. unfold share. cbn [w2 deep]. nia.
    - destruct Ha as [Har Has]. specialize (Hshare eq_refl).
      pose (lab := label2 cmd). fold lab in Har, Has. fold lab.
      assert (Hlr : str_eqb lab [c_lround] = true -> r = true) by (rewrite str_eqb_iff; auto).
      assert (Hrr : str_eqb lab [c_rround] = true -> r = true) by (rewrite str_eqb_iff; auto).
      assert (Hls : str_eqb lab [c_lsquare] = true -> s = true) by (rewrite str_eqb_iff; auto).
      assert (Hrs : str_eqb lab [c_rsquare] = true -> s = true) by (rewrite str_eqb_iff; auto).
      assert (Hdepth : forall (f : outcome error N), pays (mq st + share (mkChunk2 l (Command2 cmd))) mq minv
                (free (let* x := f in Ok (m_set_depth st x)))).
      { intros f. apply pays_free. destruct f; cbn [bind]; try discriminate. intros a' [= <-]. split; [unfold mq; cbn [m_set_depth ms_buffer ms_out]; lia|exact Hi]. }
      assert (Hopen : forall mode, is_none (ms_mode st) = true ->
                minv (mkM (ms_out st) mode 1 [] l) -> 
                pays (mq st + share (mkChunk2 l (Command2 cmd))) mq minv (free (Ok (mkM (ms_out st) mode 1 (ms_buffer st) l)))).
      { intros mode Hn Hm. assert (Eb : ms_buffer st = []) by (unfold minv in Hi; destruct (ms_mode st); try discriminate; exact Hi).
        rewrite Eb. apply pays_ok; [|exact Hm]. unfold mq. cbn [ms_buffer ms_out]. rewrite Eb. lia. }
      destruct (str_eqb lab [c_lround]) eqn:Q1; destruct (str_eqb lab [c_rround]) eqn:Q2;
        destruct (str_eqb lab [c_lsquare]) eqn:Q3; destruct (str_eqb lab [c_rsquare]) eqn:Q4;
        try (apply str_eqb_iff in Q1; rewrite Q1 in *; discriminate); try (apply str_eqb_iff in Q2; rewrite Q2 in *; discriminate);
        try (apply str_eqb_iff in Q3; rewrite Q3 in *; discriminate).
      all: destruct (ms_mode st) as [[]|[]| |] eqn:Em; cbn [is_none is_single_br is_double_br andb orb];
        unfold minv in Hi; rewrite Em in Hi.
      all: try (apply pays_free; discriminate).
      all: try apply Hdepth.
      all: try (apply Hopen; [reflexivity|unfold minv; cbn; auto]).
      all: try (destruct (ms_depth st =? 1)%N; [|apply Hdepth]; destruct Hi as [Hi1 Hi2];
        eapply close_br_pays; [exact Hi2| |reflexivity]; unfold k, kinds; rewrite Hi1; cbn [Nat.b2n]; lia).
      all: try (apply push_pays; rewrite ?Em; [discriminate| |unfold minv; rewrite Em; exact Hi]; cbn; fold lab;
        split; intros [F|F]; apply str_eqb_iff in F; congruence || auto).
      unfold minv in *. eapply (out_pays st (mkChunk2 l (Command2 cmd)) l (ccommand3_try_from p rec cmd) Command3); auto.
      + destruct cmd as [lb args]. cbn [ccommand3_try_from deep]. pose proof (args3_cost args). unfold cbind.
        destruct (snd (cargs3_try_from p rec args)); cbn [fst snd free]; lia.
      + unfold minv. rewrite Em. exact Hi.
    - destruct (is_none (ms_mode st)) eqn:E.
      + eapply (out_pays st (mkChunk2 l (Scope2 sc)) l (cscope3_try_from p rec sc) Scope3); auto. apply scope3_cost.
      + apply push_pays; [intros F; rewrite F in E; discriminate| |assumption]. destruct (ms_mode st) as [[]|[]| |]; exact I.
    - destruct (is_none (ms_mode st)) eqn:E.
      + eapply (out_pays st (mkChunk2 l (Environment2 e)) l (cenv3_try_from p rec e) Environment3); auto. apply env3_cost.
      + apply push_pays; [intros F; rewrite F in E; discriminate| |assumption]. destruct (ms_mode st) as [[]|[]| |]; exact I.
  Qed.
End Maths.

(** ** The output is not longer than the input *)
Section OutWeight.
  Context (p : profile) (rec : list chunk2 -> counted (list chunk3)).
  Definition ow (m : mtext) : nat := W3 (ms_out (mt_st m)) + length (mt_text m).
  Lemma ow_push m : W3 (ms_out (mt_st (mt_push_str m))) + length (mt_text (mt_push_str m)) <= ow m + 1.
  Proof.
    unfold mt_push_str, ow. destruct (mt_text m) as [|x t] eqn:E; cbn [is_empty negb]; [rewrite E; cbn [length]; lia|].
    cbn [mt_st mt_text m_push_out ms_out]. rewrite W3_app, W3_one. cbn [w3 length]. lia.
  Qed.
  Lemma ow_close m t m' : snd (cmt_close p rec m t) = Ok m' -> ow m' <= ow m + 1.
  Proof.
    unfold cmt_close. cbv zeta. rewrite erase_bind. cbn [per_item snd].
    match goal with |- context[mapM ?f ?b] => destruct (mapM f b) end; cbn [bind]; try discriminate. rewrite erase_bind.
    destruct (snd (rec _)); cbn [bind free snd]; try discriminate. intros [= <-]. unfold ow. cbn [mt_st mt_text ms_out length].
    rewrite W3_app, W3_one. cbn [w3]. lia.
  Qed.
  Lemma ow_step m c m' : snd (cmt_step p rec m c) = Ok m' -> ow m' <= ow m + 1.
  Proof.
    unfold cmt_step. rewrite erase_bind. cbn [snd free].
    assert (H : forall m0 : mtext, mt_st m0 = mt_st m -> mt_text m0 = mt_text m -> ow m0 = ow m) by (intros m0 E1 E2; unfold ow; rewrite E1, E2; reflexivity).
    destruct (if (c =? c_newline)%N then _ else _) as [m0| | |] eqn:E; cbn [bind]; try discriminate.
    assert (E0 : ow m0 = ow m).
    { destruct (c =? c_newline)%N; [|injection E as <-; reflexivity]. destruct (add32 p _ 1); cbn [bind] in E; try discriminate. injection E as <-. reflexivity. }
    rewrite <- E0. clear E E0 H. destruct (c =? c_dollar)%N.
    - destruct (ms_mode (mt_st m0)) as [[]|[]| |].
      + cbn [free snd]; intros [= <-]; lia.
      + match goal with |- snd (if ?b then _ else _) = _ -> _ => destruct b end; [cbn [free snd]; intros [= <-]; unfold ow; cbn [mt_set_mode mt_st mt_text ms_out]; lia|apply ow_close].
      + cbn [free snd]; intros [= <-]; lia.
      + cbn [free snd]; intros [= <-]; unfold ow; cbn [mt_set_mode mt_st mt_text ms_out]; lia.
      + apply ow_close.
      + cbn [free snd]. cbv zeta. intros [= <-]. pose proof (ow_push m0). unfold ow at 1. cbn [mt_set_mode mt_st mt_text ms_out]. lia.
    - cbn [free snd]. intros [= <-]. unfold ow. cbn [mt_st mt_text]. rewrite app_length. cbn [length]. lia.
  Qed.
  Lemma ow_loop t m m' : snd (cloop (cmt_step p rec) m t) = Ok m' -> ow m' <= ow m + length t.
  Proof.
    revert m. induction t as [|c t IH]; intros m; cbn [cloop]; [cbn; intros [= <-]; lia|]. rewrite erase_bind. cbn [snd].
    destruct (snd (cmt_step p rec m c)) as [m1| | |] eqn:E; cbn [bind]; try discriminate. intros H.
    apply ow_step in E. specialize (IH m1 H). cbn [length]. lia.
  Qed.
  Lemma out_step st c st' : snd (cm_step p rec st c) = Ok st' -> W3 (ms_out st') <= W3 (ms_out st) + w2 c.
  Proof.
    destruct c as [l v]. cbn [cm_step]. cbv zeta. destruct v as [t|cmd|sc|e].
    - destruct (negb (is_single_br (ms_mode st) || is_double_br (ms_mode st))).
      + unfold cm_text. rewrite erase_bind. destruct (snd (cloop _ _ _)) as [m| | |] eqn:E; cbn [bind free snd]; try discriminate.
        intros [= <-]. apply ow_loop in E. pose proof (ow_push m). unfold ow in E at 2. cbn [mt_st mt_text length] in E. cbn [w2]. lia.
      + cbn [free snd]. intros [= <-]. cbn [m_push_buffer ms_out]. lia.
    - assert (H : forall t, snd (cm_close_brackets rec st t) = Ok st' -> W3 (ms_out st') <= W3 (ms_out st) + w2 (mkChunk2 l (Command2 cmd))).
      { intros t. unfold cm_close_brackets. rewrite erase_bind. destruct (snd (rec _)); cbn [bind free snd]; try discriminate.
        intros [= <-]. cbn [ms_out]. rewrite W3_app, W3_one. cbn [w3 w2]. lia. }
      assert (H' : forall f : outcome error N, (let* x := f in Ok (m_set_depth st x)) = Ok st' -> W3 (ms_out st') <= W3 (ms_out st) + w2 (mkChunk2 l (Command2 cmd))).
      { intros f. destruct f; cbn [bind]; try discriminate. intros [= <-]. cbn [m_set_depth ms_out]. lia. }
      repeat (match goal with |- context[if ?b then _ else _] => destruct b end; cbn [free snd]; try discriminate;
        try apply H; try apply H'; try (intros [= <-]; cbn [ms_out m_push_buffer]; lia)).
      rewrite erase_bind. destruct (snd (ccommand3_try_from p rec cmd)); cbn [bind free snd]; try discriminate.
      intros [= <-]. cbn [m_push_out ms_out]. rewrite W3_app, W3_one. cbn [w3 w2]. lia.
    - destruct (is_none (ms_mode st)); cbn [free snd]; [|intros [= <-]; cbn [m_push_buffer ms_out]; lia].
      rewrite erase_bind. destruct (snd (cscope3_try_from p rec sc)); cbn [bind free snd]; try discriminate.
      intros [= <-]. cbn [m_push_out ms_out]. rewrite W3_app, W3_one. cbn [w3 w2]. lia.
    - destruct (is_none (ms_mode st)); cbn [free snd]; [|intros [= <-]; cbn [m_push_buffer ms_out]; lia].
      rewrite erase_bind. destruct (snd (cenv3_try_from p rec e)); cbn [bind free snd]; try discriminate.
      intros [= <-]. cbn [m_push_out ms_out]. rewrite W3_app, W3_one. cbn [w3 w2]. lia.
  Qed.
  Lemma out_loop cs st st' : snd (cloop (cm_step p rec) st cs) = Ok st' -> W3 (ms_out st') <= W3 (ms_out st) + W2 cs.
  Proof.
    revert st. induction cs as [|c cs IH]; intros st; cbn [cloop]; [cbn; intros [= <-]; lia|]. rewrite erase_bind. cbn [snd].
    destruct (snd (cm_step p rec st c)) as [m1| | |] eqn:E; cbn [bind]; try discriminate. intros H.
    apply out_step in E. specialize (IH m1 H). change (W2 (c :: cs)) with (w2 c + W2 cs). lia.
  Qed.
End OutWeight.

Lemma cmaths_bound fuel p :
  (forall r s d cs, Forall (allowed r s d) cs -> fst (cmaths_fuel fuel p cs) <= cost_bound (kinds r s d) cs) /\
  (forall cs out, snd (cmaths_fuel fuel p cs) = Ok out -> W3 out <= 2 * W2 cs).
Proof.
  induction fuel as [|fuel [IH1 IH2]]; [split; [cbn; lia|discriminate]|]. cbn [cmaths_fuel]. split.
  - intros r s d cs Ha.
    assert (HL : pays (mq r s d minit + list_sum (map (fun c => S (share r s d c)) cs)) (mq r s d) (minv r s d)
                  (cloop (cm_step p (cmaths_fuel fuel p)) minit cs)).
    { apply (pays_loop _ _ _ (share r s d) (allowed r s d)); [|exact Ha|reflexivity].
      intros st c Hst Hc. now apply m_step_pays. }
    assert (E : mq r s d minit + list_sum (map (fun c => S (share r s d c)) cs) <= cost_bound (kinds r s d) cs).
    { change (mq r s d minit) with (3 * kinds r s d * 0 + 0 + 14 * 0 + 0). unfold cost_bound, share, W2, Deep, list_sum.
      clear. induction cs as [|c cs IH]; cbn [map fold_right]; [lia|]. pose proof (w2_pos c). nia. }
    unfold pays in HL. unfold cbind. destruct (snd (cloop _ _ _)) as [st| | |]; cbn [fst snd]; try lia.
    destruct HL as [HL _]. unfold cm_finish. destruct (negb _); cbn [fst free]; [lia|].
    pose proof (par_cost p (ms_out st)). assert (W3 (ms_out st) <= mq r s d st) by (unfold mq; lia). lia.
  - intros cs out. rewrite erase_bind. destruct (snd (cloop _ _ _)) as [st| | |] eqn:E; cbn [bind]; try discriminate.
    apply out_loop in E. change (W3 (ms_out minit)) with 0 in E. unfold cm_finish. destruct (negb (is_none (ms_mode st))); cbn [free snd]; [discriminate|].
    rewrite erase_par. intros H. apply par_weight in H. lia.
Qed.

(** ** Documents *)
Lemma full_cost p cs : fst (let$ x := cmaths p cs in cparagraph p x) <= 14 * total cs.
Proof. apply rec_full; intros; [now apply cmaths_bound|]. eapply (proj2 (cmaths_bound _ p)). eassumption. Qed.

(** the options of the document class *)
Lemma split_once_le sep s a b : split_once sep s = Some (a, b) -> length a <= length s.
Proof.
  revert a b. induction s as [|c s IH]; intros a b; cbn [split_once]; [discriminate|].
  destruct (c =? sep)%N; [intros [= <- <-]; cbn; lia|]. destruct (split_once sep s) as [[x y]|]; [|discriminate].
  intros [= <- <-]. specialize (IH x y eq_refl). cbn [length]. lia.
Qed.
Lemma opt_fold_le s st : match fold_left opt_step s st, st with
  | (_, arg, buf, _), (_, arg0, buf0, _) => length arg + length buf <= length arg0 + length buf0 + length s end.
Proof.
  revert st. induction s as [|c s IH]; intros [[[pr arg] buf] m]; cbn [fold_left length]; [lia|].
  specialize (IH (opt_step (pr, arg, buf, m) c)). destruct (fold_left opt_step s _) as [[[pr' arg'] buf'] m'].
  destruct m; cbn [opt_step] in IH; destruct (is_whitespace c); cbn [negb] in IH; rewrite ?app_length in IH; cbn [length] in IH; lia.
Qed.
Lemma option_steps_le opt : option_steps opt <= 1 + 3 * length opt.
Proof.
  unfold option_steps. pose proof (opt_fold_le opt ([], [], [], BmPrec)) as H. destruct (fold_left opt_step opt _) as [[[pr arg] buf] m].
  cbn [length] in H. destruct (split_once c_equal arg) as [[a b]|] eqn:E; [|lia]. apply split_once_le in E. lia.
Qed.
Lemma split_on_le sep s : list_sum (map (fun x => S (length x)) (split_on sep s)) = S (length s).
Proof.
  unfold list_sum. induction s as [|c s IH]; [reflexivity|]. cbn [split_on]. destruct (c =? sep)%N; [cbn [map fold_right length] in *; lia|].
  destruct (split_on sep s) as [|x xs]; cbn [map fold_right length] in *; lia.
Qed.
Lemma options_le s : list_sum (map option_steps (split_on c_comma s)) <= 3 * length s + 3.
Proof.
  pose proof (split_on_le c_comma s) as H.
  assert (H' : list_sum (map option_steps (split_on c_comma s)) <= list_sum (map (fun x => 3 * S (length x)) (split_on c_comma s))).
  { apply list_sum_le. intros x. pose proof (option_steps_le x). lia. }
  assert (E : forall l : list str, list_sum (map (fun x => 3 * S (length x)) l) = 3 * list_sum (map (fun x => S (length x)) l)).
  { unfold list_sum. induction l as [|x l IH]; cbn [map fold_right]; lia. }
  rewrite E in H'. lia.
Qed.

Lemma class_args_cost l st args : fst (cloop (cclass_arg_step l) st args) <= 4 * length (show_args2 args).
Proof.
  revert st. induction args as [|[pr [cs v]] args IH]; intros st; [cbn; lia|]. cbn [cloop]. unfold cbind. cbn [fst snd].
  assert (E : length (show_args2 ((pr, mkScope2 cs v) :: args)) = length pr + (2 + length (show2 cs)) + length (show_args2 args)).
  { unfold show_args2. cbn [map concat show_scope2]. rewrite !app_length. cbn [length]. rewrite app_length. cbn [length]. unfold show2. lia. }
  rewrite E. assert (Hc : fst (cclass_arg_step l st (pr, mkScope2 cs v)) <= 3 * length (show2 cs) + 3).
  { unfold cclass_arg_step. cbn [snd]. pose proof (options_le (show2 cs)). destruct v; cbn [fst free]; lia. }
  destruct (snd (cclass_arg_step l st _)) as [st'| | |]; cbn [fst snd]; [specialize (IH st')| | |]; lia.
Qed.
Definition dq (st : dstate) : nat := 14 * total (ds_pre st) + 14 * total (ds_trail st).
Lemma total_app a b : total (a ++ b) = total a + total b.
Proof. unfold total. now rewrite map_app, list_sum_app. Qed.
Lemma dq_push st c : dq (d_push_other st c) = dq st + 14 * total_chunk c /\ dq (d_push_pre st c) = dq st + 14 * total_chunk c.
Proof.
  assert (Hp : dq (d_push_pre st c) = dq st + 14 * total_chunk c).
  { unfold d_push_pre, dq. cbn [ds_pre ds_trail]. rewrite total_app. change (total [c]) with (total_chunk c + 0). lia. }
  split; [|exact Hp]. unfold d_push_other. destruct (negb _); [exact Hp|].
  unfold dq. cbn [ds_pre ds_trail]. rewrite total_app. change (total [c]) with (total_chunk c + 0). lia.
Qed.
Lemma env3_total p e l : fst (cenv3_try_from p (cmaths p) e) <= 14 * total_chunk (mkChunk2 l (Environment2 e)).
Proof.
  etransitivity; [apply (env3_cost p (cmaths p)) with (l := l)|].
  - intros. now apply cmaths_bound.
  - intros. eapply (proj2 (cmaths_bound _ p)). eassumption.
  - destruct e. cbn [total_chunk deep]. unfold total_args, total, list_sum. lia.
Qed.
Lemma d_step_pays p st c :
  pays (dq st + (14 * total_chunk c + 4 * length (show_chunk2 c))) dq (fun _ => True) (cd_step p st c).
Proof.
  destruct c as [l v]. cbn [cd_step]. destruct (dq_push st (mkChunk2 l v)) as [Ho Hp]. destruct v as [t|cmd|sc|e].
  - apply pays_ok; auto. lia.
  - destruct (_ && _); [|apply pays_ok; auto; lia]. cbv zeta. destruct (d_class _) eqn:Ec; [apply pays_free; discriminate|].
    destruct cmd as [lab args]. cbn [arguments2]. 
    pose proof (class_args_cost l (@None str, d_options (ds_construct st)) args) as H.
    assert (Hs : length (show_args2 args) <= length (show_chunk2 (mkChunk2 l (Command2 (mkCommand2 lab args))))).
    { cbn [show_chunk2 show_variant2 show_command2 length]. rewrite app_length. unfold show_args2. lia. }
    unfold pays, cbind. destruct (snd (cloop _ _ _)); cbn [fst snd free]; try lia. split; [|exact I].
    destruct (dq_push (mkD (mkDoc3 (fst a) (snd a) (d_preamable (ds_construct st)) (d_body (ds_construct st)) (d_body_args (ds_construct st))
      (d_begin_prec (ds_construct st)) (d_end_prec (ds_construct st)) (d_trailing (ds_construct st))) (ds_pre st) (ds_trail st) (ds_trailing st))
      (mkChunk2 l (Command2 (mkCommand2 lab args)))) as [_ Hp'].
    rewrite Hp'. unfold dq in *. cbn [ds_pre ds_trail] in *. lia.
  - apply pays_ok; auto. lia.
  - destruct (str_eqb _ _); [|apply pays_ok; auto; lia]. pose proof (env3_total p e l). unfold pays, cbind.
    destruct (snd (cenv3_try_from p (cmaths p) e)) as [[lab' a' c' b' e']| | |]; cbn [fst snd free]; try lia.
    split; [unfold dq; cbn [ds_pre ds_trail]; lia|exact I].
Qed.
Lemma steps3_total p d : steps3 p d <= length d + 14 * total d + 4 * length (show2 d).
Proof.
  assert (HL : pays (dq dinit + list_sum (map (fun c => S (14 * total_chunk c + 4 * length (show_chunk2 c))) d)) dq (fun _ => True)
    (cloop (cd_step p) dinit d)).
  { apply (pays_loop _ _ _ (fun c => 14 * total_chunk c + 4 * length (show_chunk2 c)) (fun _ => True)); auto.
    - intros st c _ _. apply d_step_pays.
    - apply Forall_forall. auto. }
  change (dq dinit) with 0 in HL.
  assert (E : list_sum (map (fun c => S (14 * total_chunk c + 4 * length (show_chunk2 c))) d) = length d + 14 * total d + 4 * length (show2 d)).
  { clear. unfold total, show2, list_sum. induction d as [|c d IH]; [reflexivity|]. cbn [map fold_right length concat]. rewrite app_length, IH. lia. }
  rewrite E in HL. cbn [plus] in HL. apply pays_cost with (q := fun _ => 0) (P := fun _ => True).
  unfold steps3, counted3. eapply pays_bind; [exact HL|]. intros st _ _. cbv zeta. unfold dq.
  pose proof (full_cost p (ds_pre st)) as H1. pose proof (full_cost p (ds_trail st)) as H2. unfold pays, cbind in *.
  destruct (snd (cmaths p (ds_pre st))) as [pre| | |]; cbn [fst snd] in *; try lia.
  destruct (snd (cparagraph p pre)) as [pre'| | |]; cbn [fst snd] in *; try lia.
  destruct (snd (cmaths p (ds_trail st))) as [tr| | |]; cbn [fst snd] in *; try lia.
  destruct (snd (cparagraph p tr)) as [tr'| | |]; cbn [fst snd free] in *; lia.
Qed.

(** ** In terms of chunks and characters *)
(** The number of chunks of a stage-2 document, at every depth *)
Fixpoint count_chunk2 (c : chunk2) : nat :=
  match c with mkChunk2 _ v =>
    match v with
    | Text2 _ => 1
    | Scope2 sc => S (count_scope2 sc)
    | Command2 (mkCommand2 _ args) => S (list_sum (map (fun a => count_scope2 (snd a)) args))
    | Environment2 (mkEnv2 _ args content _ _) =>
        S (list_sum (map (fun a => count_scope2 (snd a)) args) + list_sum (map count_chunk2 content))
    end
  end
with count_scope2 (s : scope2) : nat := match s with mkScope2 cs _ => list_sum (map count_chunk2 cs) end.
Definition count2 (d : list chunk2) : nat := list_sum (map count_chunk2 d).
Definition count_args2 (args : list (str * scope2)) : nat := list_sum (map (fun a => count_scope2 (snd a)) args).

Lemma total_le_list cs : Forall (fun c => total_chunk c <= count_chunk2 c + length (show_chunk2 c)) cs ->
  total cs <= count2 cs + length (show2 cs).
Proof.
  unfold total, count2, show2, list_sum. induction 1 as [|c cs H _ IH]; [cbn; lia|]. cbn [map fold_right concat]. rewrite app_length. lia.
Qed.
Lemma total_le_args args : Forall (fun a => Forall (fun c => total_chunk c <= count_chunk2 c + length (show_chunk2 c)) (chunks2 (snd a))) args ->
  total_args args <= count_args2 args + length (show_args2 args).
Proof.
  unfold total_args, count_args2, show_args2, list_sum. induction 1 as [|[pr [cs v]] args H _ IH]; [cbn; lia|]. cbn [map fold_right concat snd total_scope count_scope2 show_scope2] in *.
  apply total_le_list in H. unfold total, count2, show2, list_sum in *. cbn [chunks2] in H. rewrite !app_length. cbn [length]. rewrite app_length. lia.
Qed.
Lemma total_le_chunk c : total_chunk c <= count_chunk2 c + length (show_chunk2 c).
Proof.
  induction c as [l s|l lab args IH|l cs v IH|l lab args cs pb pe IHa IH] using chunk2_ind'.
  - cbn [total_chunk count_chunk2 show_chunk2 show_variant2]. lia.
  - apply total_le_args in IH. cbn [total_chunk count_chunk2 show_chunk2 show_variant2 show_command2]. fold (show_args2 args). fold (total_args args). fold (count_args2 args).
    cbn [length]. rewrite app_length. lia.
  - apply total_le_list in IH. cbn [total_chunk total_scope count_chunk2 count_scope2 show_chunk2 show_variant2 show_scope2]. fold (show2 cs). fold (total cs). fold (count2 cs).
    cbn [length]. rewrite app_length. lia.
  - apply total_le_args in IHa. apply total_le_list in IH. cbn [total_chunk count_chunk2 show_chunk2 show_variant2 show_env2].
    fold (show_args2 args). fold (total_args args). fold (count_args2 args). fold (show2 cs). fold (total cs). fold (count2 cs).
    rewrite !app_length. lia.
Qed.
Lemma total_le d : total d <= count2 d + length (show2 d).
Proof. apply total_le_list. apply Forall_forall. intros. apply total_le_chunk. Qed.
Lemma count2_length d : length d <= count2 d.
Proof.
  unfold count2, list_sum. induction d as [|c d IH]; [cbn; lia|]. cbn [length map fold_right].
  assert (1 <= count_chunk2 c) by (destruct c as [l [s|[]|sc|[]]]; cbn [count_chunk2]; lia). lia.
Qed.
Lemma steps3_linear p d : steps3 p d <= 19 * (count2 d + length (show2 d)).
Proof. pose proof (steps3_total p d). pose proof (total_le d). pose proof (count2_length d). lia. Qed.

(** sources *)
Lemma conv_count p :
  (forall d d2, conv p d d2 -> count2 d2 <= count1 d) /\ (forall a a', conv_args p a a' -> count_args2 a' <= count_args a).
Proof.
  apply conv_conv_args_ind.
  - cbn. lia.
  - intros l s d d' _ IH. unfold count2, count1, list_sum in *. cbn [map fold_right count_chunk2 count_chunk1]. lia.
  - intros l cs v cs' d d' _ IHc _ IH. unfold count2, count1, list_sum in *. cbn [map fold_right count_chunk2 count_chunk1 count_scope2 count_scope1].
    unfold list_sum. lia.
  - intros l lab args args' d d' _ _ _ IHa _ IH. unfold count_args2, count_args, count2, count1, list_sum in *.
    cbn [map fold_right count_chunk2 count_chunk1]. unfold list_sum. lia.
  - intros l pb lab args args' body body1 content l' pe d d' start _ _ Hb _ IHa _ IHb _ IH.
    apply rebaseM_count in Hb as [E1 _]. rewrite E1 in IHb. rewrite count1_cons, count1_app, count1_cons.
    change (count2 (mkChunk2 start (Environment2 (mkEnv2 (show1 lab) args' content pb pe)) :: d'))
      with (S (count_args2 args' + count2 content) + count2 d').
    assert (Ec : 1 + count_args args <= count_chunk1 (begin_cmd l pb lab args)).
    { unfold begin_cmd, count_args, list_sum. cbn [count_chunk1 map list_sum fold_right]. unfold list_sum. lia. }
    set (CB := count_chunk1 (begin_cmd l pb lab args)) in *. lia.
  - cbn. lia.
  - intros pre cs v cs' args args' _ IHc _ IHa.
    change (count_args2 ((pre, mkScope2 cs' (sv2_of_sv1 v)) :: args')) with (count2 cs' + count_args2 args').
    change (count_args ((pre, mkScope1 cs v) :: args)) with (count1 cs + count_args args). lia.
Qed.
Lemma from_str1_show_length p s d : source_fits s -> from_str1 p s = Ok d -> length (show1 d) <= length s.
Proof.
  intros B H. destruct (from_str1_has_parse p s d B H) as [_ Hp]. pose proof (parses_length _ _ _ Hp). pose proof (tokens_length s). lia.
Qed.
(** The loop iterations of [ast2::Document::from_str] and [ast3::Document::from_str] on a source: those of the stages that are run *)
Definition source_steps2 (p : profile) (s : str) : nat :=
  steps1 p s + match from_str1 p s with Ok d => steps2 p d | _ => 0 end.
Definition source_steps3 (p : profile) (s : str) : nat :=
  source_steps2 p s + match from_str2 p s with Ok d => steps3 p d | _ => 0 end.
Lemma source_steps2_bound p s : source_fits s -> source_steps2 p s <= 2 * (length s * length s).
Proof.
  intros B. unfold source_steps2. pose proof (steps_bound p s). destruct (from_str1 p s) as [d| | |] eqn:E; try lia.
  pose proof (from_str1_count p s d B E). pose proof (steps2_bound p d). nia.
Qed.
Lemma source_steps3_bound p s : source_fits s -> source_steps3 p s <= 2 * (length s * length s) + 38 * length s.
Proof.
  intros B. unfold source_steps3. pose proof (source_steps2_bound p s B). unfold from_str2. destruct (from_str1 p s) as [d| | |] eqn:E; cbn [bind]; try lia.
  destruct (try_from2 p d) as [d2| | |] eqn:E2; try lia. pose proof (steps3_linear p d2). pose proof (from_str1_count p s d B E).
  pose proof (from_str1_show_length p s d B E). rewrite (try_from2_show p d d2 E2) in H0. apply try_from2_iff in E2.
  pose proof (proj1 (conv_count p) _ _ E2). lia.
Qed.
