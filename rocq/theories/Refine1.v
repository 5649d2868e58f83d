(** * Refine1: [from_str1] computes [qparse]; no panic, no exhausted fuel, error range *)
From Verif Require Import Base Ast1 Parse1 Spec1 Tok Pure1.

Definition abs_buf (b : qbuf) : buffer :=
  match b with
  | QScope ct v d => BScope (untoks ct) v d
  | QCommand l sc d t => BCommand l (map (fun x => match x with (ct, v, pr) => (untoks ct, v, pr) end) sc) d t
  | QText c => BText c
  end.
Definition absst (q : qst) : pstate :=
  mkP (q_chunks q) (q_line q) false false (q_bline q) (abs_buf (q_buf q)).

(** stage-1 error kinds *)
Definition kind1 (t : error_type) : Prop :=
  match t with UnexpectedClosing _ | UnclosedArgument _ | UnclosedScope _ => True | _ => False end.

Definition good_err (ts : list token) (e : error) : Prop :=
  1 <= err_line e <= 1 + nl ts /\ kind1 (err_type e).

Section Spec.
  Context (M : nat) (rec : str -> outcome error document1) (rec' : list token -> res document1).
  Definition rec_ok : Prop := forall ct, Forall wf_token ct -> (length (untoks ct) < M)%nat ->
    rec (untoks ct) = inj (rec' ct) /\ forall e, rec' ct = RErr e -> good_err ct e.
End Spec.

Definition scope_ok (k : nat) (x : list token * sv1 * str) : Prop :=
  match x with (ct, _, _) => Forall wf_token ct /\ (length (untoks ct) < k)%nat end.
Definition scopes_nl (sc : list (list token * sv1 * str)) : N :=
  fold_right N.add 0 (map (fun x => match x with (ct, _, pr) => nl ct + count_newlines pr end) sc).

Definition buf_ok (k : nat) (b : qbuf) : Prop :=
  match b with
  | QText _ => True
  | QScope ct v d => Forall wf_token ct /\ (length (untoks ct) < k)%nat
  | QCommand lab sc d tr => Forall (scope_ok k) sc /\ (d <> 0 -> sc <> [])
  end.
Definition buf_nl (b : qbuf) : N :=
  match b with
  | QText c => count_newlines c
  | QScope ct _ _ => nl ct
  | QCommand _ sc _ tr => scopes_nl sc + count_newlines tr
  end.
Definition buf_depth (k : nat) (b : qbuf) : Prop :=
  match b with
  | QText _ => True
  | QScope _ _ d => 1 <= d <= N.of_nat k
  | QCommand _ _ d _ => d <= N.of_nat k
  end.

Record Inv (k : nat) (n : N) (q : qst) : Prop := {
  inv_line : q_line q = 1 + n;
  inv_bline : 1 <= q_bline q;
  inv_nl : q_bline q + buf_nl (q_buf q) <= q_line q;
  inv_ok : buf_ok k (q_buf q);
  inv_depth : buf_depth k (q_buf q);
}.

Lemma add32_ok {E} p a b : a + b < two32 -> @add32 E p a b = Ok (a + b).
Proof. intros H. unfold add32. destruct (N.ltb_spec (a + b) two32); [reflexivity|lia]. Qed.
Lemma sub32_ok {E} p a b : b <= a -> @sub32 E p a b = Ok (a - b).
Proof. intros H. unfold sub32. destruct (N.leb_spec b a); [reflexivity|lia]. Qed.
Lemma mul32_ok {E} p a b : a * b < two32 -> @mul32 E p a b = Ok (a * b).
Proof. intros H. unfold mul32. destruct (N.ltb_spec (a * b) two32); [reflexivity|lia]. Qed.
Lemma as_u32_ok a : a < two32 -> as_u32 a = a.
Proof. intros H. apply N.mod_small, H. Qed.

Lemma is_empty_nil {A} (l : list A) : is_empty l = true -> l = [].
Proof. destruct l; [reflexivity|discriminate]. Qed.
Lemma is_empty_false {A} (l : list A) : is_empty l = false -> l <> [].
Proof. destruct l; [discriminate|intros _ H; discriminate]. Qed.
Lemma is_empty_map {A B} (f : A -> B) l : is_empty (map f l) = is_empty l.
Proof. destruct l; reflexivity. Qed.

Lemma last_opt_snoc {A} (l : list A) x : last_opt (l ++ [x]) = Some x.
Proof. unfold last_opt. now rewrite rev_app_distr. Qed.
Lemma last_opt_map {A B} (f : A -> B) l :
  last_opt (map f l) = match last_opt l with Some x => Some (f x) | None => None end.
Proof. unfold last_opt. rewrite <- map_rev. destruct (rev l); reflexivity. Qed.
Lemma nonempty_snoc {A} (l : list A) : l <> [] -> exists l' x, l = l' ++ [x].
Proof. intros H. destruct (exists_last H) as [l' [x E]]. eauto. Qed.
Lemma modify_last_snoc {A} (f : A -> A) l x : modify_last f (l ++ [x]) = l ++ [f x].
Proof.
  induction l as [|y l IH]; [reflexivity|]. cbn [app modify_last].
  destruct (l ++ [x]) eqn:E; [destruct l; discriminate|]. now rewrite IH.
Qed.

Lemma scopes_nl_app a b : scopes_nl (a ++ b) = scopes_nl a + scopes_nl b.
Proof. unfold scopes_nl. induction a as [|x a IH]; cbn; [lia|]. rewrite map_app in *. lia. Qed.
Lemma scopes_nl_one ct v pr : scopes_nl [(ct, v, pr)] = nl ct + count_newlines pr.
Proof. unfold scopes_nl. cbn. lia. Qed.
Lemma scopes_nl_push_last t sc : sc <> [] -> scopes_nl (push_last t sc) = scopes_nl sc + nl [t].
Proof.
  intros H. destruct (nonempty_snoc sc H) as [l [[[ct v] pr] ->]].
  unfold push_last. rewrite modify_last_snoc, !scopes_nl_app, !scopes_nl_one, nl_app. lia.
Qed.
Lemma last_variant_snoc l ct v pr : last_variant (l ++ [(ct, v, pr)]) = v.
Proof. unfold last_variant. now rewrite last_opt_snoc. Qed.

Lemma scope_ok_mono k k' x : (k <= k')%nat -> scope_ok k x -> scope_ok k' x.
Proof. destruct x as [[ct v] pr]. cbn. intros; intuition lia. Qed.
Lemma buf_ok_mono k k' b : (k <= k')%nat -> buf_ok k b -> buf_ok k' b.
Proof.
  destruct b; cbn; intros Hk H; intuition; try lia.
  eapply Forall_impl; [|eassumption]. intros; eapply scope_ok_mono; eauto.
Qed.
Lemma buf_depth_mono k k' b : (k <= k')%nat -> buf_depth k b -> buf_depth k' b.
Proof. destruct b; cbn; intros; intuition lia. Qed.

Lemma from_opening_ok {E} c : is_opening c = true -> @from_opening E c = Ok (ov c) /\ open1 (ov c) = c.
Proof.
  unfold is_opening, from_opening, ov. intros H.
  destruct (N.eqb_spec c c_lcurly); [subst; auto|].
  destruct (N.eqb_spec c c_lsquare); [subst; auto|].
  destruct (N.eqb_spec c c_lround); [subst; auto|]. discriminate.
Qed.
Lemma from_closing_ok {E} c : is_closing c = true -> @from_closing E c = Ok (cv c) /\ close1 (cv c) = c.
Proof.
  unfold is_closing, from_closing, cv. intros H.
  destruct (N.eqb_spec c c_rcurly); [subst; auto|].
  destruct (N.eqb_spec c c_rsquare); [subst; auto|].
  destruct (N.eqb_spec c c_rround); [subst; auto|]. discriminate.
Qed.

Section Refine.
  Context (p : profile) (M : nat) (rec : str -> outcome error document1)
          (rec' : list token -> res document1).
  Context (HM : N.of_nat M + 1 < two32) (Hrec : rec_ok M rec rec').

  Notation F e m q := (with_flags e m (absst q)).

  Lemma args_ok sc : Forall (scope_ok M) sc ->
    mapM (fun x => match x with (content, variant, preceding) =>
              let* inner := rec content in Ok (preceding, mkScope1 inner variant) end)
         (map (fun x => match x with (ct, v, pr) => (untoks ct, v, pr) end) sc)
    = inj (rmap (fun x => match x with (content, v, prec) =>
              let! inner := rec' content in ROk (prec, mkScope1 inner v) end) sc)
    /\ (forall e, rmap (fun x => match x with (content, v, prec) =>
              let! inner := rec' content in ROk (prec, mkScope1 inner v) end) sc = RErr e ->
          1 <= err_line e <= 1 + scopes_nl sc /\ kind1 (err_type e)).
  Proof.
    induction 1 as [|[[ct v] pr] sc Hx Hsc [IH1 IH2]]; cbn [map mapM rmap].
    { split; [reflexivity|discriminate]. }
    destruct Hx as [Hwf Hlen]. destruct (Hrec ct Hwf Hlen) as [H1 H2]. rewrite H1.
    destruct (rec' ct) as [d|e] eqn:Er; cbn [inj bind rbind].
    - rewrite IH1.
      match goal with |- context[rmap ?f sc] => destruct (rmap f sc) as [a|e] end; cbn [inj bind rbind].
      + split; [reflexivity|discriminate].
      + split; [reflexivity|]. intros er Her; injection Her as <-. destruct (IH2 e eq_refl) as [Hr Hk]. split; [|exact Hk].
        change ((ct, v, pr) :: sc) with ([(ct, v, pr)] ++ sc). rewrite scopes_nl_app. lia.
    - split; [reflexivity|]. intros er Her; injection Her as <-. destruct (H2 e eq_refl) as [Hr Hk]. split; [|exact Hk].
      change ((ct, v, pr) :: sc) with ([(ct, v, pr)] ++ sc). rewrite scopes_nl_app, scopes_nl_one. lia.
  Qed.

  Lemma flush_ok b bl cs : buf_ok M b ->
    flush rec (abs_buf b) bl cs = inj (qflush rec' b bl cs)
    /\ (forall e, qflush rec' b bl cs = RErr e -> 1 <= err_line e <= 1 + buf_nl b /\ kind1 (err_type e)).
  Proof.
    destruct b as [ct v d|lab sc d tr|c]; cbn [abs_buf flush qflush buf_ok buf_nl].
    - intros [Hwf Hlen]. destruct (N.eqb_spec d 0) as [Hd0|Hd0]; cbn [negb].
      + destruct (Hrec ct Hwf Hlen) as [H1 H2]. rewrite H1.
        destruct (rec' ct) as [a|e] eqn:Er; cbn [inj bind rbind].
        * split; [reflexivity|discriminate].
        * split; [reflexivity|]. intros er Her; injection Her as <-. apply (H2 e eq_refl).
      + split; [reflexivity|]. intros er Her; injection Her as <-. cbn. split; [lia|exact I].
    - intros [Hsc Hne]. destruct (N.eqb_spec d 0) as [->|Hd]; cbn [negb].
      + destruct (args_ok sc Hsc) as [H1 H2]. rewrite H1.
        match goal with |- context[rmap ?f sc] => destruct (rmap f sc) as [a|e] end; cbn [inj bind rbind].
        * split; [reflexivity|discriminate].
        * split; [reflexivity|]. intros er Her; injection Her as <-. destruct (H2 e eq_refl). split; [lia|assumption].
      + rewrite last_opt_map. unfold last_variant.
        destruct (nonempty_snoc sc (Hne Hd)) as [l [[[ct v] pr] ->]]. rewrite last_opt_snoc.
        split; [reflexivity|]. intros er Her; injection Her as <-. cbn. split; [lia|exact I].
    - intros _. destruct (is_empty c); cbn [negb inj]; (split; [reflexivity|discriminate]).
  Qed.

  Lemma flush_bang_ok e m q b' :
    buf_ok M (q_buf q) -> 1 <= q_bline q -> q_bline q + buf_nl (q_buf q) <= q_line q ->
    q_line q < two32 ->
    match qflush_bang rec' q b' with
    | ROk q' => exists cs, q' = mkQ cs (q_line q) (q_line q) b' /\
                flush_bang p rec (F e m q) = Ok (F e m (mkQ cs (q_line q) (q_line q) (q_buf q)))
    | RErr er => flush_bang p rec (F e m q) = Err er /\ 1 <= err_line er <= q_line q /\ kind1 (err_type er)
    end.
  Proof.
    intros Hb H1 H2 H3. unfold qflush_bang, flush_bang.
    destruct (flush_ok (q_buf q) (q_bline q) (q_chunks q) Hb) as [Hf Hr].
    change (ps_buf (F e m q)) with (abs_buf (q_buf q)).
    change (ps_bline (F e m q)) with (q_bline q).
    change (ps_chunks (F e m q)) with (q_chunks q).
    rewrite Hf. destruct (qflush rec' (q_buf q) (q_bline q) (q_chunks q)) as [cs|er]; cbn [inj map_err bind].
    - exists cs. split; reflexivity.
    - destruct (Hr er eq_refl) as [Hl Hk].
      rewrite sub32_ok by lia. cbn [bind]. rewrite add32_ok by lia. cbn [bind err_line err_type].
      split; [reflexivity|]. split; [lia|exact Hk].
  Qed.

  Lemma start_ok e m q c :
    q_line q < two32 -> 1 <= q_line q -> q_bline q = q_line q ->
    match qstart q c with
    | ROk q' => start_command p rec (F e m q) c = Ok (F e m q')
    | RErr _ => False
    end.
  Proof.
    intros H H1 Hbl. unfold qstart, start_command.
    destruct (is_ascii_alphabetic c); cbn [negb].
    - unfold with_flags, absst, set_buf. cbn. rewrite Hbl. reflexivity.
    - unfold flush_bang. cbn. rewrite Hbl. reflexivity.
  Qed.

  Lemma tokstep_ok k n q t :
    Inv k n q -> (k + length (untok t) <= M)%nat -> wf_token t -> n + nl [t] <= N.of_nat (k + length (untok t)) ->
    match qstep rec' q t with
    | ROk q' => (exists st', tokstep p rec (absst q) t = Ok st' /\ clean st' = absst q')
                /\ Inv (k + length (untok t)) (n + nl [t]) q'
    | RErr e => tokstep p rec (absst q) t = Err e
                /\ 1 <= err_line e <= 1 + n + nl [t] /\ kind1 (err_type e)
    end.
  Proof.
    intros HI Hk Hwf Hn. destruct HI as [Hline Hbl Hnl Hok Hdep].
    unfold qstep, tokstep.
    set (n' := n + nl [t]) in *. set (k' := (k + length (untok t))%nat) in *.
    assert (Hkk : (k < k')%nat) by (unfold k'; destruct t; cbn; lia).
    assert (Hl : (if tchar t =? c_newline then @add32 error p (ps_line (absst q)) 1 else Ok (ps_line (absst q)))
                 = Ok (q_line q + nl [t])).
    { pose proof (nl_single t) as Hs. change (ps_line (absst q)) with (q_line q).
      destruct (tchar t =? c_newline); rewrite Hs in *.
      - apply add32_ok. unfold n' in *; lia.
      - f_equal; lia. }
    rewrite Hl. cbn [bind]. clear Hl.
    set (q0 := mkQ (q_chunks q) (q_line q + nl [t]) (q_bline q) (q_buf q)).
    change (set_line (set_comment (set_escaped (absst q) (is_esc t)) false) (q_line q + nl [t]))
      with (F (is_esc t) false q0).
    assert (Hline0 : q_line q0 = 1 + n') by (cbn; lia).
    assert (Hl32 : q_line q0 < two32) by lia.
    assert (Hnl0 : q_bline q0 + buf_nl (q_buf q0) + nl [t] <= q_line q0) by (cbn; lia).
    assert (Hbl0 : 1 <= q_bline q0) by exact Hbl.
    assert (Hok0 : buf_ok k (q_buf q0)) by exact Hok.
    assert (Hdep0 : buf_depth k (q_buf q0)) by exact Hdep.
    replace (1 + n + nl [t]) with (q_line q0) by (cbn; lia).
    assert (HokM : buf_ok M (q_buf q0)) by (eapply buf_ok_mono; [|exact Hok0]; lia).
    clearbody q0. clear q Hline Hbl Hnl Hok Hdep. rename q0 into q.
    assert (HF : forall b', match qflush_bang rec' q b' with
      | ROk q' => exists cs, q' = mkQ cs (q_line q) (q_line q) b' /\
                flush_bang p rec (F (is_esc t) false q) = Ok (F (is_esc t) false (mkQ cs (q_line q) (q_line q) (q_buf q)))
      | RErr er => flush_bang p rec (F (is_esc t) false q) = Err er /\ 1 <= err_line er <= q_line q /\ kind1 (err_type er)
      end).
    { intros b'. apply flush_bang_ok; auto. lia. }
    unfold qmain, step_main.
    change (ps_escaped (F (is_esc t) false q)) with (is_esc t).
    change (ps_buf (F (is_esc t) false q)) with (abs_buf (q_buf q)).
    change (ps_line (F (is_esc t) false q)) with (q_line q).
    destruct (q_buf q) as [ct v d|lab sc d tr|c0] eqn:Eb; cbn [abs_buf].
    - (* scope *)
      cbn [buf_depth] in Hdep0. cbn [buf_ok] in Hok0. cbn [buf_nl] in Hnl0. destruct Hok0 as [Hct Hlen].
      assert (Hd : (d =? 0) = false) by (apply N.eqb_neq; lia). rewrite Hd. cbn [negb andb].
      assert (Hpush : Forall wf_token (ct ++ [t]) /\ (length (untoks (ct ++ [t])) < k')%nat).
      { split; [apply Forall_app; auto|]. rewrite untoks_app, app_length, untoks_cons, app_length.
        cbn [untoks concat map length]. unfold k'. lia. }
      destruct t as [c|c]; cbn [is_esc is_open_tok is_close_tok tchar].
      + rewrite (N.eqb_sym c (open1 v)), (N.eqb_sym c (close1 v)).
        destruct (open1 v =? c) eqn:Eo.
        { rewrite add32_ok by lia. cbn [bind]. split.
          - eexists; split; [reflexivity|]. unfold clean, with_flags, absst, set_buf; cbn.
            rewrite untoks_app. reflexivity.
          - constructor; cbn [q_line q_bline q_buf buf_nl buf_ok buf_depth]; auto; try lia.
            rewrite nl_app. lia. }
        destruct (close1 v =? c) eqn:Ec.
        { rewrite sub32_ok by lia. cbn [bind]. destruct (N.eqb_spec (d - 1) 0) as [E1|E1].
          - pose proof (flush_bang_ok false false (mkQ (q_chunks q) (q_line q) (q_bline q) (QScope ct v 0)) (QText [])) as HF2.
            cbn [q_buf q_bline q_line buf_ok buf_nl] in HF2.
            specialize (HF2 (conj Hct (Nat.lt_le_trans _ _ _ Hlen (Nat.le_trans _ _ _ (Nat.lt_le_incl _ _ Hkk) Hk))) Hbl0).
            specialize (HF2 ltac:(lia) Hl32).
            change (set_buf (F false false q) (BScope (untoks ct) v (d - 1)))
              with (F false false (mkQ (q_chunks q) (q_line q) (q_bline q) (QScope ct v (d - 1)))).
            rewrite E1.
            destruct (qflush_bang rec' _ (QText [])) as [q'|er].
            + destruct HF2 as [cs [-> HF2]]. rewrite HF2. cbn [bind]. split.
              * eexists; split; reflexivity.
              * constructor; cbn; auto; lia.
            + destruct HF2 as [HF2 HF3]. rewrite HF2. cbn [bind]. auto.
          - split.
            + eexists; split; [reflexivity|]. unfold clean, with_flags, absst, set_buf; cbn.
              rewrite untoks_app. reflexivity.
            + constructor; cbn [q_line q_bline q_buf buf_nl buf_ok buf_depth]; auto; try lia.
              rewrite nl_app. lia. }
        split.
        * eexists; split; [reflexivity|]. unfold clean, with_flags, absst, set_buf; cbn.
          rewrite untoks_app. reflexivity.
        * constructor; cbn [q_line q_bline q_buf buf_nl buf_ok buf_depth]; auto; try lia.
          rewrite nl_app. lia.
      + split.
        * eexists; split; [reflexivity|]. unfold clean, with_flags, absst, set_buf; cbn.
          rewrite untoks_app, <- app_assoc. reflexivity.
        * constructor; cbn [q_line q_bline q_buf buf_nl buf_ok buf_depth]; auto; try lia.
          rewrite nl_app. lia.
    - (* command *)
      cbn [buf_depth] in Hdep0. cbn [buf_ok] in Hok0. cbn [buf_nl] in Hnl0. destruct Hok0 as [Hsc Hne].
      assert (Hsc' : Forall (scope_ok k') sc).
      { eapply Forall_impl; [|exact Hsc]. intros x Hx. apply (scope_ok_mono k); [lia|exact Hx]. }
      destruct (N.eqb_spec d 0) as [->|Hd]; cbn [negb andb].
      + destruct (is_opening (tchar t)) eqn:Eo.
        { destruct (@from_opening_ok error _ Eo) as [Ho _]. rewrite Ho. cbn [bind buffer_push_scope].
          split.
          - eexists; split; [reflexivity|]. unfold clean, with_flags, absst, set_buf; cbn.
            rewrite map_app. reflexivity.
          - constructor; cbn [q_line q_bline q_buf buf_nl buf_ok buf_depth]; auto; try lia.
            + rewrite scopes_nl_app, scopes_nl_one, nl_nil, count_newlines_nil. lia.
            + split; [|intros _ H; destruct sc; discriminate].
              apply Forall_app; split; [exact Hsc'|]. constructor; [|constructor].
              cbn. split; [constructor|lia]. }
        destruct (is_whitespace (tchar t)) eqn:Ew.
        { split.
          - eexists; split; reflexivity.
          - constructor; cbn [q_line q_bline q_buf buf_nl buf_ok buf_depth]; auto; try lia.
            rewrite count_newlines_app. change (count_newlines [tchar t]) with (nl [t]). lia. }
        destruct (is_esc t) eqn:Ee.
        { specialize (HF (QText [])). destruct (qflush_bang rec' q (QText [])) as [q'|er].
          2:{ destruct HF as [HF HF2]. rewrite HF. cbn [bind rbind]. auto. }
          destruct HF as [cs [-> HF]]. rewrite HF. cbn [bind rbind q_chunks q_line q_bline q_buf].
          assert (Hst : (if negb (is_empty tr)
                  then
                   let* l :=
                   sub32 p (ps_bline (set_buf (F true false (mkQ cs (q_line q) (q_line q) (QCommand lab sc 0 tr))) (buffer_push_str buffer_text tr)))
                     (as_u32 (count_newlines tr))
                   in let* chunks :=
                      flush rec (ps_buf (set_buf (F true false (mkQ cs (q_line q) (q_line q) (QCommand lab sc 0 tr))) (buffer_push_str buffer_text tr))) l
                        (ps_chunks (set_buf (F true false (mkQ cs (q_line q) (q_line q) (QCommand lab sc 0 tr))) (buffer_push_str buffer_text tr)))
                      in Ok (set_chunks (set_buf (F true false (mkQ cs (q_line q) (q_line q) (QCommand lab sc 0 tr))) (buffer_push_str buffer_text tr)) chunks)
                  else Ok (F true false (mkQ cs (q_line q) (q_line q) (QCommand lab sc 0 tr))))
              = Ok (F true false (mkQ (qtrail cs (q_line q - count_newlines tr) tr) (q_line q) (q_line q)
                      (if is_empty tr then QCommand lab sc 0 tr else QText tr)))).
          { unfold qtrail. destruct tr as [|c1 tr]; cbn [is_empty negb]; [reflexivity|].
            change (ps_bline (set_buf ?a ?b)) with (ps_bline a). cbn [ps_bline with_flags set_comment set_escaped absst q_bline].
            rewrite as_u32_ok by lia. rewrite sub32_ok by lia. cbn [bind]. reflexivity. }
          rewrite Hst. cbn [bind]. clear Hst.
          match goal with |- context[qstart ?Q (tchar t)] => pose proof (start_ok true false Q (tchar t)) as Hs end.
          cbn [q_line q_bline] in Hs. specialize (Hs Hl32 ltac:(lia) eq_refl).
          match goal with |- context[qstart ?Q (tchar t)] => destruct (qstart Q (tchar t)) as [q'|] eqn:Eq' end; [|contradiction].
          split.
          - exists (F true false q'). split; [|reflexivity]. rewrite <- Hs. reflexivity.
          - unfold qstart in Eq'. injection Eq' as <-. destruct (is_ascii_alphabetic (tchar t)); constructor; cbn; auto; try lia. }
        assert (Ebr : fst (false, false) = false) by reflexivity.
        destruct (negb (is_empty tr)) eqn:Et.
        { specialize (HF (QText (tr ++ [tchar t]))).
          destruct (qflush_bang rec' q (QText (tr ++ [tchar t]))) as [q'|er].
          2:{ destruct HF as [HF HF2]. rewrite HF. cbn [bind rbind]. auto. }
          destruct HF as [cs [-> HF]]. rewrite HF. cbn [bind rbind q_chunks q_line q_bline q_buf].
          change (ps_line (set_buf ?a ?b)) with (ps_line a).
          cbn [ps_line with_flags set_comment set_escaped absst q_line].
          rewrite as_u32_ok by lia. rewrite sub32_ok by lia. cbn [bind].
          split.
          - eexists; split; reflexivity.
          - constructor; cbn [q_line q_bline q_buf buf_nl buf_ok buf_depth]; auto; try lia.
            rewrite count_newlines_app. change (count_newlines [tchar t]) with (nl [t]).
            assert (nl [t] = 0); [|lia].
            rewrite nl_single. destruct (N.eqb_spec (tchar t) c_newline) as [E|]; [|reflexivity].
            rewrite E in Ew. discriminate. }
        cbn [bind fst snd].
        destruct (is_closing (tchar t)) eqn:Ecl.
        { destruct (@from_closing_ok error _ Ecl) as [Ho _]. rewrite Ho. cbn [bind].
          split; [reflexivity|]. cbn. split; [lia|exact I]. }
        cbn [no_scope bind]. rewrite is_empty_map.
        destruct (negb (is_empty sc)) eqn:Esc.
        { specialize (HF (QText [tchar t])).
          destruct (qflush_bang rec' q (QText [tchar t])) as [q'|er].
          2:{ destruct HF as [HF HF2]. rewrite HF. cbn [bind rbind]. auto. }
          destruct HF as [cs [-> HF]]. rewrite HF. cbn [bind rbind]. split.
          - eexists; split; reflexivity.
          - constructor; cbn [q_line q_bline q_buf buf_nl buf_ok buf_depth]; auto; try lia.
            change (count_newlines [tchar t]) with (nl [t]).
            assert (nl [t] = 0); [|lia].
            rewrite nl_single. destruct (N.eqb_spec (tchar t) c_newline) as [E|]; [|reflexivity].
            rewrite E in Ew. discriminate. }
        apply negb_false_iff, is_empty_nil in Esc. subst sc.
        split.
        * eexists; split; reflexivity.
        * constructor; cbn [q_line q_bline q_buf buf_nl buf_ok buf_depth]; auto; try lia.
      + (* inside an argument *)
        destruct (nonempty_snoc sc (Hne Hd)) as [l [[[ct v] pr] ->]].
        rewrite last_variant_snoc.
        assert (Hpush : Forall (scope_ok k') (push_last t (l ++ [(ct, v, pr)]))).
        { unfold push_last. rewrite modify_last_snoc. apply Forall_app in Hsc. destruct Hsc as [Ha Hb].
          apply Forall_app in Hsc'. destruct Hsc' as [Ha' _].
          apply Forall_app; split; [exact Ha'|]. constructor; [|constructor].
          apply Forall_inv in Hb. destruct Hb as [Hw Hlen]. cbn. split; [apply Forall_app; auto|].
          rewrite untoks_app, app_length, untoks_cons, app_length.
          cbn [untoks concat map length]. unfold k'. lia. }
        assert (Hpne : push_last t (l ++ [(ct, v, pr)]) <> []).
        { unfold push_last. rewrite modify_last_snoc. destruct l; discriminate. }
        assert (Hmap : forall s : str, 
            modify_last (fun x => match x with (content, v, prec) => (content ++ s, v, prec) end)
               (map (fun x => match x with (ct, v, pr) => (untoks ct, v, pr) end) (l ++ [(ct, v, pr)]))
            = map (fun x => match x with (ct, v, pr) => (untoks ct, v, pr) end) l ++ [(untoks ct ++ s, v, pr)]).
        { intros s. rewrite map_app. cbn [map]. now rewrite modify_last_snoc. }
        assert (Hmne : is_empty (map (fun x => match x with (ct, v, pr) => (untoks ct, v, pr) end) (l ++ [(ct, v, pr)])) = false)
          by (destruct l; reflexivity).
        assert (Hnlp : q_bline q + (scopes_nl (push_last t (l ++ [(ct, v, pr)])) + count_newlines tr) <= q_line q).
        { rewrite scopes_nl_push_last by (destruct l; discriminate). lia. }
        destruct t as [c|c]; cbn [is_esc is_open_tok is_close_tok tchar].
        * rewrite last_opt_map, last_opt_snoc. cbn [bind fst snd].
          rewrite (N.eqb_sym c (open1 v)), (N.eqb_sym c (close1 v)).
          destruct (open1 v =? c) eqn:Eo.
          { rewrite add32_ok by lia. cbn [bind]. split.
            - eexists; split; reflexivity.
            - constructor; cbn [q_line q_bline q_buf buf_nl buf_ok buf_depth]; auto; try lia. }
          destruct (close1 v =? c) eqn:Ec.
          { rewrite sub32_ok by lia. cbn [bind]. split.
            - eexists; split; reflexivity.
            - constructor; cbn [q_line q_bline q_buf buf_nl buf_ok buf_depth]; auto; try lia. }
          cbn [no_scope bind]. split.
          { eexists; split; [reflexivity|]. unfold clean, with_flags, absst, set_buf; cbn [ps_chunks ps_line ps_bline ps_buf q_chunks q_line q_bline q_buf abs_buf set_comment set_escaped buffer_push buffer_push_str].
            rewrite Hmne. rewrite Hmap. unfold push_last. rewrite modify_last_snoc, map_app. cbn [map].
            rewrite untoks_app. reflexivity. }
          { constructor; cbn [q_line q_bline q_buf buf_nl buf_ok buf_depth]; auto; try lia. }
        * split.
          { eexists; split; [reflexivity|]. unfold clean, with_flags, absst, set_buf; cbn [ps_chunks ps_line ps_bline ps_buf q_chunks q_line q_bline q_buf abs_buf set_comment set_escaped buffer_push buffer_push_str].
            rewrite Hmne. rewrite Hmap.
            unfold buffer_push at 1. cbn [buffer_push_str].
            match goal with |- context[is_empty (?a ++ [?b])] =>
              replace (is_empty (a ++ [b])) with false by (destruct a; reflexivity) end.
            rewrite modify_last_snoc. unfold push_last. rewrite modify_last_snoc, map_app. cbn [map].
            rewrite untoks_app, <- app_assoc. reflexivity. }
          { constructor; cbn [q_line q_bline q_buf buf_nl buf_ok buf_depth]; auto; try lia. }
    - (* text *)
      cbn [buf_nl] in Hnl0.
      destruct (is_esc t) eqn:Ee.
      { specialize (HF (QText [])). destruct (qflush_bang rec' q (QText [])) as [q'|er].
        2:{ destruct HF as [HF HF2]. rewrite HF. cbn [bind rbind]. auto. }
        destruct HF as [cs [-> HF]]. rewrite HF. cbn [bind rbind q_chunks q_line q_bline q_buf].
        match goal with |- context[qstart ?Q (tchar t)] => pose proof (start_ok true false Q (tchar t)) as Hs end.
        cbn [q_line q_bline] in Hs. specialize (Hs Hl32 ltac:(lia) eq_refl).
        match goal with |- context[qstart ?Q (tchar t)] => destruct (qstart Q (tchar t)) as [q'|] eqn:Eq' end; [|contradiction].
        split.
        - exists (F true false q'). split; [|reflexivity]. rewrite <- Hs. reflexivity.
        - unfold qstart in Eq'. injection Eq' as <-. destruct (is_ascii_alphabetic (tchar t)); constructor; cbn; auto; try lia. }
      destruct (is_opening (tchar t)) eqn:Eo.
      { specialize (HF (QScope [] (ov (tchar t)) 1)). destruct (qflush_bang rec' q (QScope [] (ov (tchar t)) 1)) as [q'|er].
        2:{ destruct HF as [HF HF2]. rewrite HF. cbn [bind rbind]. auto. }
        destruct HF as [cs [-> HF]]. rewrite HF. cbn [bind rbind].
        destruct (@from_opening_ok error _ Eo) as [Ho _]. rewrite Ho. cbn [bind].
        split.
        - eexists; split; reflexivity.
        - constructor; cbn; auto; try lia. split; [constructor|lia]. }
      split.
      + eexists; split; reflexivity.
      + constructor; cbn [q_line q_bline q_buf buf_nl buf_ok buf_depth]; auto; try lia.
        rewrite count_newlines_app. change (count_newlines [tchar t]) with (nl [t]). lia.
  Qed.

  Lemma fold_ok ts : forall k n q,
    Inv k n q -> (k + length (untoks ts) <= M)%nat -> Forall wf_token ts -> n <= N.of_nat k ->
    match rfold (qstep rec') q ts with
    | ROk q' => (exists st', foldM (tokstep p rec) (absst q) ts = Ok st' /\ clean st' = absst q')
                /\ Inv (k + length (untoks ts)) (n + nl ts) q'
    | RErr e => foldM (tokstep p rec) (absst q) ts = Err e
                /\ 1 <= err_line e <= 1 + n + nl ts /\ kind1 (err_type e)
    end.
  Proof.
    induction ts as [|t ts IH]; intros k n q HI Hk Hwf Hn; cbn [rfold foldM].
    { split; [exists (absst q); split; reflexivity|]. rewrite nl_nil.
      cbn [untoks map concat length]. rewrite Nat.add_0_r, N.add_0_r. exact HI. }
    inversion Hwf as [|? ? Ht Hts]; subst.
    rewrite untoks_cons, app_length in Hk.
    assert (Hnt : nl [t] <= N.of_nat (length (untok t))).
    { rewrite nl_single. destruct t; cbn [untok length]; destruct (_ =? _); lia. }
    pose proof (tokstep_ok k n q t HI ltac:(lia) Ht ltac:(lia)) as Hs.
    destruct (qstep rec' q t) as [q1|e]; cbn [rbind].
    2:{ destruct Hs as [Hs [He Hke]]. rewrite Hs. cbn [bind]. split; [reflexivity|]. rewrite (nl_cons t). split; [lia|exact Hke]. }
    destruct Hs as [[st1 [Hs1 Hs2]] HI1]. rewrite Hs1. cbn [bind].
    specialize (IH _ _ _ HI1 ltac:(lia) Hts ltac:(lia)).
    assert (Hc : omap clean (foldM (tokstep p rec) st1 ts) = omap clean (foldM (tokstep p rec) (absst q1) ts)).
    { rewrite <- Hs2. symmetry. apply foldM_tok_clean. }
    rewrite (nl_cons t), untoks_cons, app_length.
    destruct (rfold (qstep rec') q1 ts) as [q'|e].
    - destruct IH as [[st' [H1 H2]] HI']. rewrite H1 in Hc. cbn [omap bind] in Hc.
      destruct (foldM (tokstep p rec) st1 ts) as [st2| | |]; cbn [omap bind] in Hc; try discriminate.
      split.
      + exists st2. split; [reflexivity|]. injection Hc as Hc1 Hc2 Hc3 Hc4.
        rewrite <- H2. unfold clean, with_flags, set_comment, set_escaped. cbn. congruence.
      + rewrite Nat.add_assoc, N.add_assoc. exact HI'.
    - destruct IH as [H1 [H2 H3]]. rewrite H1 in Hc. cbn [omap bind] in Hc.
      destruct (foldM (tokstep p rec) st1 ts) as [st2| | |]; cbn [omap bind] in Hc; try discriminate.
      injection Hc as ->. split; [reflexivity|]. split; [lia|exact H3].
  Qed.

  Lemma finish_ok k n q : Inv k n q -> (k <= M)%nat -> n <= N.of_nat k ->
    finish p rec (absst q) = inj (qfinish rec' q)
    /\ forall e, qfinish rec' q = RErr e -> 1 <= err_line e <= 1 + n /\ kind1 (err_type e).
  Proof.
    intros [Hline Hbl Hnl Hok Hdep] Hk Hn. unfold finish, qfinish.
    assert (HokM : buf_ok M (q_buf q)) by (eapply buf_ok_mono; [|exact Hok]; lia).
    pose proof (flush_bang_ok false false q (QText []) HokM Hbl Hnl ltac:(lia)) as HF.
    change (F false false q) with (absst q) in HF.
    change (ps_buf (absst q)) with (abs_buf (q_buf q)).
    destruct (qflush_bang rec' q (QText [])) as [q'|er].
    - destruct HF as [cs [-> HF]]. rewrite HF. cbn [bind rbind].
      destruct (q_buf q) as [ct v d|lab sc d tr|c0]; cbn [abs_buf q_chunks q_line];
        try (split; [reflexivity|discriminate]).
      destruct tr as [|c tr]; cbn [is_empty negb qtrail]; (split; [reflexivity|discriminate]).
    - destruct HF as [HF HF2]. rewrite HF. cbn [bind rbind inj].
      split.
      + destruct (q_buf q) as [ct v d|lab sc d tr|c0]; cbn [abs_buf]; try reflexivity.
        destruct (negb (is_empty tr)); reflexivity.
      + intros e He; injection He as <-. rewrite <- Hline. exact HF2.
  Qed.
End Refine.

Lemma Inv_init : Inv 0 0 qinit.
Proof. constructor; cbn; auto; lia. Qed.

(** Main refinement theorem *)
Lemma from_str1_fuel_ok p fuel : forall ts s,
  tokens s = ts -> (length (untoks ts) < fuel)%nat -> N.of_nat (length (untoks ts)) + 1 < two32 ->
  from_str1_fuel fuel p s = inj (qparse fuel ts)
  /\ forall e, qparse fuel ts = RErr e -> good_err ts e.
Proof.
  induction fuel as [|fuel IH]; intros ts s Hts Hf Hb; [lia|].
  cbn [from_str1_fuel qparse].
  assert (Hrec : rec_ok (length (untoks ts)) (from_str1_fuel fuel p) (qparse fuel)).
  { intros ct Hwf Hlen. apply IH; [apply tokens_untoks; exact Hwf|lia|lia]. }
  assert (Hwf : Forall wf_token ts) by (subst ts; apply tokens_wf).
  rewrite run_tokens, Hts.
  pose proof (fold_ok p (length (untoks ts)) _ _ Hb Hrec ts 0 0 qinit Inv_init ltac:(lia) Hwf ltac:(lia)) as HF.
  change (absst qinit) with pinit in HF.
  rewrite N.add_0_l, Nat.add_0_l in HF.
  destruct (rfold (qstep (qparse fuel)) qinit ts) as [q|e]; cbn [rbind].
  - destruct HF as [[st [H1 H2]] HI]. rewrite H1. cbn [bind].
    rewrite <- finish_clean, H2.
    assert (Hn : nl ts <= N.of_nat (length (untoks ts))).
    { rewrite <- count_newlines_untoks. apply count_newlines_le. }
    destruct (finish_ok p _ _ _ Hb Hrec _ _ q HI (Nat.le_refl _) Hn) as [H3 H4].
    split; [exact H3|exact H4].
  - destruct HF as [H1 [H2 H3]]. rewrite H1. cbn [bind inj]. split; [reflexivity|].
    intros e' He; injection He as <-. split; [lia|exact H3].
Qed.

(** [from_str1] as a function of the tokens *)
Definition qparse_top (ts : list token) : res document1 := qparse (S (length (untoks ts))) ts.

(** Fuel does not matter once it exceeds the token text *)
Lemma rmap_ext {A B} (f g : A -> res B) l : (forall x, In x l -> f x = g x) -> rmap f l = rmap g l.
Proof.
  induction l as [|x l IH]; intros H; cbn [rmap]; [reflexivity|].
  rewrite (H x) by (left; reflexivity). rewrite IH by (intros; apply H; right; assumption). reflexivity.
Qed.

(** contents of the buffer are shorter than the tokens consumed *)
Definition buf_short (k : nat) (b : qbuf) : Prop :=
  match b with
  | QText _ => True
  | QScope ct _ _ => (length ct < k)%nat
  | QCommand _ sc _ _ => Forall (fun x => (length (fst (fst x)) < k)%nat) sc
  end.

Lemma buf_short_mono k k' b : (k <= k')%nat -> buf_short k b -> buf_short k' b.
Proof.
  destruct b; cbn; intros Hk H; try lia; auto.
  eapply Forall_impl; [|exact H]. cbn. intros; lia.
Qed.

Section FuelEq.
  Context (K : nat) (r1 r2 : list token -> res document1).
  Context (Hr : forall ct, (length ct < K)%nat -> r1 ct = r2 ct).

  Lemma qflush_eq b bl cs : buf_short K b -> qflush r1 b bl cs = qflush r2 b bl cs.
  Proof.
    destruct b as [ct v d|lab sc d tr|c]; cbn [buf_short qflush]; intros H; [| |reflexivity].
    - now rewrite (Hr ct H).
    - destruct (d =? 0); [|reflexivity].
      rewrite (rmap_ext _ (fun x => match x with (content, v, prec) =>
              let! inner := r2 content in ROk (prec, mkScope1 inner v) end) sc); [reflexivity|].
      intros [[ct v] pr] Hin. rewrite Forall_forall in H. specialize (H _ Hin). cbn in H. now rewrite (Hr ct H).
  Qed.
  Lemma qflush_bang_eq q b' : buf_short K (q_buf q) -> qflush_bang r1 q b' = qflush_bang r2 q b'.
  Proof. intros H. unfold qflush_bang. now rewrite qflush_eq. Qed.

  Lemma qstep_eq q t : buf_short K (q_buf q) -> qstep r1 q t = qstep r2 q t.
  Proof.
    intros H. unfold qstep, qmain. cbn [q_buf q_chunks q_line q_bline].
    destruct (q_buf q) as [ct v d|lab sc d tr|c] eqn:Eb.
    - rewrite (qflush_bang_eq (mkQ (q_chunks q) (q_line q + nl [t]) (q_bline q) (QScope ct v 0))) by exact H.
      reflexivity.
    - rewrite !(qflush_bang_eq (mkQ (q_chunks q) (q_line q + nl [t]) (q_bline q) (QCommand lab sc d tr))) by exact H.
      reflexivity.
    - rewrite !(qflush_bang_eq (mkQ (q_chunks q) (q_line q + nl [t]) (q_bline q) (QText c))) by exact H.
      reflexivity.
  Qed.

  Lemma qfinish_eq q : buf_short K (q_buf q) -> qfinish r1 q = qfinish r2 q.
  Proof. intros H. unfold qfinish. now rewrite qflush_bang_eq. Qed.
End FuelEq.

Lemma qflush_bang_buf rec q b' q' : qflush_bang rec q b' = ROk q' -> q_buf q' = b' /\ q_line q' = q_line q.
Proof. unfold qflush_bang. destruct (qflush _ _ _ _); [|discriminate]. intros H; injection H as <-. split; reflexivity. Qed.

Lemma qstart_short k q c q' : qstart q c = ROk q' -> buf_short k (q_buf q').
Proof. unfold qstart. intros H; injection H as <-. destruct (is_ascii_alphabetic c); cbn; auto. Qed.

Lemma qstep_short rec k q t q' :
  buf_short k (q_buf q) -> qstep rec q t = ROk q' -> buf_short (S k) (q_buf q').
Proof.
  intros H. unfold qstep, qmain. cbn [q_buf q_chunks q_line q_bline].
  assert (Hm : forall b, buf_short k b -> buf_short (S k) b) by (intros; eapply buf_short_mono; [|eassumption]; lia).
  destruct (q_buf q) as [ct v d|lab sc d tr|c] eqn:Eb; cbn [buf_short] in H.
  - assert (Hl : (length (ct ++ [t]) < S k)%nat) by (rewrite app_length; cbn; lia).
    destruct (is_open_tok v t); [intros E; injection E as <-; exact Hl|].
    destruct (is_close_tok v t); [|intros E; injection E as <-; exact Hl].
    destruct (d - 1 =? 0); [|intros E; injection E as <-; exact Hl].
    intros E; apply qflush_bang_buf in E. destruct E as [-> _]. exact I.
  - assert (H' : Forall (fun x : list token * sv1 * list N => (length (fst (fst x)) < S k)%nat) sc).
    { eapply Forall_impl; [|exact H]. cbn; intros; lia. }
    destruct (d =? 0).
    + destruct (is_opening (tchar t)).
      { intros E; injection E as <-. cbn. apply Forall_app; split; [exact H'|]. constructor; [cbn; lia|constructor]. }
      destruct (is_whitespace (tchar t)); [intros E; injection E as <-; exact H'|].
      destruct (is_esc t).
      { destruct (qflush_bang _ _ _); [|discriminate]. cbn [rbind]. apply qstart_short. }
      destruct (negb (is_empty tr)).
      { destruct (qflush_bang _ _ _) as [q1|] eqn:E1; [|discriminate]. cbn [rbind]. intros E; injection E as <-.
        apply qflush_bang_buf in E1. destruct E1 as [E1 _]. cbn. rewrite E1. exact I. }
      destruct (is_closing (tchar t)); [discriminate|].
      destruct (negb (is_empty sc)).
      { intros E; apply qflush_bang_buf in E. destruct E as [-> _]. exact I. }
      intros E; injection E as <-. exact H'.
    + destruct (is_open_tok (last_variant sc) t); [intros E; injection E as <-; exact H'|].
      destruct (is_close_tok (last_variant sc) t); intros E; injection E as <-; [exact H'|].
      cbn. unfold push_last. clear H' Eb.
      induction sc as [|x sc IH]; cbn [modify_last]; [constructor|].
      inversion H as [|? ? Hx Hsc]; subst.
      destruct sc as [|y sc].
      * constructor; [|constructor]. destruct x as [[ct v] pr]. cbn in *. rewrite app_length; cbn; lia.
      * constructor; [cbn; lia|]. apply IH. exact Hsc.
  - destruct (is_esc t).
    { destruct (qflush_bang _ _ _); [|discriminate]. cbn [rbind]. apply qstart_short. }
    destruct (is_opening (tchar t)).
    { intros E; apply qflush_bang_buf in E. destruct E as [-> _]. cbn. lia. }
    intros E; injection E as <-. exact I.
Qed.

Lemma rfold_eq r1 r2 K ts : (forall ct, (length ct < K)%nat -> r1 ct = r2 ct) ->
  forall k q, buf_short k (q_buf q) -> (k + length ts <= K)%nat ->
  rfold (qstep r1) q ts = rfold (qstep r2) q ts
  /\ forall q', rfold (qstep r1) q ts = ROk q' -> buf_short (k + length ts) (q_buf q').
Proof.
  intros Hr. induction ts as [|t ts IH]; intros k q Hq Hk; cbn [rfold length].
  { split; [reflexivity|]. intros q' E; injection E as <-. now rewrite Nat.add_0_r. }
  cbn [length] in Hk.
  rewrite (qstep_eq K r1 r2 Hr q t) by (eapply buf_short_mono; [|exact Hq]; lia).
  destruct (qstep r2 q t) as [q1|e] eqn:E1; cbn [rbind]; [|split; [reflexivity|discriminate]].
  assert (H1 : buf_short (S k) (q_buf q1)) by (eapply qstep_short; eassumption).
  destruct (IH (S k) q1 H1 ltac:(lia)) as [H2 H3]. split; [exact H2|].
  rewrite Nat.add_succ_r. exact H3.
Qed.

Lemma qparse_fuel f1 : forall f2 ts, (length ts < f1)%nat -> (length ts < f2)%nat -> qparse f1 ts = qparse f2 ts.
Proof.
  induction f1 as [|f1 IH]; intros f2 ts H1 H2; [lia|]. destruct f2 as [|f2]; [lia|].
  cbn [qparse].
  assert (Hr : forall ct, (length ct < length ts)%nat -> qparse f1 ct = qparse f2 ct) by (intros; apply IH; lia).
  destruct (rfold_eq _ _ (length ts) ts Hr 0 qinit I ltac:(lia)) as [H3 H4].
  rewrite H3 in *. destruct (rfold (qstep (qparse f2)) qinit ts) as [q|e]; cbn [rbind]; [|reflexivity].
  apply (qfinish_eq (length ts)); [exact Hr|]. apply (H4 q eq_refl).
Qed.

Definition parse_toks (ts : list token) : res document1 := qparse (S (length ts)) ts.

Lemma qparse_parse_toks f ts : (length ts < f)%nat -> qparse f ts = parse_toks ts.
Proof. intros H. apply qparse_fuel; lia. Qed.

Lemma parse_toks_eq ts :
  parse_toks ts = let! q := rfold (qstep parse_toks) qinit ts in qfinish parse_toks q.
Proof.
  unfold parse_toks at 1. cbn [qparse].
  assert (Hr : forall ct, (length ct < length ts)%nat -> qparse (length ts) ct = parse_toks ct).
  { intros; apply qparse_parse_toks; assumption. }
  destruct (rfold_eq _ _ (length ts) ts Hr 0 qinit I ltac:(lia)) as [H3 H4].
  rewrite H3 in *. destruct (rfold (qstep parse_toks) qinit ts) as [q|e]; cbn [rbind]; [|reflexivity].
  apply (qfinish_eq (length ts)); [exact Hr|]. apply (H4 q eq_refl).
Qed.

(** [from_str1] is [parse_toks] of the tokens, for every source under 2^32-1 characters *)
Lemma from_str1_toks p s : N.of_nat (length s) + 1 < two32 ->
  from_str1 p s = inj (parse_toks (tokens s))
  /\ forall e, parse_toks (tokens s) = RErr e -> good_err (tokens s) e.
Proof.
  intros Hb. unfold from_str1. pose proof (tokens_length s) as Hl.
  pose proof (length_untoks_le (tokens s)) as Hl2.
  destruct (from_str1_fuel_ok p (S (length s)) (tokens s) s eq_refl ltac:(lia) ltac:(lia)) as [H1 H2].
  rewrite (qparse_parse_toks (S (length s))) in * by lia. split; assumption.
Qed.
