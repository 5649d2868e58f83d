(** * Pure1: a token-level, panic-free presentation of the stage-1 parser, and the proof
      that [from_str1] (Parse1.v, the model of the code) computes it.

    This is proof machinery: property statements never mention it. *)
From Verif Require Import Base Ast1 Parse1 Spec1 Tok.

Inductive res (A : Type) := ROk (a : A) | RErr (e : error).
Arguments ROk {A}. Arguments RErr {A}.
Definition rbind {A B} (x : res A) (f : A -> res B) : res B :=
  match x with ROk a => f a | RErr e => RErr e end.
Notation "'let!' x ':=' e 'in' k" := (rbind e (fun x => k))
  (at level 200, x pattern, e at level 100, k at level 200, right associativity).
Definition inj {A} (x : res A) : outcome error A := match x with ROk a => Ok a | RErr e => Err e end.

Section RMap.
  Context {A B : Type} (f : A -> res B).
  Fixpoint rmap (l : list A) : res (list B) :=
    match l with
    | [] => ROk []
    | x :: l' => let! y := f x in let! ys := rmap l' in ROk (y :: ys)
    end.
End RMap.
Section RFold.
  Context {A S : Type} (f : S -> A -> res S).
  Fixpoint rfold (s : S) (l : list A) : res S :=
    match l with
    | [] => ROk s
    | x :: l' => let! s' := f s x in rfold s' l'
    end.
End RFold.

Inductive qbuf :=
| QScope (content : list token) (v : sv1) (depth : N)
| QCommand (label : str) (scopes : list (list token * sv1 * str)) (depth : N) (trailing : str)
| QText (content : str).

Record qst := mkQ { q_chunks : list chunk1; q_line : N; q_bline : N; q_buf : qbuf }.
Definition qinit : qst := mkQ [] 1 1 (QText []).

(** variant of an opening / closing bracket; only used on brackets *)
Definition ov (c : char) : sv1 :=
  if c =? c_lcurly then Curly1 else if c =? c_lsquare then Square1 else Round1.
Definition cv (c : char) : sv1 :=
  if c =? c_rcurly then Curly1 else if c =? c_rsquare then Square1 else Round1.

Definition last_variant (scopes : list (list token * sv1 * str)) : sv1 :=
  match last_opt scopes with Some (_, v, _) => v | None => Curly1 end.

Definition push_last (t : token) (scopes : list (list token * sv1 * str)) :=
  modify_last (fun x => match x with (content, v, prec) => (content ++ [t], v, prec) end) scopes.

Section Machine.
  Context (rec : list token -> res document1).

  Definition qflush (b : qbuf) (bl : N) (chunks : list chunk1) : res (list chunk1) :=
    match b with
    | QText content =>
        ROk (if is_empty content then chunks else chunks ++ [mkChunk1 bl (Text1 content)])
    | QScope content v d =>
        if d =? 0 then
          let! inner := rec content in
          ROk (chunks ++ [mkChunk1 bl (Scope1 (mkScope1 inner Curly1))])
        else RErr (mkError 1 (UnclosedScope v))
    | QCommand label scopes d _ =>
        if d =? 0 then
          let! args := rmap (fun x => match x with (content, v, prec) =>
                               let! inner := rec content in ROk (prec, mkScope1 inner v) end) scopes in
          ROk (chunks ++ [mkChunk1 bl (Command1 (mkCommand1 label args))])
        else RErr (mkError 1 (UnclosedArgument (last_variant scopes)))
    end.

  Definition qflush_bang (q : qst) (b' : qbuf) : res qst :=
    match qflush (q_buf q) (q_bline q) (q_chunks q) with
    | ROk cs => ROk (mkQ cs (q_line q) (q_line q) b')
    | RErr e => RErr (mkError (err_line e + (q_bline q - 1)) (err_type e))
    end.

  Definition qtrail (cs : list chunk1) (l : N) (trailing : str) : list chunk1 :=
    if is_empty trailing then cs else cs ++ [mkChunk1 l (Text1 trailing)].

  (** after a flush: begin the command whose first character is [c] *)
  Definition qstart (q : qst) (c : char) : res qst :=
    ROk (if is_ascii_alphabetic c
         then mkQ (q_chunks q) (q_line q) (q_line q) (QCommand [c] [] 0 [])
         else mkQ (q_chunks q ++ [mkChunk1 (q_line q) (Command1 (mkCommand1 [c] []))])
                  (q_line q) (q_line q) (QText [])).

  Definition qmain (q : qst) (t : token) : res qst :=
    let c := tchar t in
    let set b := mkQ (q_chunks q) (q_line q) (q_bline q) b in
    match q_buf q with
    | QText content =>
        if is_esc t then let! q := qflush_bang q (QText []) in qstart q c
        else if is_opening c then qflush_bang q (QScope [] (ov c) 1)
        else ROk (set (QText (content ++ [c])))
    | QScope content v d =>
        if is_open_tok v t then ROk (set (QScope (content ++ [t]) v (d + 1)))
        else if is_close_tok v t then
          if d - 1 =? 0
          then qflush_bang (set (QScope content v 0)) (QText [])
          else ROk (set (QScope (content ++ [t]) v (d - 1)))
        else ROk (set (QScope (content ++ [t]) v d))
    | QCommand label scopes d trailing =>
        if d =? 0 then
          if is_opening c then
            ROk (set (QCommand label (scopes ++ [([], ov c, trailing)]) 1 []))
          else if is_whitespace c then
            ROk (set (QCommand label scopes 0 (trailing ++ [c])))
          else if is_esc t then
            let! q := qflush_bang q (QText []) in
            qstart (mkQ (qtrail (q_chunks q) (q_line q - count_newlines trailing) trailing)
                        (q_line q) (q_line q) (QText [])) c
          else if negb (is_empty trailing) then
            let! q := qflush_bang q (QText (trailing ++ [c])) in
            ROk (mkQ (q_chunks q) (q_line q) (q_line q - count_newlines trailing) (q_buf q))
          else if is_closing c then RErr (mkError (q_line q) (UnexpectedClosing (cv c)))
          else if negb (is_empty scopes) then qflush_bang q (QText [c])
          else ROk (set (QCommand (label ++ [c]) scopes 0 trailing))
        else
          if is_open_tok (last_variant scopes) t
          then ROk (set (QCommand label scopes (d + 1) trailing))
          else if is_close_tok (last_variant scopes) t
          then ROk (set (QCommand label scopes (d - 1) trailing))
          else ROk (set (QCommand label (push_last t scopes) d trailing))
    end.

  Definition qstep (q : qst) (t : token) : res qst :=
    qmain (mkQ (q_chunks q) (q_line q + nl [t]) (q_bline q) (q_buf q)) t.

  Definition qfinish (q : qst) : res document1 :=
    let! q' := qflush_bang q (QText []) in
    match q_buf q with
    | QCommand _ _ _ trailing => ROk (qtrail (q_chunks q') (q_line q') trailing)
    | _ => ROk (q_chunks q')
    end.
End Machine.

Fixpoint qparse (fuel : nat) (ts : list token) : res document1 :=
  match fuel with
  | O => RErr (mkError 0 NoEnvironmentLabel)   (* never reached: see [qparse_fuel] *)
  | S fuel =>
      let! q := rfold (qstep (qparse fuel)) qinit ts in
      qfinish (qparse fuel) q
  end.

(** ** Step 1: the character loop is a loop over tokens *)

Definition tokstep (p : profile) (rec : str -> outcome error document1) (st : pstate) (t : token)
  : outcome error pstate :=
  let* l := (if tchar t =? c_newline then add32 p (ps_line st) 1 else Ok (ps_line st)) in
  step_main p rec (set_line (set_comment (set_escaped st (is_esc t)) false) l) (tchar t).

(** equality up to the two lexical flags *)
Definition core (st : pstate) : list chunk1 * N * N * buffer :=
  (ps_chunks st, ps_line st, ps_bline st, ps_buf st).
Definition with_flags (e m : bool) (st : pstate) : pstate := set_comment (set_escaped st e) m.

Definition omap {E A B} (f : A -> B) (x : outcome E A) : outcome E B := bind x (fun a => Ok (f a)).

Lemma bind_omap {E A B C} (f : A -> B) (x : outcome E A) (k : B -> outcome E C) :
  bind (omap f x) k = bind x (fun a => k (f a)).
Proof. destruct x; reflexivity. Qed.
Lemma omap_ext {E A B} (f g : A -> B) (x : outcome E A) :
  (forall a, x = Ok a -> f a = g a) -> omap f x = omap g x.
Proof. destruct x; cbn; intros H; try reflexivity. now rewrite H. Qed.

Section Lex.
  Context (p : profile) (rec : str -> outcome error document1).

  Lemma flush_bang_flags e m st :
    flush_bang p rec (with_flags e m st) = omap (with_flags e m) (flush_bang p rec st).
  Proof.
    unfold flush_bang, omap, with_flags; destruct st; cbn.
    destruct (flush rec ps_buf ps_bline ps_chunks) as [a|er| |]; cbn; try reflexivity.
    destruct (sub32 p ps_bline 1); cbn; try reflexivity.
    destruct (add32 p (err_line er) a); reflexivity.
  Qed.

  Lemma flush_bang_set_buf st b :
    forall m e st', flush_bang p rec st = Ok st' -> with_flags e m (set_buf st' b) = set_buf (with_flags e m st') b.
  Proof. reflexivity. Qed.

  Lemma finish_flags e m st : finish p rec (with_flags e m st) = finish p rec st.
  Proof.
    unfold finish.
    assert (H : ps_buf (with_flags e m st) = ps_buf st) by reflexivity. rewrite H.
    rewrite flush_bang_flags.
    destruct (ps_buf st) as [ct v d|lab sc d tr|ct].
    1,3: rewrite bind_omap; destruct (flush_bang p rec st); reflexivity.
    destruct (negb (is_empty tr)).
    - rewrite bind_omap. destruct (flush_bang p rec st) as [a| | |]; cbn [bind]; try reflexivity.
      change (set_buf (with_flags e m a) (buffer_push_str buffer_text tr))
        with (with_flags e m (set_buf a (buffer_push_str buffer_text tr))).
      rewrite flush_bang_flags, bind_omap.
      destruct (flush_bang p rec (set_buf a (buffer_push_str buffer_text tr))); reflexivity.
    - rewrite bind_omap; destruct (flush_bang p rec st); reflexivity.
  Qed.

  Lemma start_command_flags e m st c :
    start_command p rec (with_flags e m st) c = omap (with_flags e m) (start_command p rec st c).
  Proof.
    unfold start_command.
    change (set_buf (with_flags e m st) (buffer_push buffer_command c))
      with (with_flags e m (set_buf st (buffer_push buffer_command c))).
    destruct (negb (is_ascii_alphabetic c)); [|reflexivity].
    rewrite flush_bang_flags, bind_omap.
    destruct (flush_bang p rec (set_buf st (buffer_push buffer_command c))); reflexivity.
  Qed.

  Lemma step_main_flags e m m' st c :
    step_main p rec (with_flags e m st) c = omap (with_flags e m) (step_main p rec (with_flags e m' st) c).
  Proof.
    unfold step_main.
    change (ps_escaped (with_flags e m st)) with e. change (ps_escaped (with_flags e m' st)) with e.
    change (ps_buf (with_flags e m st)) with (ps_buf st). change (ps_buf (with_flags e m' st)) with (ps_buf st).
    change (ps_line (with_flags e m st)) with (ps_line st). change (ps_line (with_flags e m' st)) with (ps_line st).
    rewrite !flush_bang_flags.
    destruct (ps_buf st) as [ct v d|lab sc d tr|ct] eqn:Eb.
    - destruct (negb (d =? 0) && e); [reflexivity|].
      destruct (open1 v =? c); [destruct (add32 p d 1); reflexivity|].
      destruct (close1 v =? c); [|reflexivity].
      destruct (sub32 p d 1) as [d'| | |]; cbn [bind omap]; try reflexivity.
      destruct (d' =? 0); [|reflexivity].
      change (set_buf (with_flags e m st) (BScope ct v d')) with (with_flags e m (set_buf st (BScope ct v d'))).
      change (set_buf (with_flags e m' st) (BScope ct v d')) with (with_flags e m' (set_buf st (BScope ct v d'))).
      rewrite !flush_bang_flags, !bind_omap.
      destruct (flush_bang p rec _); reflexivity.
    - destruct ((d =? 0) && is_opening c).
      { destruct (@from_opening error c); cbn; try reflexivity. }
      destruct ((d =? 0) && is_whitespace c); [reflexivity|].
      destruct ((d =? 0) && e).
      { rewrite !bind_omap. destruct (flush_bang p rec st) as [st1| | |]; cbn [bind omap]; try reflexivity.
        destruct (negb (is_empty tr)); cbn [bind].
        - change (ps_bline (set_buf (with_flags e m st1) (buffer_push_str buffer_text tr))) with (ps_bline st1).
          change (ps_bline (set_buf (with_flags e m' st1) (buffer_push_str buffer_text tr))) with (ps_bline st1).
          destruct (sub32 p (ps_bline st1) (as_u32 (count_newlines tr))) as [l| | |]; cbn [bind omap]; try reflexivity.
          change (ps_buf (set_buf (with_flags e m st1) (buffer_push_str buffer_text tr))) with (BText tr).
          change (ps_buf (set_buf (with_flags e m' st1) (buffer_push_str buffer_text tr))) with (BText tr).
          change (ps_chunks (set_buf (with_flags e m st1) (buffer_push_str buffer_text tr))) with (ps_chunks st1).
          change (ps_chunks (set_buf (with_flags e m' st1) (buffer_push_str buffer_text tr))) with (ps_chunks st1).
          destruct (flush rec (BText tr) l (ps_chunks st1)) as [cs| | |]; cbn [bind omap]; try reflexivity.
          match goal with |- start_command p rec ?A c = omap _ (start_command p rec ?B c) =>
            set (S1 := set_bline (set_chunks (set_buf st1 (buffer_push_str buffer_text tr)) cs) (ps_line st1));
            change A with (with_flags e m S1); change B with (with_flags e m' S1) end.
          rewrite !start_command_flags. destruct (start_command p rec S1 c); reflexivity.
        - match goal with |- start_command p rec ?A c = omap _ (start_command p rec ?B c) =>
            set (S1 := set_bline st1 (ps_line st1));
            change A with (with_flags e m S1); change B with (with_flags e m' S1) end.
          rewrite !start_command_flags. destruct (start_command p rec S1 c); reflexivity. }
      destruct (negb (d =? 0) && e); [reflexivity|].
      destruct ((d =? 0) && negb (is_empty tr)).
      { rewrite !bind_omap. destruct (flush_bang p rec st) as [st1| | |]; cbn [bind omap]; try reflexivity.
        match goal with |- bind ?X _ = omap _ (bind ?Y _) => change Y with X; destruct X end; reflexivity. }
      match goal with |- bind ?X _ = _ => destruct X as [[b1 b2]| | |] end; cbn [bind omap fst snd]; try reflexivity.
      destruct b1; [destruct (add32 p d 1); reflexivity|].
      destruct b2; [destruct (sub32 p d 1); reflexivity|].
      destruct ((d =? 0) && is_closing c); [destruct (@from_closing error c); reflexivity|].
      destruct (@no_scope error (BCommand lab sc d tr)) as [ns| | |]; cbn [bind omap]; try reflexivity.
      destruct ((d =? 0) && negb ns); [|reflexivity].
      rewrite !bind_omap. destruct (flush_bang p rec st); reflexivity.
    - destruct e.
      { rewrite !bind_omap. destruct (flush_bang p rec st) as [st1| | |]; cbn [bind omap]; try reflexivity.
        rewrite !start_command_flags. destruct (start_command p rec st1 c); reflexivity. }
      destruct (is_opening c); [|reflexivity].
      rewrite !bind_omap. destruct (flush_bang p rec st) as [st1| | |]; cbn [bind omap]; try reflexivity.
      destruct (@from_opening error c); reflexivity.
  Qed.

  Definition clean (st : pstate) : pstate := with_flags false false st.

  Lemma tokstep_clean st t : tokstep p rec (clean st) t = tokstep p rec st t.
  Proof. reflexivity. Qed.

  Lemma foldM_tok_clean ts st :
    omap clean (foldM (tokstep p rec) (clean st) ts) = omap clean (foldM (tokstep p rec) st ts).
  Proof. destruct ts as [|t ts]; [reflexivity|]. cbn [foldM]. now rewrite tokstep_clean. Qed.

  Lemma step_tok e m st c (t : token) :
    tchar t = c -> is_esc t = e ->
    (let* l := (if c =? c_newline then add32 p (ps_line st) 1 else Ok (ps_line st)) in
     let* st := step_main p rec (set_line (with_flags e m st) l) c in
     Ok (set_escaped st false))
    = omap (fun st => with_flags false m st) (tokstep p rec st t).
  Proof.
    intros <- <-. unfold tokstep, omap.
    destruct (if tchar t =? c_newline then _ else _) as [l| | |]; cbn [bind]; try reflexivity.
    change (set_line (with_flags (is_esc t) m st) l) with (with_flags (is_esc t) m (set_line st l)).
    change (set_line (set_comment (set_escaped st (is_esc t)) false) l) with (with_flags (is_esc t) false (set_line st l)).
    rewrite (step_main_flags (is_esc t) m false).
    destruct (step_main p rec (with_flags (is_esc t) false (set_line st l)) (tchar t)); reflexivity.
  Qed.

  Lemma lex_fold s : forall st e m,
    omap clean (foldM (step p rec) (with_flags e m st) s)
    = omap clean (foldM (tokstep p rec) st (lex e m s)).
  Proof.
    induction s as [|c s IH]; intros st e m; [reflexivity|].
    cbn [foldM lex]. unfold step at 1.
    change (ps_escaped (with_flags e m st)) with e. change (ps_comment (with_flags e m st)) with m.
    change (ps_line (with_flags e m st)) with (ps_line st).
    destruct (c =? c_newline) eqn:E1.
    { change (set_comment (with_flags e m st) false) with (with_flags e false st).
      set (t := if e then Esc c else Plain c).
      assert (Ht : tchar t = c /\ is_esc t = e) by (unfold t; destruct e; auto). destruct Ht as [Ht1 Ht2].
      pose proof (step_tok e false st c t Ht1 Ht2) as H. rewrite E1 in H. rewrite H.
      cbn [foldM]. unfold omap at 2. destruct (tokstep p rec st t) as [st1| | |]; cbn [bind]; try reflexivity.
      apply IH. }
    destruct ((c =? c_percent) && negb e) eqn:E2.
    { cbn [bind]. change (set_comment (with_flags e m st) true) with (with_flags e true st). apply IH. }
    destruct ((c =? c_bslash) && negb e) eqn:E3.
    { cbn [bind]. change (set_escaped (with_flags e m st) true) with (with_flags true m st). apply IH. }
    destruct m. { cbn [bind]. apply IH. }
    set (t := if e then Esc c else Plain c).
    assert (Ht : tchar t = c /\ is_esc t = e) by (unfold t; destruct e; auto). destruct Ht as [Ht1 Ht2].
    pose proof (step_tok e false st c t Ht1 Ht2) as H. rewrite E1 in H. cbn [bind] in H.
    change (set_line (with_flags e false st) (ps_line st)) with (with_flags e false st) in H.
    rewrite H.
    cbn [foldM]. unfold omap at 2. destruct (tokstep p rec st t) as [st1| | |]; cbn [bind]; try reflexivity.
    apply IH.
  Qed.

  Lemma finish_clean st : finish p rec (clean st) = finish p rec st.
  Proof. apply finish_flags. Qed.

  Lemma run_tokens s :
    (let* st := foldM (step p rec) pinit s in finish p rec st)
    = (let* st := foldM (tokstep p rec) pinit (tokens s) in finish p rec st).
  Proof.
    assert (H : forall x : outcome error pstate,
               bind x (finish p rec) = bind (omap clean x) (finish p rec)).
    { intros x. rewrite bind_omap. destruct x; cbn [bind]; try reflexivity. symmetry; apply finish_clean. }
    etransitivity; [apply H|]. symmetry. etransitivity; [apply H|].
    f_equal. unfold tokens. symmetry. exact (lex_fold s pinit false false).
  Qed.
End Lex.
