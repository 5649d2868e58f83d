(** * Prefix1: what stage 1 reads of a beginning of a source, and of the whole source *)
From Verif Require Import Base Ast1 Parse1 SpecPrefix Conv2.
From Verif Require Depth1.
Local Open Scope N_scope.

Section Prefix.
  Context (p : profile) (rec : str -> outcome error document1).
  Notation entry := (str * sv1 * str)%type.
  Definition arg_of (x : entry) : outcome error (str * scope1) :=
    match x with (content, variant, preceding) => let* inner := rec content in Ok (preceding, mkScope1 inner variant) end.
  (** the chunks [r] that come after those of a state, as far as its buffer tells *)
  Definition fut (bline : N) (b : buffer) (r : list chunk1) : Prop :=
    match b with
    | BText [] => True
    | BText content => exists u r', r = mkChunk1 bline (Text1 (content ++ u)) :: r'
    | BScope _ _ _ => True
    | BCommand lab scopes depth tr => exists lab' scopes' args' r',
        r = mkChunk1 bline (Command1 (mkCommand1 lab' args')) :: r' /\ mapM arg_of scopes' = Ok args' /\
        (if depth =? 0 then
           match tr with
           | [] => (lab' = lab /\ exists m, scopes' = scopes ++ m) \/ (scopes = [] /\ exists u, lab' = lab ++ u)
           | _ => lab' = lab /\ ((scopes' = scopes /\ exists l'' u r'', r' = mkChunk1 l'' (Text1 (tr ++ u)) :: r'') \/
                                 exists c v u m, scopes' = scopes ++ (c, v, tr ++ u) :: m)
           end
         else lab' = lab /\ exists init content v prec c' m, scopes = init ++ [(content, v, prec)] /\ scopes' = init ++ (c', v, prec) :: m)
    end.
  Definition Fut (st : pstate) (d : list chunk1) : Prop := exists r, d = ps_chunks st ++ r /\ fut (ps_bline st) (ps_buf st) r.

  Lemma flush_grows st st' : flush_bang p rec st = Ok st' ->
    exists x, st' = mkP (ps_chunks st ++ x) (ps_line st) (ps_escaped st) (ps_comment st) (ps_line st) (ps_buf st) /\
    match ps_buf st with
    | BText [] => x = []
    | BText s => x = [mkChunk1 (ps_bline st) (Text1 s)]
    | BScope _ _ _ => True
    | BCommand lab scopes depth tr => depth = 0 /\ exists args, mapM arg_of scopes = Ok args /\ x = [mkChunk1 (ps_bline st) (Command1 (mkCommand1 lab args))]
    end.
  Proof.
    unfold flush_bang. destruct (flush rec (ps_buf st) (ps_bline st) (ps_chunks st)) as [cs|e| |] eqn:F; cbn [map_err bind]; try discriminate.
    2:{ destruct (sub32 p (ps_bline st) 1); cbn [bind]; try discriminate. destruct (add32 p (err_line e) a); discriminate. }
    intros H. injection H as <-. unfold flush in F. destruct st as [chs l e c bl b]; cbn [ps_buf ps_bline ps_chunks ps_line ps_escaped ps_comment] in *.
    unfold set_bline, set_chunks. cbn [ps_buf ps_bline ps_chunks ps_line ps_escaped ps_comment].
    destruct b as [content v depth|lab scopes depth tr|content].
    - destruct (negb (depth =? 0)); [discriminate|]. destruct (rec content) as [i| | |]; cbn [bind] in F; try discriminate. injection F as <-. eexists. split; [reflexivity|exact I].
    - destruct (negb (depth =? 0)) eqn:D; [destruct (last_opt scopes) as [[[? ?] ?]|]; discriminate|].
      apply negb_false_iff, N.eqb_eq in D. fold (arg_of) in F.
      change (mapM (fun x => match x with (content, variant, preceding) => let* inner := rec content in Ok (preceding, mkScope1 inner variant) end) scopes) with (mapM arg_of scopes) in F.
      destruct (mapM arg_of scopes) as [a| | |] eqn:A; cbn [bind] in F; try discriminate. injection F as <-. eexists. split; [reflexivity|]. split; [exact D|]. exists a. split; reflexivity.
    - destruct content as [|a content]; cbn [is_empty negb] in F; injection F as <-; [exists []; now rewrite app_nil_r|]. eexists. split; reflexivity.
  Qed.
  (** what is flushed is what was to come *)
  Lemma flush_fut st st' x r : flush_bang p rec st = Ok st' -> ps_chunks st' = ps_chunks st ++ x ->
    (match ps_buf st with BCommand _ _ _ (_ :: _) => False | _ => True end) -> fut (ps_bline st) (ps_buf st) (x ++ r).
  Proof.
    intros F. destruct (flush_grows st st' F) as (y & -> & Y). cbn [ps_chunks]. intros E T. apply app_inv_head in E. subst y.
    destruct (ps_buf st) as [content v depth|lab scopes depth tr|content]; cbn [fut].
    - exact I.
    - destruct tr; [|contradiction]. destruct Y as (-> & args & A & ->). exists lab, scopes, args, r. cbn [app]. repeat split; auto.
      change (0 =? 0) with true. cbv iota. left. split; [reflexivity|]. exists []. now rewrite app_nil_r.
    - destruct content as [|a content]; [exact I|]. subst x. exists [], r. rewrite app_nil_r. reflexivity.
  Qed.
  Lemma start_grows st c st' : start_command p rec st c = Ok st' -> exists x, ps_chunks st' = ps_chunks st ++ x.
  Proof.
    unfold start_command. destruct (negb (is_ascii_alphabetic c)).
    - destruct (flush_bang p rec (set_buf st (buffer_push buffer_command c))) as [s1| | |] eqn:F; cbn [bind]; try discriminate.
      intros H. injection H as <-. destruct (flush_grows _ _ F) as (x & -> & _). exists x. reflexivity.
    - intros H. injection H as <-. exists []. cbn. now rewrite app_nil_r.
  Qed.
  Lemma modify_last_snoc {A} (f : A -> A) l x : modify_last f (l ++ [x]) = l ++ [f x].
  Proof. induction l as [|y l IH]; [reflexivity|]. cbn [app modify_last]. destruct (l ++ [x]) eqn:E; [now destruct l|]. now rewrite <- IH. Qed.
  Lemma inner_fut bl lab init x d d1 tr r : (d =? 0) = false ->
    fut bl (BCommand lab (init ++ [x]) d1 tr) r -> fut bl (BCommand lab (init ++ [x]) d tr) r.
  Proof.
    intros D (lab' & scopes' & args' & r' & -> & A & K). exists lab', scopes', args', r'. split; [reflexivity|]. split; [exact A|]. rewrite D.
    destruct x as [[content v] prec]. destruct (d1 =? 0); [|exact K].
    destruct tr.
    - destruct K as [(-> & m & ->)|(E & _)]; [|now destruct init]. split; [reflexivity|]. exists init, content, v, prec, content, m. rewrite <- app_assoc. auto.
    - destruct K as (-> & [(-> & _)|(c & w & u & m & ->)]); (split; [reflexivity|]).
      + exists init, content, v, prec, content, []. auto.
      + exists init, content, v, prec, content, ((c, w, (n :: tr) ++ u) :: m). rewrite <- app_assoc. auto.
  Qed.
  Lemma push_fut bl lab scopes d tr s r : (d =? 0) = false ->
    fut bl (buffer_push_str (BCommand lab scopes d tr) s) r -> fut bl (BCommand lab scopes d tr) r.
  Proof.
    intros D. cbn [buffer_push_str]. destruct (is_empty scopes) eqn:Es.
    - destruct scopes; [|discriminate]. intros (lab' & scopes' & args' & r' & -> & A & K). rewrite D in K.
      destruct K as (_ & init & c & v & pr & c' & m & E & _). now destruct init.
    - intros (lab' & scopes' & args' & r' & -> & A & K). exists lab', scopes', args', r'. split; [reflexivity|]. split; [exact A|]. rewrite D in *.
      destruct K as (-> & init & c & v & pr & c' & m & E & ->). split; [reflexivity|].
      destruct (exists_last (l := scopes)) as (i0 & [[c0 v0] p0] & ->); [now destruct scopes|].
      rewrite modify_last_snoc in E. apply app_inj_tail in E as [<- E]. injection E as _ <- <-. eauto 10.
  Qed.

  (** one step back *)
  Lemma step_main_fut st c st' d : step_main p rec st c = Ok st' -> Fut st' d -> Fut st d.
  Proof.
    destruct st as [chs l e cm bl b]. unfold step_main. cbn [ps_buf ps_escaped].
    (* a state whose buffer alone has changed *)
    assert (B : forall b' e', st' = mkP chs l e' cm bl b' -> (forall r, fut bl b' r -> fut bl b r) -> Fut st' d -> Fut (mkP chs l e cm bl b) d).
    { intros b' e' -> I (r & -> & F). exists r. split; [reflexivity|]. now apply I. }
    (* a state after a flush *)
    assert (G : forall s1 x, flush_bang p rec (mkP chs l e cm bl b) = Ok s1 -> ps_chunks st' = ps_chunks s1 ++ x ->
      (match b with BCommand _ _ _ (_ :: _) => False | _ => True end) -> Fut st' d -> Fut (mkP chs l e cm bl b) d).
    { intros s1 x F E T (r & -> & _). destruct (flush_grows _ _ F) as (y & -> & _). cbn [ps_chunks] in E. rewrite E, <- !app_assoc. exists (y ++ x ++ r). split; [reflexivity|].
      apply (flush_fut _ _ y (x ++ r) F); [reflexivity|exact T]. }
    destruct b as [content v depth|lab scopes depth tr|content].
    - (* scope: only more chunks *)
      intros H (r & -> & _). cut (exists x, ps_chunks st' = chs ++ x); [intros (x & ->); exists (x ++ r); rewrite <- app_assoc; now split|].
      assert (Z : exists x, chs = chs ++ x) by (exists []; now rewrite app_nil_r).
      destruct (negb (depth =? 0) && e); [injection H as <-; exact Z|].
      destruct (open1 v =? c).
      { destruct (add32 p depth 1); cbn [bind] in H; try discriminate. injection H as <-. exact Z. }
      destruct (close1 v =? c); [|injection H as <-; exact Z].
      destruct (sub32 p depth 1) as [d1| | |]; cbn [bind] in H; try discriminate.
      destruct (d1 =? 0); [|injection H as <-; exact Z].
      destruct (flush_bang p rec (set_buf (mkP chs l e cm bl (BScope content v depth)) (BScope content v d1))) as [s1| | |] eqn:F; cbn [bind] in H; try discriminate.
      injection H as <-. destruct (flush_grows _ _ F) as (x & -> & _). now exists x.
    - (* command *)
      destruct (depth =? 0) eqn:D; cbn [andb negb].
      + destruct (is_opening c).
        { destruct (from_opening c) as [v| | |]; cbn [bind]; try discriminate. cbn [buffer_push_scope bind]. intros H. injection H as <-. apply (B _ _ eq_refl).
          intros r (lab' & scopes' & args' & r' & -> & A & K). change (1 =? 0) with false in K. cbv iota in K. destruct K as (-> & init & cc & w & pr & c' & m & E & ->).
          apply app_inj_tail in E as [<- E]. injection E as <- <- <-. exists lab, (scopes ++ (c', v, tr) :: m), args', r'. split; [reflexivity|]. split; [exact A|]. rewrite D.
          destruct tr; [left; eauto|]. split; [reflexivity|]. right. exists c', v, [], m. now rewrite app_nil_r. }
        destruct (is_whitespace c).
        { intros H. injection H as <-. apply (B _ _ eq_refl). intros r (lab' & scopes' & args' & r' & -> & A & K). exists lab', scopes', args', r'. split; [reflexivity|]. split; [exact A|]. rewrite D in *.
          destruct (tr ++ [c]) as [|z t] eqn:Et; [now destruct tr|]. rewrite <- Et in K. clear G B. destruct K as (-> & K). destruct tr as [|z1 tr].
          - left. split; [reflexivity|]. destruct K as [(-> & _)|(cc & w & u & m & ->)]; [exists []; now rewrite app_nil_r|eauto].
          - split; [reflexivity|]. destruct K as [(-> & l'' & u & r'' & ->)|(cc & w & u & m & ->)].
            + left. split; [reflexivity|]. exists l'', (c :: u), r''. now rewrite <- app_assoc.
            + right. exists cc, w, (c :: u), m. now rewrite <- app_assoc. }
        destruct e.
        { destruct (flush_bang p rec (mkP chs l true cm bl (BCommand lab scopes depth tr))) as [s1| | |] eqn:F; cbn [bind]; try discriminate.
          destruct (flush_grows _ _ F) as (x & -> & Y). cbn [ps_buf ps_chunks ps_line ps_escaped ps_comment ps_bline] in *.
          destruct Y as (-> & args & A & ->). destruct tr as [|z tr]; cbn [is_empty negb].
          - cbn [bind]. intros H K. destruct (start_grows _ _ _ H) as (x & E). cbn in E. apply (G _ x eq_refl); auto.
          - unfold set_buf at 1. cbn [ps_bline]. destruct (sub32 p l (as_u32 (count_newlines (z :: tr)))) as [l0| | |]; cbn [bind]; try discriminate.
            unfold buffer_push_str, buffer_text. cbn [ps_buf flush set_buf app is_empty negb bind ps_chunks]. intros H (r & -> & _).
            destruct (start_grows _ _ _ H) as (x & E). cbn in E. rewrite E, <- !app_assoc. cbn [app]. eexists. split; [reflexivity|]. cbn [ps_bline ps_buf fut].
            exists lab, scopes, args, (mkChunk1 l0 (Text1 (z :: tr)) :: x ++ r). split; [reflexivity|]. split; [exact A|]. change (0 =? 0) with true. cbv iota. split; [reflexivity|]. left. split; [reflexivity|].
            exists l0, [], (x ++ r). now rewrite app_nil_r. }
        destruct tr as [|z tr]; cbn [is_empty negb].
        * cbn [bind fst snd]. destruct (is_closing c); [destruct (from_closing c); discriminate|]. cbn [no_scope bind].
          destruct (is_empty scopes) eqn:Es; cbn [negb].
          -- destruct scopes; [|discriminate]. intros H. injection H as <-. unfold buffer_push, buffer_push_str. cbn [ps_buf is_empty]. apply (B _ _ eq_refl).
             intros r (lab' & scopes' & args' & r' & -> & A & K). exists lab', scopes', args', r'. split; [reflexivity|]. split; [exact A|]. rewrite D in *. right. split; [reflexivity|].
             destruct K as [(-> & _)|(_ & u & ->)]; [now exists [c]|]. exists (c :: u). now rewrite <- app_assoc.
          -- destruct (flush_bang p rec (mkP chs l false cm bl (BCommand lab scopes depth []))) as [s1| | |] eqn:F; cbn [bind]; try discriminate.
             intros H. injection H as <-. intros K. apply (G s1 [] eq_refl); [cbn; now rewrite app_nil_r|exact I|exact K].
        * destruct (flush_bang p rec (mkP chs l false cm bl (BCommand lab scopes depth (z :: tr)))) as [s1| | |] eqn:F; cbn [bind]; try discriminate.
          destruct (flush_grows _ _ F) as (x & -> & Y). cbn [ps_buf ps_chunks ps_line ps_escaped ps_comment ps_bline] in *.
          destruct Y as (-> & args & A & ->). unfold set_buf. cbn [ps_line].
          destruct (sub32 p l (as_u32 (count_newlines (z :: tr)))) as [l0| | |]; cbn [bind]; try discriminate.
          unfold set_bline, buffer_push, buffer_push_str, buffer_text. cbn [app ps_chunks ps_line ps_escaped ps_comment ps_buf]. intros H. injection H as <-. intros (r & -> & K). cbn [ps_bline ps_buf ps_chunks fut] in *.
          destruct K as (u & r' & ->). rewrite <- app_assoc. cbn [app]. eexists. split; [reflexivity|]. cbn [ps_bline ps_buf fut].
          exists lab, scopes, args. eexists. split; [reflexivity|]. split; [exact A|]. change (0 =? 0) with true. cbv iota. split; [reflexivity|]. left. split; [reflexivity|].
          exists l0, (c :: u), r'. cbn [app]. now rewrite <- app_assoc.
      + destruct e.
        { intros H. injection H as <-. unfold buffer_push. cbn [ps_buf].
          assert (Q : exists lab1 scopes1, buffer_push_str (BCommand lab scopes depth tr) [c_bslash] = BCommand lab1 scopes1 depth tr).
          { cbn [buffer_push_str]. destruct (is_empty scopes); eauto. }
          destruct Q as (lab1 & scopes1 & Q). apply (B (buffer_push_str (buffer_push_str (BCommand lab scopes depth tr) [c_bslash]) [c]) true eq_refl). intros r K. rewrite Q in K. apply push_fut in K; [|exact D]. rewrite <- Q in K. now apply push_fut in K. }
        destruct (last_opt scopes) as [[[c0 v0] p0]|] eqn:L; cbn [bind]; try discriminate.
        unfold last_opt in L. destruct (rev scopes) as [|x0 rs] eqn:R; [discriminate|]. injection L as ->.
        assert (Es : scopes = rev rs ++ [(c0, v0, p0)]) by (rewrite <- (rev_involutive scopes), R; reflexivity).
        cbn [fst snd]. destruct (open1 v0 =? c).
        { destruct (add32 p depth 1) as [d1| | |]; cbn [bind]; try discriminate. intros H. injection H as <-. apply (B _ _ eq_refl). rewrite Es. intros r. now apply inner_fut. }
        destruct (close1 v0 =? c).
        { destruct (sub32 p depth 1) as [d1| | |]; cbn [bind]; try discriminate. intros H. injection H as <-. apply (B _ _ eq_refl). rewrite Es. intros r. now apply inner_fut. }
        cbn [no_scope bind]. intros H. injection H as <-. apply (B (buffer_push_str (BCommand lab scopes depth tr) [c]) false eq_refl). intros r. now apply push_fut.
    - (* text *)
      destruct e.
      + destruct (flush_bang p rec (mkP chs l true cm bl (BText content))) as [s1| | |] eqn:F; cbn [bind]; try discriminate.
        intros H K. destruct (start_grows _ _ _ H) as (x & E). apply (G _ x eq_refl E I K).
      + destruct (is_opening c).
        * destruct (flush_bang p rec (mkP chs l false cm bl (BText content))) as [s1| | |] eqn:F; cbn [bind]; try discriminate.
          destruct (from_opening c); cbn [bind]; try discriminate. intros H. injection H as <-. intros K. apply (G s1 [] eq_refl); [cbn; now rewrite app_nil_r|exact I|exact K].
        * intros H. injection H as <-. unfold buffer_push. cbn [buffer_push_str ps_buf]. apply (B _ _ eq_refl). intros r K. destruct content as [|a content]; [exact I|].
          cbn [app fut] in K |- *. destruct K as (u & r' & ->). exists (c :: u), r'. cbn [app]. now rewrite <- app_assoc.
  Qed.
  Lemma step_fut st c st' d : step p rec st c = Ok st' -> Fut st' d -> Fut st d.
  Proof.
    unfold step. destruct (c =? c_newline).
    - destruct (add32 p (ps_line st) 1) as [l| | |]; cbn [bind]; try discriminate.
      destruct (step_main p rec (set_line (set_comment st false) l) c) as [s1| | |] eqn:E; cbn [bind]; try discriminate.
      intros H. injection H as <-. intros K. apply (step_main_fut _ _ _ d E) in K. exact K.
    - destruct ((c =? c_percent) && negb (ps_escaped st)); [intros H; injection H as <-; auto|].
      destruct ((c =? c_bslash) && negb (ps_escaped st)); [intros H; injection H as <-; auto|].
      destruct (ps_comment st); [intros H; injection H as <-; auto|].
      destruct (step_main p rec st c) as [s1| | |] eqn:E; cbn [bind]; try discriminate.
      intros H. injection H as <-. intros K. apply (step_main_fut _ _ _ d E) in K. exact K.
  Qed.
  Lemma run_fut t : forall st st' d, foldM (step p rec) st t = Ok st' -> Fut st' d -> Fut st d.
  Proof.
    induction t as [|c t IH]; intros st st' d; cbn [foldM]; [intros H; now injection H as <-|].
    destruct (step p rec st c) as [s1| | |] eqn:E; cbn [bind]; try discriminate. intros H K. exact (step_fut _ _ _ _ E (IH _ _ _ H K)).
  Qed.
  Lemma finish_grows st d : finish p rec st = Ok d -> exists x, d = ps_chunks st ++ x /\
    match ps_buf st with
    | BText [] => x = []
    | BText s => x = [mkChunk1 (ps_bline st) (Text1 s)]
    | BScope _ _ depth => depth = 0
    | BCommand lab scopes depth tr => depth = 0 /\ exists args, mapM arg_of scopes = Ok args /\
        x = mkChunk1 (ps_bline st) (Command1 (mkCommand1 lab args)) :: match tr with [] => [] | _ => [mkChunk1 (ps_line st) (Text1 tr)] end
    end.
  Proof.
    unfold finish. destruct (ps_buf st) as [content v depth|lab scopes depth tr|content] eqn:B.
    - unfold flush_bang. rewrite B. cbn [flush]. destruct (depth =? 0) eqn:D; cbn [negb].
      + destruct (rec content) as [i|e| |]; cbn [bind map_err]; try discriminate.
        * intros H. injection H as <-. apply N.eqb_eq in D. eexists. split; [reflexivity|exact D].
        * destruct (sub32 p (ps_bline st) 1); cbn [bind]; try discriminate. destruct (add32 p (err_line e) a); discriminate.
      + cbn [map_err bind err_line]. destruct (sub32 p (ps_bline st) 1); cbn [bind]; try discriminate. destruct (add32 p 1 a); discriminate.
    - destruct tr as [|z tr]; cbn [is_empty negb].
      + destruct (flush_bang p rec st) as [s1| | |] eqn:F; cbn [bind]; try discriminate. destruct (flush_grows _ _ F) as (x & -> & Y). rewrite B in Y. destruct Y as (Z & args & A & ->).
        intros H. injection H as <-. eexists. split; [reflexivity|]. split; [exact Z|]. eauto.
      + destruct (flush_bang p rec st) as [s1| | |] eqn:F; cbn [bind]; try discriminate. destruct (flush_grows _ _ F) as (x & -> & Y). rewrite B in Y. destruct Y as (Z & args & A & ->).
        unfold set_buf. cbn [ps_chunks ps_line ps_escaped ps_comment ps_bline].
        match goal with |- context [flush_bang p rec ?s] => destruct (flush_bang p rec s) as [s2| | |] eqn:F2; cbn [bind]; try discriminate end.
        destruct (flush_grows _ _ F2) as (x2 & -> & Y2). cbn in Y2. subst x2. intros H. injection H as <-. cbn [ps_chunks ps_bline]. rewrite <- app_assoc. cbn [app].
        eexists. split; [reflexivity|]. split; [exact Z|]. exists args. split; [exact A|reflexivity].
    - destruct (flush_bang p rec st) as [s1| | |] eqn:F; cbn [bind]; try discriminate. destruct (flush_grows _ _ F) as (x & -> & Y). rewrite B in Y.
      intros H. injection H as <-. eexists. split; [reflexivity|exact Y].
  Qed.
  Lemma finish_fut st d : finish p rec st = Ok d -> Fut st d.
  Proof.
    intros H. destruct (finish_grows st d H) as (x & -> & Y). exists x. split; [reflexivity|].
    destruct (ps_buf st) as [content v depth|lab scopes depth tr|content]; cbn [fut].
    - exact I.
    - destruct Y as (-> & args & A & ->). exists lab, scopes, args. eexists. split; [reflexivity|]. split; [exact A|]. change (0 =? 0) with true. cbv iota. destruct tr as [|z tr].
      + left. split; [reflexivity|]. exists []. now rewrite app_nil_r.
      + split; [reflexivity|]. left. split; [reflexivity|]. exists (ps_line st), [], []. now rewrite app_nil_r.
    - destruct content as [|z content]; [exact I|]. subst x. exists [], []. now rewrite app_nil_r.
  Qed.
End Prefix.

(** ** What a buffer contains *)
Definition kept (b : buffer) : Prop :=
  match b with BScope _ _ depth => depth <> 0 | BCommand lab _ _ tr => blank tr /\ word lab | BText _ => True end.
Lemma kept_push b s : kept b -> kept (buffer_push_str b s).
Proof. destruct b as [c v d|lab sc d tr|c]; cbn; auto. destruct (is_empty sc); auto. intros (T & x & w & -> & A). split; [exact T|]. now exists x, (w ++ s). Qed.
Lemma kept_start rec st c st' : start_command Debug rec st c = Ok st' -> kept (ps_buf st').
Proof.
  unfold start_command. destruct (negb (is_ascii_alphabetic c)) eqn:A.
  - destruct (flush_bang Debug rec (set_buf st (buffer_push buffer_command c))); cbn [bind]; try discriminate. intros H. injection H as <-. exact I.
  - intros H. injection H as <-. cbn. apply negb_false_iff in A. split; [constructor|]. now exists c, [].
Qed.
Lemma kept_main rec st c st' : step_main Debug rec st c = Ok st' -> kept (ps_buf st) -> kept (ps_buf st').
Proof.
  unfold step_main. destruct (ps_buf st) as [content v depth|lab scopes depth tr|content] eqn:B; intros H K; cbn [kept] in K.
  - destruct (negb (depth =? 0) && ps_escaped st); [injection H as <-; exact K|].
    destruct (open1 v =? c).
    { unfold add32 in H. destruct (depth + 1 <? two32); cbn [bind overflow32] in H; try discriminate. injection H as <-. cbn. lia. }
    destruct (close1 v =? c); [|injection H as <-; cbn [ps_buf set_buf buffer_push]; exact K].
    destruct (sub32 Debug depth 1) as [d1| | |]; cbn [bind] in H; try discriminate. destruct (d1 =? 0) eqn:D1.
    + match type of H with (bind ?f _ = _) => destruct f; cbn [bind] in H; try discriminate end. injection H as <-. exact I.
    + injection H as <-. cbn. apply N.eqb_neq in D1. exact D1.
  - destruct ((depth =? 0) && is_opening c).
    { destruct (from_opening c); cbn [bind buffer_push_scope] in H; try discriminate. injection H as <-. cbn. split; [constructor|exact (proj2 K)]. }
    destruct ((depth =? 0) && is_whitespace c) eqn:W.
    { apply andb_true_iff in W as [_ W]. injection H as <-. cbn. split; [|exact (proj2 K)]. apply Forall_app. split; [exact (proj1 K)|now repeat constructor]. }
    destruct ((depth =? 0) && ps_escaped st).
    { destruct (flush_bang Debug rec st) as [s1| | |]; cbn [bind] in H; try discriminate.
      match type of H with (bind ?f _ = _) => destruct f; cbn [bind] in H; try discriminate end. exact (kept_start _ _ _ _ H). }
    destruct (negb (depth =? 0) && ps_escaped st).
    { injection H as <-. change (kept (buffer_push_str (buffer_push_str (BCommand lab scopes depth tr) [c_bslash]) [c])). apply kept_push, kept_push. exact K. }
    destruct ((depth =? 0) && negb (is_empty tr)).
    { destruct (flush_bang Debug rec st) as [s1| | |]; cbn [bind] in H; try discriminate.
      match type of H with (bind ?f _ = _) => destruct f; cbn [bind] in H; try discriminate end. injection H as <-. exact I. }
    match type of H with (bind ?f _ = _) => destruct f as [[b1 b2]| | |]; cbn [bind fst snd] in H; try discriminate end.
    destruct b1; [match type of H with (bind ?f _ = _) => destruct f; cbn [bind] in H; try discriminate end; injection H as <-; exact K|].
    destruct b2; [match type of H with (bind ?f _ = _) => destruct f; cbn [bind] in H; try discriminate end; injection H as <-; exact K|].
    destruct ((depth =? 0) && is_closing c); [destruct (from_closing c); discriminate|]. cbn [no_scope bind] in H.
    destruct ((depth =? 0) && negb (is_empty scopes)).
    + destruct (flush_bang Debug rec st) as [s1| | |]; cbn [bind] in H; try discriminate. injection H as <-. exact I.
    + injection H as <-. change (kept (buffer_push_str (BCommand lab scopes depth tr) [c])). apply kept_push. exact K.
  - destruct (ps_escaped st).
    + destruct (flush_bang Debug rec st) as [s1| | |]; cbn [bind] in H; try discriminate. exact (kept_start _ _ _ _ H).
    + destruct (is_opening c); [|injection H as <-; exact I].
      destruct (flush_bang Debug rec st) as [s1| | |]; cbn [bind] in H; try discriminate. destruct (from_opening c); cbn [bind] in H; try discriminate. injection H as <-. cbn. lia.
Qed.
Lemma kept_run rec t : forall st st', foldM (step Debug rec) st t = Ok st' -> kept (ps_buf st) -> kept (ps_buf st').
Proof.
  induction t as [|c t IH]; intros st st'; cbn [foldM]; [intros H; now injection H as <-|].
  destruct (step Debug rec st c) as [s1| | |] eqn:E; cbn [bind]; try discriminate. intros H K. apply (IH s1 st' H). revert E. unfold step.
  destruct (c =? c_newline).
  - destruct (add32 Debug (ps_line st) 1) as [l| | |]; cbn [bind]; try discriminate.
    destruct (step_main Debug rec (set_line (set_comment st false) l) c) as [s2| | |] eqn:E; cbn [bind]; try discriminate.
    intros X. injection X as <-. apply (kept_main _ _ _ _ E K).
  - destruct ((c =? c_percent) && negb (ps_escaped st)); [intros X; injection X as <-; exact K|].
    destruct ((c =? c_bslash) && negb (ps_escaped st)); [intros X; injection X as <-; exact K|].
    destruct (ps_comment st); [intros X; injection X as <-; exact K|].
    destruct (step_main Debug rec st c) as [s2| | |] eqn:E; cbn [bind]; try discriminate. intros X. injection X as <-. apply (kept_main _ _ _ _ E K).
Qed.

Lemma more_args (rec : str -> outcome error document1) a b x y : mapM (arg_of rec) a = Ok x -> mapM (arg_of rec) (a ++ b) = Ok y -> exists z, mapM (arg_of rec) b = Ok z /\ y = x ++ z.
Proof. intros H. rewrite mapM_app, H. cbn [bind]. destruct (mapM (arg_of rec) b) as [z| | |]; cbn [bind]; try discriminate. intros K. injection K as <-. eauto. Qed.

Lemma prefix_debug s t d d' : from_str1 Debug s = Ok d -> from_str1 Debug (s ++ t) = Ok d' ->
  exists same tail rest, d = same ++ tail /\ d' = same ++ rest /\ continues tail rest.
Proof.
  intros H H'. set (n := length (s ++ t)).
  assert (E : from_str1_fuel (S n) Debug s = Ok d).
  { destruct (Depth1.fuel_leq Debug s (S (length s)) (S n)) as [E|E]; [unfold n; rewrite app_length; lia|now rewrite <- E|]. unfold from_str1 in H. congruence. }
  change (from_str1_fuel (S n) Debug (s ++ t) = Ok d') in H'. cbn [from_str1_fuel] in *. rewrite foldM_app in H'.
  set (rec := from_str1_fuel n Debug) in *. destruct (foldM (step Debug rec) pinit s) as [st| | |] eqn:R; cbn [bind] in *; try discriminate.
  destruct (foldM (step Debug rec) st t) as [st'| | |] eqn:R'; cbn [bind] in *; try discriminate.
  assert (K : kept (ps_buf st)) by (apply (kept_run rec s pinit st R); exact I).
  destruct (run_fut Debug rec t st st' d' R' (finish_fut Debug rec st' d' H')) as (r & -> & F).
  destruct (finish_grows Debug rec st d E) as (x & -> & Y). exists (ps_chunks st), x, r. split; [reflexivity|]. split; [reflexivity|].
  destruct (ps_buf st) as [content v depth|lab scopes depth tr|content]; cbn [fut kept] in *.
  - contradiction.
  - destruct K as [K Wd]. destruct Y as (-> & args & A & ->). change (0 =? 0) with true in F. cbv iota in F. destruct F as (lab' & scopes' & args' & r' & -> & A' & F).
    destruct tr as [|z tr].
    + destruct F as [(-> & m & ->)|(-> & u & ->)].
      * destruct (more_args rec _ _ _ _ A A') as (w & _ & ->). constructor.
      * injection A as <-. constructor. exact Wd.
    + destruct F as (-> & [(-> & l'' & u & r'' & ->)|(c & v & u & m & ->)]).
      * rewrite A in A'. injection A' as <-. apply (ct_blanks_text _ _ _ _ _ (z :: tr)). exact K.
      * destruct (more_args rec _ _ _ _ A A') as (w & W & ->). cbn [mapM arg_of] in W. destruct (rec c) as [i| | |]; cbn [bind] in W; try discriminate.
        destruct (mapM (arg_of rec) m); cbn [bind] in W; try discriminate. injection W as <-. apply (ct_blanks_arg _ _ _ _ (z :: tr)). exact K.
  - destruct content as [|a content].
    + subst x. constructor.
    + subst x. destruct F as (u & r' & ->). constructor.
Qed.
