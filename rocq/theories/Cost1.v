(** * Cost1: stage-1 parsing with a step counter (C39)

    A copy of Parse1.v in which every function also returns the number of iterations of the loop
    [for c in s.chars()] (src/ast1/document.rs:353) that were started, in this call and in all the
    recursive calls.  [counted_erase] ties the copy to the model: forgetting the counter gives [from_str1] back. *)
From Verif Require Import Base Ast1 Parse1 Refine1.

Definition counted (A : Type) : Type := (nat * outcome error A)%type.
Definition free {A} (x : outcome error A) : counted A := (O, x).
Definition cbind {A B} (x : counted A) (f : A -> counted B) : counted B :=
  match snd x with
  | Ok a => ((fst x + fst (f a))%nat, snd (f a))
  | Err e => (fst x, Err e)
  | Panic => (fst x, Panic)
  | OutOfFuel => (fst x, OutOfFuel)
  end.
Notation "'let$' x ':=' e 'in' k" := (cbind e (fun x => k))
  (at level 200, x pattern, e at level 100, k at level 200, right associativity).

(** [map] + collect and the [for] loop, as [mapM] and [foldM] of Base.v; an iteration of the loop costs 1 *)
Fixpoint cmapM {A B} (f : A -> counted B) (l : list A) : counted (list B) :=
  match l with
  | [] => free (Ok [])
  | x :: l' => let$ y := f x in let$ ys := cmapM f l' in free (Ok (y :: ys))
  end.
Fixpoint cloop {T A} (f : T -> A -> counted T) (s : T) (l : list A) : counted T :=
  match l with
  | [] => free (Ok s)
  | x :: l' => let$ s' := ((1 + fst (f s x))%nat, snd (f s x)) in cloop f s' l'
  end.

Section Parser.
  Context (p : profile).
  Context (rec : str -> counted document1).

  (** src/ast1/document.rs:278-337 [flush] *)
  Definition cflush (b : buffer) (buffer_line_no : N) (chunks : list chunk1) : counted (list chunk1) :=
    match b with
    | BText content =>
        if negb (is_empty content)
        then free (Ok (chunks ++ [mkChunk1 buffer_line_no (Text1 content)]))
        else free (Ok chunks)
    | BScope content variant depth =>
        if negb (depth =? 0) then free (Err (mkError 1 (UnclosedScope variant)))
        else
          let$ inner := rec content in
          free (Ok (chunks ++ [mkChunk1 buffer_line_no (Scope1 (mkScope1 inner Curly1))]))
    | BCommand label scopes depth _ =>
        if negb (depth =? 0) then
          match last_opt scopes with
          | Some (_, v, _) => free (Err (mkError 1 (UnclosedArgument v)))
          | None => free Panic
          end
        else
          let$ arguments :=
            cmapM (fun x => match x with (content, variant, preceding) =>
                    let$ inner := rec content in
                    free (Ok (preceding, mkScope1 inner variant)) end) scopes in
          free (Ok (chunks ++ [mkChunk1 buffer_line_no (Command1 (mkCommand1 label arguments))]))
    end.

  (** src/ast1/document.rs:339-351 [flush!] *)
  Definition cflush_bang (st : pstate) : counted pstate :=
    let r := cflush (ps_buf st) (ps_bline st) (ps_chunks st) in
    let$ chunks :=
      (fst r,
       map_err (fun e =>
                 let* off := sub32 p (ps_bline st) 1 in
                 let* l := add32 p (err_line e) off in
                 Ok (mkError l (err_type e))) (snd r)) in
    free (Ok (set_bline (set_chunks st chunks) (ps_line st))).

  (** src/ast1/document.rs:375-381 and 437-442 *)
  Definition cstart_command (st : pstate) (c : char) : counted pstate :=
    let st := set_buf st (buffer_push buffer_command c) in
    if negb (is_ascii_alphabetic c) then
      let$ st := cflush_bang st in
      free (Ok (set_buf st buffer_text))
    else free (Ok st).

  (** src/ast1/document.rs:371-473 *)
  Definition cstep_main (st : pstate) (c : char) : counted pstate :=
    let escaped := ps_escaped st in
    match ps_buf st with
    | BText _ =>
        if escaped then
          let$ st := cflush_bang st in
          cstart_command st c
        else if is_opening c then
          let$ st := cflush_bang st in
          let$ v := free (from_opening c) in
          free (Ok (set_buf st (buffer_scope v)))
        else free (Ok (set_buf st (buffer_push (ps_buf st) c)))
    | BScope content variant depth =>
        if negb (depth =? 0) && escaped then
          free (Ok (set_buf st (buffer_push (buffer_push (ps_buf st) c_bslash) c)))
        else if open1 variant =? c then
          let$ depth := free (add32 p depth 1) in
          free (Ok (set_buf st (buffer_push (BScope content variant depth) c)))
        else if close1 variant =? c then
          let$ depth := free (sub32 p depth 1) in
          let st := set_buf st (BScope content variant depth) in
          if depth =? 0 then
            let$ st := cflush_bang st in
            free (Ok (set_buf st buffer_text))
          else free (Ok (set_buf st (buffer_push (ps_buf st) c)))
        else free (Ok (set_buf st (buffer_push (ps_buf st) c)))
    | BCommand label scopes depth trailing =>
        if (depth =? 0) && is_opening c then
          let$ v := free (from_opening c) in
          let$ b := free (buffer_push_scope (ps_buf st) v) in
          free (Ok (set_buf st b))
        else if (depth =? 0) && is_whitespace c then
          free (Ok (set_buf st (BCommand label scopes depth (trailing ++ [c]))))
        else if (depth =? 0) && escaped then
          let$ st := cflush_bang st in
          let$ st :=
            (if negb (is_empty trailing) then
               let st := set_buf st (buffer_push_str buffer_text trailing) in
               let$ l := free (sub32 p (ps_bline st) (as_u32 (count_newlines trailing))) in
               let$ chunks := cflush (ps_buf st) l (ps_chunks st) in
               free (Ok (set_chunks st chunks))
             else free (Ok st)) in
          let st := set_bline st (ps_line st) in
          cstart_command st c
        else if negb (depth =? 0) && escaped then
          free (Ok (set_buf st (buffer_push (buffer_push (ps_buf st) c_bslash) c)))
        else if (depth =? 0) && negb (is_empty trailing) then
          let$ st := cflush_bang st in
          let st := set_buf st (buffer_push (buffer_push_str buffer_text trailing) c) in
          let$ l := free (sub32 p (ps_line st) (as_u32 (count_newlines trailing))) in
          free (Ok (set_bline st l))
        else
          let$ bracket :=
            free (if negb (depth =? 0) then
               match last_opt scopes with
               | Some (_, v, _) => Ok (open1 v =? c, close1 v =? c)
               | None => Panic
               end
             else Ok (false, false)) in
          if fst bracket then
            let$ depth := free (add32 p depth 1) in
            free (Ok (set_buf st (BCommand label scopes depth trailing)))
          else if snd bracket then
            let$ depth := free (sub32 p depth 1) in
            free (Ok (set_buf st (BCommand label scopes depth trailing)))
          else if (depth =? 0) && is_closing c then
            let$ v := free (from_closing c) in
            free (Err (mkError (ps_line st) (UnexpectedClosing v)))
          else
            let$ ns := free (no_scope (ps_buf st)) in
            if (depth =? 0) && negb ns then
              let$ st := cflush_bang st in
              free (Ok (set_buf st (buffer_push buffer_text c)))
            else free (Ok (set_buf st (buffer_push (ps_buf st) c)))
    end.

  (** src/ast1/document.rs:353-476 *)
  Definition cstep (st : pstate) (c : char) : counted pstate :=
    if c =? c_newline then
      let$ l := free (add32 p (ps_line st) 1) in
      let$ st := cstep_main (set_line (set_comment st false) l) c in
      free (Ok (set_escaped st false))
    else if (c =? c_percent) && negb (ps_escaped st) then free (Ok (set_comment st true))
    else if (c =? c_bslash) && negb (ps_escaped st) then free (Ok (set_escaped st true))
    else if ps_comment st then free (Ok st)
    else
      let$ st := cstep_main st c in
      free (Ok (set_escaped st false)).

  (** src/ast1/document.rs:478-494 *)
  Definition cfinish (st : pstate) : counted document1 :=
    match ps_buf st with
    | BCommand _ _ _ trailing =>
        if negb (is_empty trailing) then
          let$ st := cflush_bang st in
          let st := set_buf st (buffer_push_str buffer_text trailing) in
          let$ st := cflush_bang st in
          free (Ok (ps_chunks st))
        else
          let$ st := cflush_bang st in
          free (Ok (ps_chunks st))
    | _ =>
        let$ st := cflush_bang st in
        free (Ok (ps_chunks st))
    end.
End Parser.

(** src/ast1/document.rs:256-496 *)
Fixpoint counted1_fuel (fuel : nat) (p : profile) (s : str) : counted document1 :=
  match fuel with
  | O => free OutOfFuel
  | S fuel =>
      let rec := counted1_fuel fuel p in
      let$ st := cloop (cstep p rec) pinit s in
      cfinish p rec st
  end.
Definition counted1 (p : profile) (s : str) : counted document1 := counted1_fuel (S (length s)) p s.
(** The number of loop iterations of [Document::from_str] on [s], recursive calls included *)
Definition steps1 (p : profile) (s : str) : nat := fst (counted1 p s).

(** ** Forgetting the counter *)
Lemma erase_bind {A B} (x : counted A) (f : A -> counted B) :
  snd (cbind x f) = let* a := snd x in snd (f a).
Proof. unfold cbind, bind. destruct (snd x); reflexivity. Qed.
Lemma bind_ext {E A B} (x : outcome E A) (f g : A -> outcome E B) :
  (forall a, x = Ok a -> f a = g a) -> bind x f = bind x g.
Proof. destruct x; cbn; auto. Qed.
Lemma erase_mapM {A B} (f : A -> counted B) l : snd (cmapM f l) = mapM (fun x => snd (f x)) l.
Proof.
  induction l as [|x l IH]; [reflexivity|]. cbn [cmapM mapM]. rewrite erase_bind.
  apply bind_ext. intros a _. rewrite erase_bind, IH. reflexivity.
Qed.
Lemma erase_loop {T A} (f : T -> A -> counted T) s l : snd (cloop f s l) = foldM (fun s x => snd (f s x)) s l.
Proof.
  revert s. induction l as [|x l IH]; intros s; [reflexivity|]. cbn [cloop foldM]. rewrite erase_bind.
  apply bind_ext. intros a _. apply IH.
Qed.

Lemma mapM_ext {E A B} (f g : A -> outcome E B) l : (forall x, f x = g x) -> mapM f l = mapM g l.
Proof. intros H. induction l as [|x l IH]; [reflexivity|]. cbn. rewrite H, IH. reflexivity. Qed.
Lemma foldM_ext {E A S} (f g : S -> A -> outcome E S) s l : (forall s x, f s x = g s x) -> foldM f s l = foldM g s l.
Proof.
  intros H. revert s. induction l as [|x l IH]; intros s; [reflexivity|]. cbn. rewrite H. destruct (g s x); cbn; auto.
Qed.

Section Erase.
  Context (p : profile) (crec : str -> counted document1) (rec : str -> outcome error document1).
  Hypothesis Hrec : forall s, snd (crec s) = rec s.

  Lemma erase_flush b l cs : snd (cflush crec b l cs) = flush rec b l cs.
  Proof.
    destruct b as [ct v d|lab sc d t|ct]; cbn [cflush flush].
    - destruct (negb (d =? 0)); [reflexivity|]. rewrite erase_bind, Hrec. reflexivity.
    - destruct (negb (d =? 0)).
      + destruct (last_opt sc) as [[[? ?] ?]|]; reflexivity.
      + rewrite erase_bind, erase_mapM. erewrite mapM_ext; [reflexivity|].
        intros [[ct v] pr]. rewrite erase_bind, Hrec. reflexivity.
    - destruct (negb (is_empty ct)); reflexivity.
  Qed.
  Lemma erase_flush_bang st : snd (cflush_bang p crec st) = flush_bang p rec st.
  Proof. unfold cflush_bang, flush_bang. rewrite erase_bind. cbn [snd]. rewrite erase_flush. reflexivity. Qed.
  Lemma erase_start st c : snd (cstart_command p crec st c) = start_command p rec st c.
  Proof.
    unfold cstart_command, start_command. destruct (negb (is_ascii_alphabetic c)); [|reflexivity].
    rewrite erase_bind, erase_flush_bang. reflexivity.
  Qed.
  Ltac er := repeat first
    [ rewrite erase_flush_bang | rewrite erase_start | rewrite erase_flush
    | (rewrite erase_bind; cbn [snd free])
    | (apply bind_ext; let a := fresh "a" in let H := fresh "H" in intros a H; cbn beta)
    | match goal with |- snd (if ?b then _ else _) = _ => destruct b end
    | match goal with |- snd (let _ := _ in _) = _ => cbv zeta end
    | reflexivity ].
  Lemma erase_step_main st c : snd (cstep_main p crec st c) = step_main p rec st c.
  Proof.
    unfold cstep_main, step_main. destruct (ps_buf st) as [ct v d|lab sc d t|ct] eqn:Eb; er.
    destruct (negb (is_empty t)); cbn [bind snd free]; er.
    destruct (sub32 p _ _) as [l| | |]; cbn [bind]; try reflexivity. er.
  Qed.
  Lemma erase_step st c : snd (cstep p crec st c) = step p rec st c.
  Proof.
    unfold cstep, step. destruct (c =? c_newline).
    - rewrite erase_bind. cbn [snd free]. apply bind_ext. intros l _. rewrite erase_bind, erase_step_main. reflexivity.
    - destruct (_ && _); [reflexivity|]. destruct (_ && _); [reflexivity|]. destruct (ps_comment st); [reflexivity|].
      rewrite erase_bind, erase_step_main. reflexivity.
  Qed.
  Lemma erase_finish st : snd (cfinish p crec st) = finish p rec st.
  Proof.
    unfold cfinish, finish. destruct (ps_buf st) as [ct v d|lab sc d t|ct] eqn:Eb; er.
  Qed.
End Erase.

Lemma erase_fuel fuel p s : snd (counted1_fuel fuel p s) = from_str1_fuel fuel p s.
Proof.
  revert s. induction fuel as [|fuel IH]; intros s; [reflexivity|]. cbn [counted1_fuel from_str1_fuel].
  rewrite erase_bind, erase_loop.
  rewrite (foldM_ext _ (step p (from_str1_fuel fuel p))) by (intros; apply erase_step; auto).
  apply bind_ext. intros st _. apply erase_finish. auto.
Qed.
Lemma counted_erase p s : snd (counted1 p s) = from_str1 p s.
Proof. apply erase_fuel. Qed.

(** ** The quadratic bound

    [within b q x]: the recursive calls of [x] were made on strings of total weight [w] (a string
    weighs its length plus one), they cost at most [w*w - w], and [w] was paid for by [b], leaving [q a] *)
Local Open Scope nat_scope.
Definition within {A} (b : nat) (q : A -> nat) (x : counted A) : Prop :=
  exists w, fst x + w <= w * w /\ match snd x with Ok a => q a + w <= b | _ => w <= b end.

Lemma within_bind {A B} b (q : A -> nat) (q' : B -> nat) x f :
  within b q x -> (forall a, snd x = Ok a -> within (q a) q' (f a)) -> within b q' (cbind x f).
Proof.
  intros (w & H1 & H2) H. unfold cbind. destruct (snd x) as [a| | |] eqn:E; try (exists w; cbn; split; assumption).
  destruct (H a eq_refl) as (w' & H3 & H4). exists (w + w'). cbn [fst snd]. split; [nia|].
  destruct (snd (f a)); lia.
Qed.
Lemma within_free {A} b (q : A -> nat) x : (forall a, x = Ok a -> q a <= b) -> within b q (free x).
Proof. intros H. exists 0. cbn. split; [lia|]. destruct x; try lia. specialize (H a eq_refl). lia. Qed.
Lemma within_ok {A} b (q : A -> nat) a : q a <= b -> within b q (free (Ok a)).
Proof. intros H. apply within_free. intros a' [= <-]. exact H. Qed.
Lemma within_mono {A} b b' (q q' : A -> nat) x : b <= b' -> (forall a, snd x = Ok a -> q' a <= q a) ->
  within b q x -> within b' q' x.
Proof.
  intros H H' (w & H1 & H2). exists w. split; [assumption|]. destruct (snd x) as [a| | |]; try lia.
  specialize (H' a eq_refl). lia.
Qed.

Definition scopes_weight (sc : list (str * sv1 * str)) : nat :=
  fold_right (fun x n => match x with (ct, _, _) => S (length ct) + n end) 0 sc.
Definition weight (b : buffer) : nat :=
  match b with
  | BScope ct _ _ => S (length ct)
  | BCommand _ sc _ _ => scopes_weight sc
  | BText _ => 0
  end.
Definition wst (st : pstate) : nat := weight (ps_buf st).

Lemma scopes_weight_app a b : scopes_weight (a ++ b) = scopes_weight a + scopes_weight b.
Proof.
  induction a as [|[[ct v] pr] a IH]; [reflexivity|]. unfold scopes_weight in *. cbn [app fold_right]. rewrite IH. lia.
Qed.
Lemma weight_push_str b s : weight (buffer_push_str b s) <= weight b + length s.
Proof.
  destruct b as [ct v d|lab sc d t|ct]; cbn [buffer_push_str weight]; [rewrite app_length; lia| |lia].
  destruct (is_empty sc) eqn:E; [cbn [weight]; lia|]. cbn [weight]. apply is_empty_false in E.
  destruct (nonempty_snoc sc E) as [l [[[ct v] pr] ->]]. rewrite modify_last_snoc, !scopes_weight_app.
  cbn. rewrite app_length. lia.
Qed.
Lemma weight_push b c : weight (buffer_push b c) <= weight b + 1.
Proof. unfold buffer_push. pose proof (weight_push_str b [c]) as H. cbn in H. lia. Qed.

Section Bound.
  Context (p : profile) (rec : str -> counted document1).
  Hypothesis Hrec : forall s, fst (rec s) <= length s * length s.

  Lemma within_rec s : within (S (length s)) (fun _ => 0) (rec s).
  Proof. exists (S (length s)). specialize (Hrec s). split; [nia|]. destruct (snd (rec s)); lia. Qed.

  Lemma within_flush b l cs : within (weight b) (fun _ => 0) (cflush rec b l cs).
  Proof.
    destruct b as [ct v d|lab sc d t|ct]; cbn [cflush weight].
    - destruct (negb (d =? 0)%N); [apply within_free; discriminate|].
      eapply within_bind; [apply within_rec|]. intros a _. apply within_free. lia.
    - destruct (negb (d =? 0)%N).
      + destruct (last_opt sc) as [[[? ?] ?]|]; apply within_free; discriminate.
      + eapply (within_bind _ (fun _ => 0)); [|intros; apply within_free; intros; lia].
        induction sc as [|[[ct v] pr] sc IH]; [apply within_free; intros; cbn; lia|].
        cbn [cmapM scopes_weight fold_right]. fold (scopes_weight sc).
        eapply (within_bind _ (fun _ => scopes_weight sc)).
        * eapply (within_bind _ (fun _ => scopes_weight sc)); [|intros; apply within_free; intros; lia].
          destruct (within_rec ct) as (w & H1 & H2). exists w. split; [assumption|]. destruct (snd (rec ct)); lia.
        * intros y _. eapply within_bind; [exact IH|]. intros. apply within_free. lia.
    - destruct (negb (is_empty ct)); apply within_free; lia.
  Qed.
  Lemma within_flush_bang st : within (wst st) (fun st' => 0) (cflush_bang p rec st).
  Proof.
    unfold cflush_bang. cbv zeta. eapply (within_bind _ (fun _ => 0)); [|intros; apply within_free; lia].
    destruct (within_flush (ps_buf st) (ps_bline st) (ps_chunks st)) as (w & H1 & H2). exists w. split; [assumption|].
    cbn [snd]. destruct (snd (cflush _ _ _ _)) as [a|e| |]; cbn [map_err]; try assumption.
    destruct (let* off := _ in _); exact H2.
  Qed.
  Lemma within_start b st c : within b wst (cstart_command p rec st c).
  Proof.
    unfold cstart_command. cbv zeta. destruct (negb (is_ascii_alphabetic c)).
    - eapply (within_bind _ (fun _ => 0)).
      + eapply within_mono; [|intros; apply le_n|apply within_flush_bang]. cbn. lia.
      + intros a _. apply within_free. intros ? [= <-]. cbn. lia.
    - apply within_free. intros a [= <-]. cbn. lia.
  Qed.

  Definition esc (st : pstate) : nat := if ps_escaped st then 1 else 0.
  Ltac leaf := apply within_ok; unfold wst; cbn [ps_buf set_buf set_bline]; repeat match goal with H : ps_buf _ = _ |- _ => rewrite H end; cbn [weight].
  Ltac fin := first [lia | rewrite ?app_length; cbn [length]; lia].
  Lemma within_step_main st c : within (wst st + esc st + 1) wst (cstep_main p rec st c).
  Proof.
    unfold cstep_main, esc.
    destruct (ps_buf st) as [ct v d|lab sc d t|ct] eqn:Eb; unfold wst at 1; rewrite Eb; cbn [weight].
    - destruct (negb (d =? 0)%N && ps_escaped st) eqn:E1.
      + apply andb_true_iff in E1 as [_ E1]. rewrite E1. leaf.
        pose proof (weight_push (buffer_push (BScope ct v d) c_bslash) c).
        pose proof (weight_push (BScope ct v d) c_bslash). cbn [weight] in *. fin.
      + destruct (_ =? c)%N.
        * eapply (within_bind _ (fun _ => S (length ct) + 1)); [apply within_free; intros; lia|].
          intros d' _. leaf. pose proof (weight_push (BScope ct v d') c). cbn [weight] in *. fin.
        * destruct (_ =? c)%N.
          -- eapply (within_bind _ (fun _ => S (length ct) + 1)); [apply within_free; intros; lia|].
             intros d' _. cbv zeta. destruct (d' =? 0)%N.
             ++ eapply (within_bind _ (fun _ => 0)); [|intros; leaf; cbn; lia].
                eapply within_mono; [|intros; apply le_n|apply within_flush_bang]. cbn. lia.
             ++ leaf. pose proof (weight_push (BScope ct v d') c). cbn [weight] in *. fin.
          -- leaf. pose proof (weight_push (BScope ct v d) c). cbn [weight] in *. fin.
    - destruct ((d =? 0)%N && is_opening c).
      + eapply (within_bind _ (fun _ => scopes_weight sc + 1)); [apply within_free; intros; lia|].
        intros v _. eapply (within_bind _ weight).
        * apply within_free. cbn. intros b [= <-]. cbn. rewrite scopes_weight_app. cbn. lia.
        * intros b _. leaf. lia.
      + destruct ((d =? 0)%N && is_whitespace c); [leaf; lia|].
        destruct ((d =? 0)%N && ps_escaped st) eqn:E1.
        * eapply (within_bind _ (fun _ => 0)).
          { eapply within_mono; [|intros; apply le_n|apply within_flush_bang]. unfold wst. rewrite Eb. cbn. lia. }
          intros st1 _. eapply (within_bind _ (fun _ => 0)); [|intros; apply within_start].
          destruct (negb (is_empty t)); [|apply within_free; intros; lia]. cbv zeta.
          eapply (within_bind _ (fun _ => 0)); [apply within_free; intros; lia|]. intros l _.
          eapply (within_bind _ (fun _ => 0)); [|intros; apply within_free; intros; lia].
          eapply within_mono; [|intros; apply le_n|apply within_flush]. cbn. lia.
        * clear E1. destruct (negb (d =? 0)%N && ps_escaped st) eqn:E1.
          -- apply andb_true_iff in E1 as [_ E1]. rewrite E1. leaf.
             pose proof (weight_push (buffer_push (BCommand lab sc d t) c_bslash) c).
             pose proof (weight_push (BCommand lab sc d t) c_bslash). cbn [weight] in *. fin.
          -- destruct ((d =? 0)%N && negb (is_empty t)).
             ++ eapply (within_bind _ (fun _ => 0)).
                { eapply within_mono; [|intros; apply le_n|apply within_flush_bang]. unfold wst. rewrite Eb. cbn. lia. }
                intros st1 _. cbv zeta. eapply (within_bind _ (fun _ => 0)); [apply within_free; intros; lia|]. intros l _.
                leaf. cbn. lia.
             ++ eapply (within_bind _ (fun _ => scopes_weight sc + 1)); [apply within_free; intros; lia|]. intros [b1 b2] _. cbn [fst snd].
                destruct b1.
                { eapply (within_bind _ (fun _ => scopes_weight sc)); [apply within_free; intros; lia|]. intros. leaf. lia. }
                destruct b2.
                { eapply (within_bind _ (fun _ => scopes_weight sc)); [apply within_free; intros; lia|]. intros. leaf. lia. }
                destruct ((d =? 0)%N && is_closing c).
                { eapply (within_bind _ (fun _ => scopes_weight sc)); [apply within_free; intros; lia|]. intros. apply within_free. discriminate. }
                eapply (within_bind _ (fun _ => scopes_weight sc + 1)); [apply within_free; intros; lia|]. intros ns _.
                destruct ((d =? 0)%N && negb ns).
                ** eapply (within_bind _ (fun _ => 0)); [|intros; leaf; cbn; lia].
                   eapply within_mono; [|intros; apply le_n|apply within_flush_bang]. unfold wst. rewrite Eb. cbn. lia.
                ** leaf. pose proof (weight_push (BCommand lab sc d t) c). cbn [weight] in *. fin.
    - destruct (ps_escaped st).
      + eapply (within_bind _ (fun _ => 0)); [|intros; apply within_start].
        eapply within_mono; [|intros; apply le_n|apply within_flush_bang]. unfold wst. rewrite Eb. cbn. lia.
      + destruct (is_opening c).
        * eapply (within_bind _ (fun _ => 1)).
          { exists 0. destruct (within_flush_bang st) as (w & H1 & H2). unfold wst in *. rewrite Eb in *. cbn [weight] in *.
            assert (w = 0) by (destruct (snd (cflush_bang p rec st)); lia). subst. split; [lia|].
            destruct (snd (cflush_bang p rec st)); lia. }
          intros st1 _. eapply (within_bind _ (fun _ => 1)); [apply within_free; intros; lia|]. intros v _. leaf. cbn. lia.
        * leaf. cbn. lia.
  Qed.

  Definition wst' (st : pstate) : nat := wst st + esc st.
  Lemma within_step st c : within (wst' st + 1) wst' (cstep p rec st c).
  Proof.
    unfold cstep. destruct (c =? c_newline)%N.
    - eapply (within_bind _ (fun _ => wst' st + 1)); [apply within_free; intros; lia|]. intros l _.
      eapply within_bind.
      + eapply within_mono; [|intros; apply le_n|apply within_step_main]. unfold wst'. cbn. unfold wst, esc. cbn. lia.
      + intros st1 _. apply within_free. intros ? [= <-]. unfold wst', wst, esc. cbn. lia.
    - destruct (_ && _) eqn:E1; [apply within_free; intros ? [= <-]; unfold wst', wst, esc; cbn; lia|]. clear E1.
      destruct (_ && _) eqn:E1.
      { apply within_free. intros ? [= <-]. apply andb_true_iff in E1 as [_ E1]. apply negb_true_iff in E1.
        unfold wst', wst, esc; cbn. rewrite E1. lia. }
      destruct (ps_comment st); [apply within_free; intros ? [= <-]; lia|].
      eapply within_bind.
      + eapply within_mono; [|intros; apply le_n|apply within_step_main]. unfold wst'. lia.
      + intros st1 _. apply within_free. intros ? [= <-]. unfold wst', wst, esc. cbn. lia.
  Qed.

  Lemma within_finish st : within (wst st) (fun _ => 0) (cfinish p rec st).
  Proof.
    unfold cfinish. destruct (ps_buf st) as [ct v d|lab sc d t|ct] eqn:Eb.
    2: destruct (negb (is_empty t)).
    2: { eapply within_bind; [apply within_flush_bang|]. intros st1 _. cbv zeta.
         eapply (within_bind _ (fun _ => 0)); [|intros; apply within_free; lia].
         eapply within_mono; [|intros; apply le_n|apply within_flush_bang]. cbn. lia. }
    all: eapply within_bind; [apply within_flush_bang|intros; apply within_free; lia].
  Qed.

  (** the loop: one for each character, and the recursive calls *)
  Lemma loop_bound s st : exists w, fst (cloop (cstep p rec) st s) + w <= length s + w * w /\
    match snd (cloop (cstep p rec) st s) with Ok st' => wst' st' + w <= wst' st + length s | _ => w <= wst' st + length s end.
  Proof.
    revert st. induction s as [|c s IH]; intros st; [exists 0; cbn; lia|]. cbn [cloop].
    destruct (within_step st c) as (w & H1 & H2). unfold cbind. cbn [fst snd].
    destruct (snd (cstep p rec st c)) as [st1|e| |]; cbn [fst snd].
    2-4: exists w; cbn [length]; split; lia.
    destruct (IH st1) as (w' & H3 & H4). exists (w + w'). cbn [length]. split; [nia|].
    destruct (snd (cloop _ _ _)); lia.
  Qed.
End Bound.

Lemma square_mono W n : W <= n -> W * W + n <= n * n + W.
Proof. intros H. destruct (Nat.eq_dec W n) as [->|]; nia. Qed.
Lemma counted_bound fuel p s : fst (counted1_fuel fuel p s) <= length s * length s.
Proof.
  revert s. induction fuel as [|fuel IH]; intros s; [cbn; lia|]. cbn [counted1_fuel].
  destruct (loop_bound p _ IH s pinit) as (w & H1 & H2). unfold cbind.
  assert (E : wst' pinit = 0) by reflexivity. rewrite E in H2.
  destruct (snd (cloop _ _ _)) as [st| | |]; cbn [fst snd].
  2-4: pose proof (square_mono w (length s)); lia.
  destruct (within_finish p _ IH st) as (w' & H3 & H4). unfold wst' in H2.
  assert (w' <= wst st) by (destruct (snd (cfinish _ _ _)); lia). cbn [fst].
  remember (w + w') as W eqn:EW. assert (HW : W <= length s) by lia.
  pose proof (square_mono W (length s) HW) as HN.
  assert (HM : w * w + w' * w' <= W * W) by nia. lia.
Qed.
Lemma steps_bound p s : steps1 p s <= length s * length s.
Proof. apply counted_bound. Qed.

(** ** The bound is tight up to a factor of four: [k] opening and [k] closing curly brackets *)
Definition nest (k : nat) : str := repeat c_lcurly k ++ repeat c_rcurly k.

Lemma cloop_app {T A} (f : T -> A -> counted T) s a b :
  cloop f s (a ++ b) = let$ s' := cloop f s a in cloop f s' b.
Proof.
  revert s. induction a as [|x a IH]; intros s; cbn [app cloop].
  - unfold cbind. cbn. destruct (cloop f s b); reflexivity.
  - rewrite (surjective_pairing (f s x)) at 1. unfold cbind at 1 3. cbn [fst snd].
    destruct (snd (f s x)) as [s'| | |]; try reflexivity. rewrite IH. unfold cbind.
    destruct (snd (cloop f s' a)) as [s''| | |]; cbn [fst snd]; try reflexivity. f_equal. lia.
Qed.
Section Nest.
  Context (p : profile) (rec : str -> counted document1).
  Definition nst (ct : str) (d : N) : pstate := mkP [] 1 false false 1 (BScope ct Curly1 d).
  Lemma nest_open k ct d : (d + N.of_nat k < two32)%N ->
    cloop (cstep p rec) (nst ct d) (repeat c_lcurly k) = (k, Ok (nst (ct ++ repeat c_lcurly k) (d + N.of_nat k)%N)).
  Proof.
    revert ct d. induction k as [|k IH]; intros ct d H; cbn [repeat cloop].
    - rewrite app_nil_r. unfold free. do 2 f_equal. f_equal. lia.
    - assert (E : cstep p rec (nst ct d) c_lcurly = free (Ok (nst (ct ++ [c_lcurly]) (d + 1)%N))).
      { transitivity (let$ st := (let$ d' := free (add32 p d 1) in free (Ok (nst (ct ++ [c_lcurly]) d'))) in
                        free (Ok (set_escaped st false))).
        - unfold cstep, cstep_main. cbn [nst ps_buf ps_escaped ps_comment]. rewrite andb_false_r. reflexivity.
        - rewrite add32_ok by lia. reflexivity. }
      rewrite E. unfold cbind. cbn [fst snd free]. rewrite IH by lia. cbn [fst snd].
      rewrite <- app_assoc. cbn [app].
      replace (d + N.of_nat (S k))%N with (d + 1 + N.of_nat k)%N by lia. reflexivity.
  Qed.
  Lemma nest_close k ct d : (N.of_nat k < d)%N ->
    cloop (cstep p rec) (nst ct d) (repeat c_rcurly k) = (k, Ok (nst (ct ++ repeat c_rcurly k) (d - N.of_nat k)%N)).
  Proof.
    revert ct d. induction k as [|k IH]; intros ct d H; cbn [repeat cloop].
    - rewrite app_nil_r. unfold free. do 2 f_equal. f_equal. lia.
    - assert (E : cstep p rec (nst ct d) c_rcurly = free (Ok (nst (ct ++ [c_rcurly]) (d - 1)%N))).
      { transitivity (let$ st := (let$ d' := free (sub32 p d 1) in
                          if (d' =? 0)%N then
                            let$ st := cflush_bang p rec (nst ct d') in free (Ok (set_buf st buffer_text))
                          else free (Ok (nst (ct ++ [c_rcurly]) d'))) in
                        free (Ok (set_escaped st false))).
        - unfold cstep, cstep_main. cbn [nst ps_buf ps_escaped ps_comment]. rewrite andb_false_r. reflexivity.
        - rewrite sub32_ok by lia. unfold cbind. cbn [snd fst free]. destruct (N.eqb_spec (d - 1) 0); [lia|]. reflexivity. }
      rewrite E. unfold cbind. cbn [fst snd free]. rewrite IH by lia. cbn [fst snd].
      rewrite <- app_assoc. cbn [app].
      replace (d - N.of_nat (S k))%N with (d - 1 - N.of_nat k)%N by lia. reflexivity.
  Qed.
End Nest.

Fixpoint nested_doc (k : nat) : document1 :=
  match k with O => [] | S k => [mkChunk1 1 (Scope1 (mkScope1 (nested_doc k) Curly1))] end.
Lemma nest_counted_doc k fuel p : k < fuel -> (N.of_nat k < two32)%N ->
  fst (counted1_fuel fuel p (nest k)) = k * k + k /\ snd (counted1_fuel fuel p (nest k)) = Ok (nested_doc k).
Proof.
  revert fuel. induction k as [|k IH]; intros fuel Hf Hk.
  - destruct fuel as [|fuel]; [lia|]. split; reflexivity.
  - destruct fuel as [|fuel]; [lia|]. destruct (IH fuel) as (IH1 & IH2); [lia|lia|]. set (d := nested_doc k) in *.
    cbn [counted1_fuel]. set (rec := counted1_fuel fuel p) in *.
    assert (E : nest (S k) = [c_lcurly] ++ repeat c_lcurly k ++ repeat c_rcurly k ++ [c_rcurly]).
    { unfold nest. cbn [repeat app]. now rewrite <- repeat_cons. }
    assert (L : cloop (cstep p rec) pinit (nest (S k)) =
      (S (k + (k + (1 + fst (rec (nest k))))), Ok (mkP [mkChunk1 1 (Scope1 (mkScope1 d Curly1))] 1 false false 1 (BText [])))).
    { rewrite E, cloop_app.
      assert (E1 : cloop (cstep p rec) pinit [c_lcurly] = (1, Ok (nst [] 1))) by reflexivity.
      rewrite E1. unfold cbind. cbn [fst snd]. rewrite cloop_app, nest_open by lia.
      unfold cbind. cbn [fst snd app]. rewrite cloop_app, nest_close by lia.
      unfold cbind. cbn [fst snd]. fold (nest k).
      replace (1 + N.of_nat k - N.of_nat k)%N with 1%N by lia.
      assert (E2 : cstep p rec (nst (nest k) 1) c_rcurly =
        (fst (rec (nest k)), Ok (mkP [mkChunk1 1 (Scope1 (mkScope1 d Curly1))] 1 false false 1 (BText [])))).
      { transitivity (let$ st := (let$ st := cflush_bang p rec (nst (nest k) 0) in free (Ok (set_buf st buffer_text))) in
                        free (Ok (set_escaped st false))); [reflexivity|].
        unfold cflush_bang, cbind, nst. cbn [ps_buf ps_bline ps_chunks cflush fst snd].
        unfold cbind. cbn [negb N.eqb free fst snd]. rewrite IH2. cbn [map_err fst snd]. rewrite !Nat.add_0_r. reflexivity. }
      cbn [cloop]. rewrite E2. unfold cbind. cbn [fst snd free]. rewrite Nat.add_0_r. reflexivity. }
    rewrite L. unfold cbind. cbn [fst snd]. rewrite IH1. cbn. split; [lia|]. reflexivity.
Qed.
Lemma nest_counted k fuel p : k < fuel -> (N.of_nat k < two32)%N ->
  fst (counted1_fuel fuel p (nest k)) = k * k + k /\ exists d, snd (counted1_fuel fuel p (nest k)) = Ok d.
Proof. intros H K. destruct (nest_counted_doc k fuel p H K) as [A B]. split; [exact A|]. eexists. exact B. Qed.
Lemma nest_length k : length (nest k) = 2 * k.
Proof. unfold nest. rewrite app_length, !repeat_length. lia. Qed.
Lemma nest_steps k p : (N.of_nat k < two32)%N -> steps1 p (nest k) = k * k + k.
Proof. intros H. apply nest_counted; [rewrite nest_length; lia|assumption]. Qed.

(** ** Documents of bounded depth are parsed in linear time *)

(** [shallow D d]: no text of [d] lies inside more than [D] scopes and arguments *)
Fixpoint shallow (D : nat) (cs : list chunk1) : Prop :=
  Forall (fun c => match c with
                   | mkChunk1 _ (Text1 _) => True
                   | mkChunk1 _ (Scope1 sc) => match D with O => False | S D' => shallow D' (chunks1 sc) end
                   | mkChunk1 _ (Command1 (mkCommand1 _ args)) =>
                       Forall (fun a => match D with O => False | S D' => shallow D' (chunks1 (snd a)) end) args
                   end) cs.
Lemma shallow_app D a b : shallow D (a ++ b) <-> shallow D a /\ shallow D b.
Proof. destruct D; cbn [shallow]; apply Forall_app. Qed.

Definition linear {A} (D : nat) (b : nat) (cs0 : list chunk1) (q : A -> nat) (ch : A -> list chunk1) (x : counted A) : Prop :=
  forall a, snd x = Ok a -> shallow D (ch a) -> shallow D cs0 /\ exists w, fst x <= w * D /\ q a + w <= b.
Lemma linear_bind {A B} D b cs0 (q : A -> nat) ch (q' : B -> nat) ch' x f :
  linear D b cs0 q ch x -> (forall a, snd x = Ok a -> linear D (q a) (ch a) q' ch' (f a)) ->
  linear D b cs0 q' ch' (cbind x f).
Proof.
  intros H1 H2 y E Hy. unfold cbind in *. destruct (snd x) as [a| | |] eqn:Ex; cbn [fst snd] in *; try discriminate.
  destruct (H2 a eq_refl y E Hy) as (Ha & w' & H3 & H4). destruct (H1 a Ex Ha) as (H0 & w & H5 & H6).
  split; [assumption|]. exists (w + w'). split; [nia|lia].
Qed.
(** a computation that does not touch the chunks *)
Lemma linear_pure {A} D b cs0 (q : A -> nat) x : (forall a, x = Ok a -> q a <= b) -> linear D b cs0 q (fun _ => cs0) (free x).
Proof. intros H a E Hs. cbn in *. split; [assumption|]. exists 0. specialize (H a E). cbn. lia. Qed.
Lemma linear_ok {A} D b cs0 (q : A -> nat) ch a : q a <= b -> ch a = cs0 -> linear D b cs0 q ch (free (Ok a)).
Proof. intros H Hc a' [= <-] Hs. rewrite Hc in Hs. split; [assumption|]. exists 0. cbn. lia. Qed.
Lemma linear_mono {A} D b b' cs0 (q q' : A -> nat) ch x : b <= b' -> (forall a, q' a <= q a) ->
  linear D b cs0 q ch x -> linear D b' cs0 q' ch x.
Proof. intros H H' L a E Hs. destruct (L a E Hs) as (H1 & w & H2 & H3). split; [assumption|]. exists w. specialize (H' a). lia. Qed.

Section Linear.
  Context (p : profile) (rec : str -> counted document1) (D : nat).
  Hypothesis Hrec : forall s d D', S D' = D -> snd (rec s) = Ok d -> shallow D' d -> fst (rec s) <= length s * S D'.

  Lemma linear_scopes sc r (f := fun x : str * sv1 * str => match x with (content, variant, preceding) =>
        let$ inner := rec content in free (Ok (preceding, mkScope1 inner variant)) end) :
    snd (cmapM f sc) = Ok r ->
    Forall (fun a => match D with O => False | S D' => shallow D' (chunks1 (snd a)) end) r ->
    fst (cmapM f sc) <= scopes_weight sc * D.
  Proof.
    revert r. induction sc as [|[[ct v] pr] sc IH]; intros r E H; [cbn; lia|].
    cbn [cmapM] in *. unfold f at 1 in E. unfold f at 1. unfold cbind in *. cbn [fst snd free] in *.
    destruct (snd (rec ct)) as [d| | |] eqn:Er; cbn [fst snd] in *; try discriminate.
    destruct (snd (cmapM f sc)) as [r'| | |] eqn:Es; cbn [fst snd free] in *; try discriminate.
    injection E as <-. inversion H as [|? ? Hd Hr]; subst. cbn [snd chunks1] in Hd.
    specialize (IH r' eq_refl Hr).
    assert (Hc : fst (rec ct) <= length ct * D).
    { destruct D as [|D']; [contradiction|]. exact (Hrec ct d D' eq_refl Er Hd). }
    unfold scopes_weight in *. cbn [fold_right]. nia.
  Qed.
  Lemma linear_flush b l cs : linear D (weight b) cs (fun _ => 0) (fun x => x) (cflush rec b l cs).
  Proof.
    intros r E Hr. destruct b as [ct v d|lab sc d t|ct]; cbn [cflush weight] in *.
    - destruct (negb (d =? 0)%N); [discriminate|]. unfold cbind in *.
      destruct (snd (rec ct)) as [inner| | |] eqn:Ei; cbn [fst snd free] in *; try discriminate.
      injection E as <-. apply shallow_app in Hr as [Hr Hi]. split; [assumption|]. exists (S (length ct)).
      destruct D as [|D']; cbn [shallow] in Hi; inversion Hi as [|? ? Hx _]; subst; [contradiction|].
      specialize (Hrec ct inner D' eq_refl Ei Hx). split; [nia|lia].
    - destruct (negb (d =? 0)%N).
      + destruct (last_opt sc) as [[[? ?] ?]|]; discriminate.
      + unfold cbind in *. match type of E with context[cmapM ?f sc] => set (F := f) in * end.
        destruct (snd (cmapM F sc)) as [args| | |] eqn:Ea; cbn [fst snd free] in *; try discriminate.
        injection E as <-. apply shallow_app in Hr as [Hr Hi]. split; [assumption|]. exists (scopes_weight sc).
        assert (Hx : Forall (fun a => match D with O => False | S D' => shallow D' (chunks1 (snd a)) end) args)
          by (destruct D; cbn [shallow] in Hi; inversion Hi; assumption).
        pose proof (linear_scopes sc args Ea Hx). change (fst (cmapM F sc) <= scopes_weight sc * D) in H. split; lia.
    - destruct (negb (is_empty ct)); cbn [free fst snd] in *; injection E as <-.
      + apply shallow_app in Hr as [Hr _]. split; [assumption|]. exists 0. lia.
      + split; [assumption|]. exists 0. lia.
  Qed.
  Lemma linear_flush_bang st : linear D (wst st) (ps_chunks st) (fun _ => 0) ps_chunks (cflush_bang p rec st).
  Proof.
    unfold cflush_bang. cbv zeta. eapply (linear_bind _ _ _ (fun _ => 0) (fun cs => cs)); [|intros; apply linear_ok; [lia|reflexivity]].
    intros r E Hr. cbn [fst snd] in *.
    destruct (snd (cflush rec (ps_buf st) (ps_bline st) (ps_chunks st))) as [cs|e| |] eqn:Ef; cbn [map_err] in E; try discriminate.
    - injection E as <-. exact (linear_flush _ _ _ _ Ef Hr).
    - destruct (let* off := _ in _); discriminate.
  Qed.
  Lemma linear_start b st c : linear D b (ps_chunks st) wst ps_chunks (cstart_command p rec st c).
  Proof.
    unfold cstart_command. cbv zeta. destruct (negb (is_ascii_alphabetic c)).
    - eapply (linear_bind _ _ _ (fun _ => 0) ps_chunks).
      + eapply linear_mono; [| |apply (linear_flush_bang (set_buf st (buffer_push buffer_command c)))]; cbn; lia.
      + intros a _. apply linear_ok; [cbn; lia|reflexivity].
    - apply linear_ok; [cbn; lia|reflexivity].
  Qed.
  Ltac bang st := eapply linear_mono; [| |apply (linear_flush_bang st)];
    [unfold wst; repeat match goal with H : ps_buf _ = _ |- _ => rewrite H end; cbn; lia|intros; cbn; lia].
  Ltac leaf := apply linear_ok; [unfold wst; cbn [ps_buf set_buf set_bline]; repeat match goal with H : ps_buf _ = _ |- _ => rewrite H end; cbn [weight]|reflexivity].
  Ltac pure q := eapply (linear_bind _ _ _ q _); [apply linear_pure; intros; lia|cbn beta].
  Ltac fin := first [lia | rewrite ?app_length; cbn [length]; lia].
  Lemma linear_step_main st c : linear D (wst st + esc st + 1) (ps_chunks st) wst ps_chunks (cstep_main p rec st c).
  Proof.
    unfold cstep_main, esc.
    destruct (ps_buf st) as [ct v d|lab sc d t|ct] eqn:Eb; unfold wst at 1; rewrite Eb; cbn [weight].
    - destruct (negb (d =? 0)%N && ps_escaped st) eqn:E1.
      + apply andb_true_iff in E1 as [_ E1]. rewrite E1. leaf.
        pose proof (weight_push (buffer_push (BScope ct v d) c_bslash) c).
        pose proof (weight_push (BScope ct v d) c_bslash). cbn [weight] in *. fin.
      + destruct (_ =? c)%N.
        * pure (fun _ : N => S (length ct) + 1). intros d' _. leaf. pose proof (weight_push (BScope ct v d') c). cbn [weight] in *. fin.
        * destruct (_ =? c)%N.
          -- pure (fun _ : N => S (length ct) + 1). intros d' _. cbv zeta. destruct (d' =? 0)%N.
             ++ eapply (linear_bind _ _ _ (fun _ => 0) ps_chunks); [bang (set_buf st (BScope ct v d'))|intros; leaf; cbn; lia].
             ++ leaf. pose proof (weight_push (BScope ct v d') c). cbn [weight] in *. fin.
          -- leaf. pose proof (weight_push (BScope ct v d) c). cbn [weight] in *. fin.
    - destruct ((d =? 0)%N && is_opening c).
      + pure (fun _ : sv1 => scopes_weight sc + 1). intros v _.
        eapply (linear_bind _ _ _ weight); [apply linear_pure|].
        * cbn. intros b [= <-]. cbn. rewrite scopes_weight_app. cbn. lia.
        * intros b _. leaf. lia.
      + destruct ((d =? 0)%N && is_whitespace c); [leaf; lia|].
        destruct ((d =? 0)%N && ps_escaped st) eqn:E1.
        * eapply (linear_bind _ _ _ (fun _ => 0) ps_chunks); [bang st|].
          intros st1 _. eapply (linear_bind _ _ _ (fun _ => 0) ps_chunks);
            [|intros st2 _; apply (linear_start _ (set_bline st2 (ps_line st2)))].
          destruct (negb (is_empty t)); [|apply linear_ok; [lia|reflexivity]]. cbv zeta.
          pure (fun _ : N => 0). intros l _.
          eapply (linear_bind _ _ _ (fun _ => 0) (fun cs => cs)); [|intros; apply linear_ok; [lia|reflexivity]].
          eapply linear_mono; [| |apply linear_flush]; cbn; lia.
        * clear E1. destruct (negb (d =? 0)%N && ps_escaped st) eqn:E1.
          -- apply andb_true_iff in E1 as [_ E1]. rewrite E1. leaf.
             pose proof (weight_push (buffer_push (BCommand lab sc d t) c_bslash) c).
             pose proof (weight_push (BCommand lab sc d t) c_bslash). cbn [weight] in *. fin.
          -- destruct ((d =? 0)%N && negb (is_empty t)).
             ++ eapply (linear_bind _ _ _ (fun _ => 0) ps_chunks); [bang st|].
                intros st1 _. cbv zeta. pure (fun _ : N => 0). intros l _. leaf. cbn. lia.
             ++ pure (fun _ : bool * bool => scopes_weight sc + 1). intros [b1 b2] _. cbn [fst snd].
                destruct b1.
                { pure (fun _ : N => scopes_weight sc). intros d' _. leaf. lia. }
                destruct b2.
                { pure (fun _ : N => scopes_weight sc). intros d' _. leaf. lia. }
                destruct ((d =? 0)%N && is_closing c).
                { pure (fun _ : sv1 => scopes_weight sc). intros v _ ? ?. discriminate. }
                pure (fun _ : bool => scopes_weight sc + 1). intros ns _.
                destruct ((d =? 0)%N && negb ns).
                ** eapply (linear_bind _ _ _ (fun _ => 0) ps_chunks); [bang st|intros; leaf; cbn; lia].
                ** leaf. pose proof (weight_push (BCommand lab sc d t) c). cbn [weight] in *. fin.
    - destruct (ps_escaped st).
      + eapply (linear_bind _ _ _ (fun _ => 0) ps_chunks); [bang st|intros; apply linear_start].
      + destruct (is_opening c).
        * eapply (linear_bind _ _ _ (fun _ => 1) ps_chunks).
          { intros st1 E H. destruct (linear_flush_bang st st1 E H) as (H0 & w & H1 & H2). split; [assumption|].
            exists w. unfold wst in H2. rewrite Eb in H2. cbn in *. lia. }
          intros st1 _. pure (fun _ : sv1 => 1). intros v _. leaf. cbn. lia.
        * leaf. cbn. lia.
  Qed.
  Lemma linear_step st c : linear D (wst' st + 1) (ps_chunks st) wst' ps_chunks (cstep p rec st c).
  Proof.
    unfold cstep. destruct (c =? c_newline)%N.
    - pure (fun _ : N => wst' st + 1). intros l _.
      eapply (linear_bind _ _ _ wst ps_chunks).
      + eapply linear_mono; [| |apply (linear_step_main (set_line (set_comment st false) l))];
          [unfold wst', wst, esc; cbn; lia|reflexivity].
      + intros st1 _. apply linear_ok; [unfold wst', wst, esc; cbn; lia|reflexivity].
    - destruct (_ && _) eqn:E1; [apply linear_ok; [unfold wst', wst, esc; cbn; lia|reflexivity]|]. clear E1.
      destruct (_ && _) eqn:E1.
      { apply linear_ok; [|reflexivity]. apply andb_true_iff in E1 as [_ E1]. apply negb_true_iff in E1.
        unfold wst', wst, esc; cbn. rewrite E1. lia. }
      destruct (ps_comment st); [apply linear_ok; [lia|reflexivity]|].
      eapply (linear_bind _ _ _ wst ps_chunks).
      + eapply linear_mono; [| |apply linear_step_main]; [unfold wst'; lia|reflexivity].
      + intros st1 _. apply linear_ok; [unfold wst', wst, esc; cbn; lia|reflexivity].
  Qed.
  Lemma linear_finish st : linear D (wst st) (ps_chunks st) (fun _ => 0) (fun d => d) (cfinish p rec st).
  Proof.
    unfold cfinish. destruct (ps_buf st) as [ct v d|lab sc d t|ct] eqn:Eb.
    2: destruct (negb (is_empty t)).
    2: { eapply linear_bind; [apply linear_flush_bang|]. intros st1 _. cbv zeta.
         eapply (linear_bind _ _ _ (fun _ => 0) ps_chunks); [|intros; apply linear_ok; [lia|reflexivity]].
         eapply linear_mono; [| |apply (linear_flush_bang (set_buf st1 (buffer_push_str buffer_text t)))]; cbn; lia. }
    all: eapply linear_bind; [apply linear_flush_bang|intros; apply linear_ok; [lia|reflexivity]].
  Qed.
  Lemma linear_loop s st st' : snd (cloop (cstep p rec) st s) = Ok st' -> shallow D (ps_chunks st') ->
    shallow D (ps_chunks st) /\
    exists w, fst (cloop (cstep p rec) st s) <= length s + w * D /\ wst' st' + w <= wst' st + length s.
  Proof.
    revert st. induction s as [|c s IH]; intros st E Hs.
    - cbn in *. injection E as <-. split; [assumption|]. exists 0. lia.
    - cbn [cloop] in *. unfold cbind in *. cbn [fst snd] in *.
      destruct (snd (cstep p rec st c)) as [st1|e| |] eqn:E1; cbn [fst snd] in *; try discriminate.
      destruct (IH st1 E Hs) as (H1 & w' & H2 & H3). destruct (linear_step st c st1 E1 H1) as (H0 & w & H4 & H5).
      split; [assumption|]. exists (w + w'). cbn [length]. split; [nia|lia].
  Qed.
End Linear.

Lemma counted_linear fuel p D s d : snd (counted1_fuel fuel p s) = Ok d -> shallow D d ->
  fst (counted1_fuel fuel p s) <= length s * S D.
Proof.
  revert D s d. induction fuel as [|fuel IH]; intros D s d E Hd; [discriminate|]. cbn [counted1_fuel] in *.
  assert (Hrec : forall s d D', S D' = D -> snd (counted1_fuel fuel p s) = Ok d -> shallow D' d ->
    fst (counted1_fuel fuel p s) <= length s * S D') by (intros; eapply IH; eassumption).
  unfold cbind in *. destruct (snd (cloop _ _ _)) as [st| | |] eqn:El; cbn [fst snd] in *; try discriminate.
  destruct (linear_finish p _ D Hrec st d E Hd) as (H1 & w' & H2 & H3).
  destruct (linear_loop p _ D Hrec s pinit st El H1) as (_ & w & H4 & H5).
  assert (Z : wst' pinit = 0) by reflexivity. rewrite Z in H5. unfold wst' in H5. assert (HW : (w + w') * D <= length s * D) by (apply Nat.mul_le_mono_r; lia). rewrite Nat.mul_succ_r. rewrite Nat.mul_add_distr_r in HW. transitivity (length s + w * D + w' * D); [apply Nat.add_le_mono; assumption|lia].
Qed.
Lemma steps_linear p s d D : from_str1 p s = Ok d -> shallow D d -> steps1 p s <= length s * S D.
Proof. intros H. rewrite <- counted_erase in H. apply counted_linear. exact H. Qed.
