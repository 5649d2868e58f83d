(** * Mono: two runs of the same operation that differ only in fuel, or only in overflow checks

    [leq b x y]: [x] stopped early, or both runs agree.  With [b = true] "stopped" means
    panic (and the left run may use overflow checks where the right one wraps); with
    [b = false] it means out of fuel. *)
From Verif Require Import Base Ast1 Parse1 Ast2 Ast3 Ind.

Definition leq {E A} (b : bool) (x y : outcome E A) : Prop :=
  x = (if b then Panic else OutOfFuel) \/ x = y.
Definition prof_ok (b : bool) (p1 p2 : profile) : Prop := p1 = p2 \/ (b = true /\ p1 = Debug /\ p2 = Release).

Lemma leq_refl {E A} b (x : outcome E A) : leq b x x. Proof. now right. Qed.
Lemma leq_bind {E A B} b (x y : outcome E A) (f g : A -> outcome E B) :
  leq b x y -> (forall a, leq b (f a) (g a)) -> leq b (bind x f) (bind y g).
Proof. intros [->| ->] H; [left; destruct b; reflexivity|]. destruct y; cbn [bind]; [apply H|now right..]. Qed.
Lemma leq_map_err {E A} b (x y : outcome E A) f g :
  leq b x y -> (forall e, leq b (f e) (g e)) -> leq b (map_err f x) (map_err g y).
Proof.
  intros [->| ->] H; [left; destruct b; reflexivity|]. destruct y as [a|e| |]; cbn [map_err]; try now right.
  destruct (H e) as [->| ->]; [left; destruct b; reflexivity|now right].
Qed.
Lemma leq_unwrap {E E' A} b (x y : outcome E A) : leq b x y -> leq b (@unwrap E E' A x) (unwrap y).
Proof. intros [->| ->]; [left; destruct b; reflexivity|now right]. Qed.
Lemma leq_mapM_in {E A B} b (f g : A -> outcome E B) l : Forall (fun a => leq b (f a) (g a)) l -> leq b (mapM f l) (mapM g l).
Proof. induction 1 as [|x l Hx Hl IH]; cbn [mapM]; [apply leq_refl|]. apply leq_bind; [exact Hx|]. intros y. apply leq_bind; [exact IH|]. intros; apply leq_refl. Qed.
Lemma leq_mapM {E A B} b (f g : A -> outcome E B) l : (forall a, leq b (f a) (g a)) -> leq b (mapM f l) (mapM g l).
Proof. intros H. apply leq_mapM_in. apply Forall_forall. intros; apply H. Qed.
Lemma leq_foldM_in {E A T} b (f g : T -> A -> outcome E T) l : Forall (fun a => forall s, leq b (f s a) (g s a)) l ->
  forall s, leq b (foldM f s l) (foldM g s l).
Proof. induction 1 as [|x l Hx Hl IH]; intros s; cbn [foldM]; [apply leq_refl|]. apply leq_bind; [apply Hx|]. intros y. apply IH. Qed.
Lemma leq_foldM {E A T} b (f g : T -> A -> outcome E T) s l : (forall s a, leq b (f s a) (g s a)) -> leq b (foldM f s l) (foldM g s l).
Proof. intros H. apply leq_foldM_in. apply Forall_forall. intros; apply H. Qed.
Lemma leq_iterM_in {E A} b (f g : A -> outcome E unit) l : Forall (fun a => leq b (f a) (g a)) l -> leq b (iterM f l) (iterM g l).
Proof. induction 1 as [|x l Hx Hl IH]; cbn [iterM]; [apply leq_refl|]. apply leq_bind; [exact Hx|]. intros _. exact IH. Qed.


(** unfolding equations *)
Section Eqs.
  Context {E : Type} (p : profile).
  Lemma lscope1 cs v : @lines_scope1 E p (mkScope1 cs v) =
    let* ls := mapM (fun c => let* l := lines_chunk1 p c in sub32 p l 1) cs in let* t := sum32 p ls in add32 p t 1.
  Proof. reflexivity. Qed.
  Lemma lcommand1 label args : @lines_command1 E p (mkCommand1 label args) =
    let* total := foldM (fun total a => match a with (prec, arg) =>
       let* total := add32 p total (as_u32 (count_newlines prec)) in let* l := lines_scope1 p arg in let* l := sub32 p l 1 in add32 p total l end)
       (as_u32 (count_newlines label)) args in add32 p total 1.
  Proof. reflexivity. Qed.
  Lemma lscope2 cs v : @lines_scope2 E p (mkScope2 cs v) =
    let* ls := mapM (fun c => let* l := lines_chunk2 p c in sub32 p l 1) cs in let* t := sum32 p ls in add32 p t 1.
  Proof. reflexivity. Qed.
  Lemma lcommand2 label args : @lines_command2 E p (mkCommand2 label args) =
    let* total := foldM (fun total a => match a with (prec, arg) =>
       let* total := add32 p total (as_u32 (count_newlines prec)) in let* l := lines_scope2 p arg in let* l := sub32 p l 1 in add32 p total l end)
       (as_u32 (count_newlines label)) args in add32 p total 1.
  Proof. reflexivity. Qed.
  Lemma lscope3 cs v : @lines_scope3 E p (mkScope3 cs v) =
    let* ls := mapM (fun c => let* l := lines_chunk3 p c in sub32 p l 1) cs in let* t := sum32 p ls in add32 p t 1.
  Proof. reflexivity. Qed.
  Lemma lcommand3 label args : @lines_command3 E p (mkCommand3 label args) =
    let* total := foldM (fun total a => match a with (prec, arg) =>
       let* total := add32 p total (as_u32 (count_newlines prec)) in let* l := lines_scope3 p arg in let* l := sub32 p l 1 in add32 p total l end)
       (as_u32 (count_newlines label)) args in add32 p total 1.
  Proof. reflexivity. Qed.
  Lemma lenv2 label args content pb pe : @lines_env2 E p (mkEnv2 label args content pb pe) =
        let* lines := mul32 p (as_u32 (count_newlines label)) 2 in
        let* lines := add32 p lines (as_u32 (count_newlines (pb ++ pe))) in
        let* lines := foldM (fun lines a => match a with (prec, arg) =>
                   let* lines := add32 p lines (as_u32 (count_newlines prec)) in
                   let* l := lines_scope2 p arg in let* l := sub32 p l 1 in add32 p lines l end) lines args in
        let* lines := foldM (fun lines c => let* l := lines_chunk2 p c in let* l := sub32 p l 1 in add32 p lines l) lines content in
        add32 p lines 1.
  Proof. reflexivity. Qed.
  Lemma lenv3 label args content pb pe : @lines_env3 E p (mkEnv3 label args content pb pe) =
        let* lines := mul32 p (as_u32 (count_newlines label)) 2 in
        let* lines := add32 p lines (as_u32 (count_newlines (pb ++ pe))) in
        let* lines := foldM (fun lines a => match a with (prec, arg) =>
                   let* lines := add32 p lines (as_u32 (count_newlines prec)) in
                   let* l := lines_scope3 p arg in let* l := sub32 p l 1 in add32 p lines l end) lines args in
        let* lines := foldM (fun lines c => let* l := lines_chunk3 p c in let* l := sub32 p l 1 in add32 p lines l) lines content in
        add32 p lines 1.
  Proof. reflexivity. Qed.
  Lemma lmaths3 v t cs : @lines_maths3 E p (mkMaths3 v t cs) =
    let* ls := mapM (fun c => let* l := lines_chunk3 p c in sub32 p l 1) cs in let* t := sum32 p ls in add32 p t 1.
  Proof. reflexivity. Qed.
  Lemma vscope3 cs v : validate_scope3 p (mkScope3 cs v) = iterM (validate_chunk3 p) cs. Proof. reflexivity. Qed.
  Lemma vmaths3 v t cs : validate_maths3 p (mkMaths3 v t cs) = iterM (validate_chunk3 p) cs. Proof. reflexivity. Qed.
  Lemma vcommand3 label args : validate_command3 p (mkCommand3 label args) =
        if str_eqb label s_begin then Err BeginCommand else if str_eqb label s_end then Err EndCommand else
          let* _ := (if str_len label =? 1 then Ok tt else check_chars label) in
          iterM (fun a => match a with (_, sc) => validate_scope3 p sc end) args.
  Proof. reflexivity. Qed.
  Lemma venv3 label args content pb pe : validate_env3 p (mkEnv3 label args content pb pe) =
        let* _ := check_chars label in
        let* _ := iterM (fun a => match a with (_, sc) => validate_scope3 p sc end) args in
        iterM (validate_chunk3 p) content.
  Proof. reflexivity. Qed.
  Lemma i1scope cs v : @into1_scope E p (mkScope2 cs v) =
    let* css := mapM (fun c => into1_chunk p c None) cs in Ok (mkScope1 (concat css) (sv1_of_sv2 v)).
  Proof. reflexivity. Qed.
  Lemma i1command label args : @into1_command E p (mkCommand2 label args) =
        let* args := mapM (fun a => match a with (s, sc) => let* sc := into1_scope p sc in Ok (s, sc) end) args in
        Ok (mkCommand1 label args).
  Proof. reflexivity. Qed.
  Lemma i1env label args content prec_begin prec_end line : @into1_env E p (mkEnv2 label args content prec_begin prec_end) line =
        let* end_line :=
          add32 p line
            (as_u32 (count_newlines prec_begin + count_newlines label
                     + count_newlines (concat (map show_chunk2 content))
                     + fold_right N.add 0
                         (map (fun a => match a with (prec, arg) =>
                                 count_newlines prec + count_newlines (show_scope2 arg) end) args))) in
        let* lab := unwrap (from_str1 p label) in
        let lab := mkScope1 lab Curly1 in
        let* args1 := mapM (fun a => match a with (prec, arg) =>
                              let* sc := into1_scope p arg in Ok (prec, sc) end) args in
        let* css := mapM (fun c => into1_chunk p c (Some line)) content in
        Ok ([mkChunk1 line (Command1 (mkCommand1 s_begin ((prec_begin, lab) :: args1)))]
            ++ concat css
            ++ [mkChunk1 end_line (Command1 (mkCommand1 s_end [(prec_end, lab)]))]).
  Proof. reflexivity. Qed.
  Lemma i1chunk l v sh : @into1_chunk E p (mkChunk2 l v) sh =
        let* line := match sh with None => Ok l | Some self_line => let* o := sub32 p self_line 1 in add32 p l o end in into1_variant p v line.
  Proof. reflexivity. Qed.
  Lemma i2scope cs v : @into2_scope E p (mkScope3 cs v) =
    let* css := mapM (into2_chunk p) cs in Ok (mkScope2 (concat css) (sv2_of_sv3 v)).
  Proof. reflexivity. Qed.
  Lemma i2command label args : @into2_command E p (mkCommand3 label args) =
        let* args := mapM (fun a => match a with (s, sc) => let* sc := into2_scope p sc in Ok (s, sc) end) args in
        Ok (mkCommand2 label args).
  Proof. reflexivity. Qed.
  Lemma i2env label args content pb pe : @into2_env E p (mkEnv3 label args content pb pe) =
        let* args := mapM (fun a => match a with (s, sc) => let* sc := into2_scope p sc in Ok (s, sc) end) args in
        let* css := mapM (into2_chunk p) content in Ok (mkEnv2 label args (concat css) pb pe).
  Proof. reflexivity. Qed.
  Lemma i2maths v t content : @into2_maths E p (mkMaths3 v t content) =
        let* ls := mapM (fun c => let* l := lines_chunk3 p c in sub32 p l 1) content in
        let* sum := sum32 p ls in
        let* lines := add32 p sum 1 in
        let* css := mapM (into2_chunk p) content in
        match v with
        | Brackets =>
            let '(o, c) := match t with Inline => (c_lround, c_rround) | Outline => (c_lsquare, c_rsquare) end in
            Ok ([mkChunk2 1 (Command2 (mkCommand2 [o] []))] ++ concat css ++ [mkChunk2 lines (Command2 (mkCommand2 [c] []))])
        | Dollars =>
            let dollars := match t with Inline => [c_dollar] | Outline => [c_dollar; c_dollar] end in
            let out := concat css in
            match out with
            | [] => Ok [mkChunk2 1 (Text2 (dollars ++ dollars))]
            | _ => Ok (append_dollars dollars lines (prepend_dollars dollars out))
            end
        end.
  Proof. reflexivity. Qed.
End Eqs.

Section Mono.
  Context (b : bool) (p1 p2 : profile) (HP : prof_ok b p1 p2).
  Lemma leq_add {E} x y : @leq E N b (add32 p1 x y) (add32 p2 x y).
  Proof. destruct HP as [->|(-> & -> & ->)]; [apply leq_refl|]. unfold add32. destruct (_ <? _); [apply leq_refl|now left]. Qed.
  Lemma leq_sub {E} x y : @leq E N b (sub32 p1 x y) (sub32 p2 x y).
  Proof. destruct HP as [->|(-> & -> & ->)]; [apply leq_refl|]. unfold sub32. destruct (_ <=? _); [apply leq_refl|now left]. Qed.
  Lemma leq_mul {E} x y : @leq E N b (mul32 p1 x y) (mul32 p2 x y).
  Proof. destruct HP as [->|(-> & -> & ->)]; [apply leq_refl|]. unfold mul32. destruct (_ <? _); [apply leq_refl|now left]. Qed.
  Lemma leq_sum {E} l : @leq E N b (sum32 p1 l) (sum32 p2 l).
  Proof. apply leq_foldM. intros; apply leq_add. Qed.
  Lemma leq_inc {E} z : @leq E Z b (inc_i32 p1 z) (inc_i32 p2 z).
  Proof. destruct HP as [->|(-> & -> & ->)]; [apply leq_refl|]. unfold inc_i32. destruct (_ <? _)%Z; [apply leq_refl|now left]. Qed.

  Ltac rfl := match goal with |- leq _ ?x ?y => constr_eq x y; apply leq_refl end.
  Ltac mono1 :=
    lazymatch goal with
    | |- forall _, _ => intro
    | |- leq _ (bind _ _) (bind _ _) => apply leq_bind
    | |- leq _ (map_err _ _) (map_err _ _) => apply leq_map_err
    | |- leq _ (unwrap _) (unwrap _) => apply leq_unwrap
    | |- leq _ (add32 _ _ _) _ => apply leq_add
    | |- leq _ (sub32 _ _ _) _ => apply leq_sub
    | |- leq _ (mul32 _ _ _) _ => apply leq_mul
    | |- leq _ (sum32 _ _) _ => apply leq_sum
    | |- leq _ (inc_i32 _ _) _ => apply leq_inc
    | |- leq _ (mapM _ _) _ => apply leq_mapM
    | |- leq _ (foldM _ _ _) _ => apply leq_foldM
    | |- leq _ (if ?c then _ else _) _ => destruct c
    | |- leq _ (match ?c with _ => _ end) _ => destruct c
    end.
  Ltac mono := repeat (first [progress (cbv zeta) | rfl | assumption | mono1]).

  (** ** stage-1 parsing *)
  Section P1.
    Context (r1 r2 : str -> outcome error document1) (HR : forall s, leq b (r1 s) (r2 s)).
    Lemma flush_leq bf l cs : leq b (flush r1 bf l cs) (flush r2 bf l cs).
    Proof. unfold flush. mono; apply HR. Qed.
    Lemma flush_bang_leq st : leq b (flush_bang p1 r1 st) (flush_bang p2 r2 st).
    Proof. unfold flush_bang. mono. apply flush_leq. Qed.
    Lemma start_command_leq st c : leq b (start_command p1 r1 st c) (start_command p2 r2 st c).
    Proof. unfold start_command. mono. apply flush_bang_leq. Qed.
    Lemma step_main_leq st c : leq b (step_main p1 r1 st c) (step_main p2 r2 st c).
    Proof. unfold step_main. repeat (first [progress cbv zeta|rfl|apply start_command_leq|apply flush_bang_leq|apply flush_leq|mono1]). Qed.
    Lemma step_leq st c : leq b (step p1 r1 st c) (step p2 r2 st c).
    Proof. unfold step. repeat (first [progress cbv zeta|rfl|apply step_main_leq|mono1]). Qed.
    Lemma finish_leq st : leq b (finish p1 r1 st) (finish p2 r2 st).
    Proof. unfold finish. repeat (first [progress cbv zeta|rfl|apply flush_bang_leq|mono1]). Qed.
  End P1.
  Lemma from_str1_fuel_leq n m s : (n = m \/ (b = false /\ (n <= m)%nat)) -> leq b (from_str1_fuel n p1 s) (from_str1_fuel m p2 s).
  Proof.
    revert m s. induction n as [|n IH]; intros m s H.
    - destruct H as [<-|[-> _]]; [apply leq_refl|now left].
    - destruct m as [|m]; [exfalso; destruct H as [H|[_ H]]; lia|]. cbn [from_str1_fuel]. cbv zeta.
      assert (IH' : forall s, leq b (from_str1_fuel n p1 s) (from_str1_fuel m p2 s)) by (intros; apply IH; destruct H as [H|[Hb H]]; [left; lia|right; split; [exact Hb|lia]]).
      apply leq_bind; [apply leq_foldM; intros; now apply step_leq|intros; now apply finish_leq].
  Qed.
  Lemma from_str1_leq s : leq b (from_str1 p1 s) (from_str1 p2 s).
  Proof. apply from_str1_fuel_leq. now left. Qed.

  (** ** stage 1: lines, validation, pushes *)
  Lemma lines1_leq_chunk {E} c : @leq E N b (lines_chunk1 p1 c) (lines_chunk1 p2 c).
  Proof.
    assert (SC : forall cs v, Forall (fun c => @leq E N b (lines_chunk1 p1 c) (lines_chunk1 p2 c)) cs ->
      @leq E N b (lines_scope1 p1 (mkScope1 cs v)) (lines_scope1 p2 (mkScope1 cs v))).
    { intros cs v H. rewrite !lscope1. apply leq_bind; [|mono]. apply leq_mapM_in. eapply Forall_impl; [|exact H]. intros. mono. }
    induction c as [l s|l lab args IH|l cs v IH] using chunk1_ind'.
    - apply leq_add.
    - change (@leq E N b (lines_command1 p1 (mkCommand1 lab args)) (lines_command1 p2 (mkCommand1 lab args))). rewrite !lcommand1.
      apply leq_bind; [|mono]. apply leq_foldM_in. eapply Forall_impl; [|exact IH]. intros [pre [cs v]] K s. cbn [snd chunks1] in K. mono. now apply SC.
    - now apply (SC cs v).
  Qed.
  Lemma lines1_leq {E} d : @leq E N b (lines1 p1 d) (lines1 p2 d).
  Proof. unfold lines1. mono. apply lines1_leq_chunk. Qed.
  Lemma validate_from1_leq d : forall n, leq b (validate_from1 p1 n d) (validate_from1 p2 n d).
  Proof. induction d as [|c d IH]; intros n; cbn [validate_from1]; [apply leq_refl|]. mono; first [apply lines1_leq_chunk|apply IH]. Qed.
  Lemma end_line1_leq {E} d : @leq E N b (end_line1 p1 d) (end_line1 p2 d).
  Proof. unfold end_line1. mono. apply lines1_leq_chunk. Qed.
  Lemma push1_leq d v : leq b (push1 p1 d v) (push1 p2 d v).
  Proof. unfold push1, push_unchecked1. mono. apply end_line1_leq. Qed.
  Lemma push_chunk1_leq d c : leq b (push_chunk1 p1 d c) (push_chunk1 p2 d c).
  Proof. unfold push_chunk1. mono. apply end_line1_leq. Qed.

  (** ** stage 2 *)
  Section P2.
    Context (r1 r2 : list chunk1 -> outcome error document2) (HR : forall s, leq b (r1 s) (r2 s)).
    Lemma args2_leq args : leq b (args2_try_from r1 args) (args2_try_from r2 args).
    Proof. unfold args2_try_from, scope2_try_from. mono. apply HR. Qed.
    Lemma tstep_leq st c : leq b (tstep p1 r1 st c) (tstep p2 r2 st c).
    Proof.
      unfold tstep, t_push_buffer, shift_err, command2_try_from, scope2_try_from.
      repeat (first [progress cbv zeta|rfl|apply args2_leq|apply HR|mono1]).
    Qed.
  End P2.
  Lemma try_from2_fuel_leq n m s : (n = m \/ (b = false /\ (n <= m)%nat)) -> leq b (try_from2_fuel n p1 s) (try_from2_fuel m p2 s).
  Proof.
    revert m s. induction n as [|n IH]; intros m s H.
    - destruct H as [<-|[-> _]]; [apply leq_refl|now left].
    - destruct m as [|m]; [exfalso; destruct H as [H|[_ H]]; lia|]. cbn [try_from2_fuel]. cbv zeta.
      assert (IH' : forall s, leq b (try_from2_fuel n p1 s) (try_from2_fuel m p2 s)) by (intros; apply IH; destruct H as [H|[Hb H]]; [left; lia|right; split; [exact Hb|lia]]).
      apply leq_bind; [apply leq_foldM; intros; now apply tstep_leq|intros; apply leq_refl].
  Qed.
  Lemma try_from2_leq d : leq b (try_from2 p1 d) (try_from2 p2 d).
  Proof. apply try_from2_fuel_leq. now left. Qed.
  Lemma from_str2_leq s : leq b (from_str2 p1 s) (from_str2 p2 s).
  Proof. unfold from_str2. apply leq_bind; [apply from_str1_leq|intros; apply try_from2_leq]. Qed.

  Lemma lines2_leq_chunk {E} c : @leq E N b (lines_chunk2 p1 c) (lines_chunk2 p2 c).
  Proof.
    assert (SC : forall cs v, Forall (fun c => @leq E N b (lines_chunk2 p1 c) (lines_chunk2 p2 c)) cs ->
      @leq E N b (lines_scope2 p1 (mkScope2 cs v)) (lines_scope2 p2 (mkScope2 cs v))).
    { intros cs v H. rewrite !lscope2. apply leq_bind; [|mono]. apply leq_mapM_in. eapply Forall_impl; [|exact H]. intros. mono. }
    induction c as [l s|l lab args IH|l cs v IH|l lab args cs pb pe IHa IHc] using chunk2_ind'.
    - apply leq_add.
    - change (@leq E N b (lines_command2 p1 (mkCommand2 lab args)) (lines_command2 p2 (mkCommand2 lab args))). rewrite !lcommand2.
      apply leq_bind; [|mono]. apply leq_foldM_in. eapply Forall_impl; [|exact IH]. intros [pre [cs v]] K s. cbn [snd chunks2] in K. mono. now apply SC.
    - now apply (SC cs v).
    - change (@leq E N b (lines_env2 p1 (mkEnv2 lab args cs pb pe)) (lines_env2 p2 (mkEnv2 lab args cs pb pe))). rewrite !lenv2.
      apply leq_bind; [mono|]. intros ?. apply leq_bind; [mono|]. intros ?. apply leq_bind.
      + apply leq_foldM_in. eapply Forall_impl; [|exact IHa]. intros [pre [cs' v]] K s. cbn [snd chunks2] in K. mono. now apply SC.
      + intros ?. apply leq_bind; [|mono]. apply leq_foldM_in. eapply Forall_impl; [|exact IHc]. intros. mono.
  Qed.
  Lemma lines2_leq {E} d : @leq E N b (lines2 p1 d) (lines2 p2 d).
  Proof. unfold lines2. mono. apply lines2_leq_chunk. Qed.
  Lemma validate_from2_leq d : forall n, leq b (validate_from2 p1 n d) (validate_from2 p2 n d).
  Proof. induction d as [|c d IH]; intros n; cbn [validate_from2]; [apply leq_refl|]. mono; first [apply lines2_leq_chunk|apply IH]. Qed.
  Lemma end_line2_leq {E} d : @leq E N b (end_line2 p1 d) (end_line2 p2 d).
  Proof. unfold end_line2. mono. apply lines2_leq_chunk. Qed.
  Lemma push2_leq d v : leq b (push2 p1 d v) (push2 p2 d v).
  Proof. unfold push2, push_unchecked2. mono. apply end_line2_leq. Qed.
  Lemma push_chunk2_leq d c : leq b (push_chunk2 p1 d c) (push_chunk2 p2 d c).
  Proof. unfold push_chunk2. mono. apply end_line2_leq. Qed.

  (** ** stage 2 back to stage 1 *)
  Lemma into1_leq {E} c : forall sh, @leq E _ b (into1_chunk p1 c sh) (into1_chunk p2 c sh).
  Proof.
    assert (SC : forall cs v, Forall (fun c => forall sh, @leq E _ b (into1_chunk p1 c sh) (into1_chunk p2 c sh)) cs ->
      @leq E _ b (into1_scope p1 (mkScope2 cs v)) (into1_scope p2 (mkScope2 cs v))).
    { intros cs v H. rewrite !i1scope. apply leq_bind; [|mono]. apply leq_mapM_in. eapply Forall_impl; [|exact H]. intros a K. apply K. }
    assert (AR : forall args, Forall (fun a => Forall (fun c => forall sh, @leq E _ b (into1_chunk p1 c sh) (into1_chunk p2 c sh)) (chunks2 (snd a))) args ->
      leq b (mapM (fun a : str * scope2 => match a with (s, sc) => let* sc := @into1_scope E p1 sc in Ok (s, sc) end) args)
            (mapM (fun a : str * scope2 => match a with (s, sc) => let* sc := into1_scope p2 sc in Ok (s, sc) end) args)).
    { intros args H. apply leq_mapM_in. eapply Forall_impl; [|exact H]. intros [pre [cs v]] K. cbn [snd chunks2] in K. mono. now apply SC. }
    assert (HD : forall l sh (f g : N -> outcome E (list chunk1)), (forall n, leq b (f n) (g n)) ->
      leq b (let* line := match sh with None => Ok l | Some self_line => let* o := sub32 p1 self_line 1 in add32 p1 l o end in f line)
            (let* line := match sh with None => Ok l | Some self_line => let* o := sub32 p2 self_line 1 in add32 p2 l o end in g line)).
    { intros l sh f g H. apply leq_bind; [mono|exact H]. }
    induction c as [l s|l lab args IH|l cs v IH|l lab args cs pb pe IHa IHc] using chunk2_ind'; intros sh; rewrite !i1chunk; apply HD; intros n.
    - apply leq_refl.
    - change (@leq E _ b (let* c := into1_command p1 (mkCommand2 lab args) in Ok [mkChunk1 n (Command1 c)]) (let* c := into1_command p2 (mkCommand2 lab args) in Ok [mkChunk1 n (Command1 c)])).
      rewrite !i1command. apply leq_bind; [|mono]. apply leq_bind; [|mono]. now apply AR.
    - change (@leq E _ b (let* c := into1_scope p1 (mkScope2 cs v) in Ok [mkChunk1 n (Scope1 c)]) (let* c := into1_scope p2 (mkScope2 cs v) in Ok [mkChunk1 n (Scope1 c)])).
      apply leq_bind; [|mono]. now apply SC.
    - change (@leq E _ b (into1_env p1 (mkEnv2 lab args cs pb pe) n) (into1_env p2 (mkEnv2 lab args cs pb pe) n)). rewrite !i1env.
      apply leq_bind; [mono|]. intros ?. apply leq_bind; [apply leq_unwrap, from_str1_leq|]. intros ?. apply leq_bind; [now apply AR|]. intros ?.
      apply leq_bind; [|mono]. apply leq_mapM_in. eapply Forall_impl; [|exact IHc]. intros ? K; apply K.
  Qed.
  Lemma from2_to1_leq {E} d : @leq E _ b (from2_to1 p1 d) (from2_to1 p2 d).
  Proof. unfold from2_to1. mono. apply into1_leq. Qed.

  (** ** stage 3 *)
  Lemma lines3_leq_chunk {E} c : @leq E N b (lines_chunk3 p1 c) (lines_chunk3 p2 c).
  Proof.
    assert (SC : forall cs v, Forall (fun c => @leq E N b (lines_chunk3 p1 c) (lines_chunk3 p2 c)) cs ->
      @leq E N b (lines_scope3 p1 (mkScope3 cs v)) (lines_scope3 p2 (mkScope3 cs v))).
    { intros cs v H. rewrite !lscope3. apply leq_bind; [|mono]. apply leq_mapM_in. eapply Forall_impl; [|exact H]. intros. mono. }
    induction c as [l s|l s|l lab args IH|l cs v IH|l lab args cs pb pe IHa IHc|l v t cs IH] using chunk3_ind'.
    - apply leq_add.
    - apply leq_add.
    - change (@leq E N b (lines_command3 p1 (mkCommand3 lab args)) (lines_command3 p2 (mkCommand3 lab args))). rewrite !lcommand3.
      apply leq_bind; [|mono]. apply leq_foldM_in. eapply Forall_impl; [|exact IH]. intros [pre [cs v]] K s. cbn [snd chunks3] in K. mono. now apply SC.
    - now apply (SC cs v).
    - change (@leq E N b (lines_env3 p1 (mkEnv3 lab args cs pb pe)) (lines_env3 p2 (mkEnv3 lab args cs pb pe))). rewrite !lenv3.
      apply leq_bind; [mono|]. intros ?. apply leq_bind; [mono|]. intros ?. apply leq_bind.
      + apply leq_foldM_in. eapply Forall_impl; [|exact IHa]. intros [pre [cs' v]] K s. cbn [snd chunks3] in K. mono. now apply SC.
      + intros ?. apply leq_bind; [|mono]. apply leq_foldM_in. eapply Forall_impl; [|exact IHc]. intros. mono.
    - change (@leq E N b (lines_maths3 p1 (mkMaths3 v t cs)) (lines_maths3 p2 (mkMaths3 v t cs))). rewrite !lmaths3.
      apply leq_bind; [|mono]. apply leq_mapM_in. eapply Forall_impl; [|exact IH]. intros. mono.
  Qed.
  Lemma lines3_leq_scope {E} sc : @leq E N b (lines_scope3 p1 sc) (lines_scope3 p2 sc).
  Proof. destruct sc as [cs v]. rewrite !lscope3. mono. apply lines3_leq_chunk. Qed.
  Lemma lines3_leq {E} d : @leq E N b (lines3 p1 d) (lines3 p2 d).
  Proof. unfold lines3. mono. apply lines3_leq_chunk. Qed.
  Lemma check_break3_leq s : forall n, leq b (check_break3 p1 n s) (check_break3 p2 n s).
  Proof. induction s as [|c s IH]; intros n; cbn [check_break3]; [apply leq_refl|]. mono; apply IH. Qed.
  Lemma validate3_leq_chunk c : leq b (validate_chunk3 p1 c) (validate_chunk3 p2 c).
  Proof.
    assert (SC : forall cs v, Forall (fun c => leq b (validate_chunk3 p1 c) (validate_chunk3 p2 c)) cs ->
      leq b (validate_scope3 p1 (mkScope3 cs v)) (validate_scope3 p2 (mkScope3 cs v))).
    { intros cs v H. rewrite !vscope3. now apply leq_iterM_in. }
    assert (AR : forall args, Forall (fun a => Forall (fun c => leq b (validate_chunk3 p1 c) (validate_chunk3 p2 c)) (chunks3 (snd a))) args ->
      leq b (iterM (fun a : str * scope3 => match a with (_, sc) => validate_scope3 p1 sc end) args)
            (iterM (fun a : str * scope3 => match a with (_, sc) => validate_scope3 p2 sc end) args)).
    { intros args H. apply leq_iterM_in. eapply Forall_impl; [|exact H]. intros [pre [cs v]] K. now apply SC. }
    induction c as [l s|l s|l lab args IH|l cs v IH|l lab args cs pb pe IHa IHc|l v t cs IH] using chunk3_ind'.
    - apply leq_refl.
    - apply check_break3_leq.
    - change (leq b (validate_command3 p1 (mkCommand3 lab args)) (validate_command3 p2 (mkCommand3 lab args))). rewrite !vcommand3.
      destruct (str_eqb lab s_begin); [apply leq_refl|]. destruct (str_eqb lab s_end); [apply leq_refl|]. apply leq_bind; [mono|]. intros _. now apply AR.
    - now apply (SC cs v).
    - change (leq b (validate_env3 p1 (mkEnv3 lab args cs pb pe)) (validate_env3 p2 (mkEnv3 lab args cs pb pe))). rewrite !venv3.
      apply leq_bind; [mono|]. intros _. apply leq_bind; [now apply AR|]. intros _. now apply leq_iterM_in.
    - change (leq b (validate_maths3 p1 (mkMaths3 v t cs)) (validate_maths3 p2 (mkMaths3 v t cs))). rewrite !vmaths3. now apply leq_iterM_in.
  Qed.
  Lemma validate_from3_leq d : forall n, leq b (validate_from3 p1 n d) (validate_from3 p2 n d).
  Proof. induction d as [|c d IH]; intros n; cbn [validate_from3]; [apply leq_refl|]. mono; first [apply validate3_leq_chunk|apply lines3_leq_chunk|apply IH]. Qed.
  Lemma validate3_leq d : leq b (validate3 p1 d) (validate3 p2 d).
  Proof. unfold validate3. mono; apply validate_from3_leq. Qed.
  Lemma end_line3_leq {E} d : @leq E N b (end_line3 p1 d) (end_line3 p2 d).
  Proof. unfold end_line3. mono. apply lines3_leq_chunk. Qed.
  Lemma push3_leq s d v : leq b (push3 p1 s d v) (push3 p2 s d v).
  Proof. unfold push3, push_vec, push_vec_unchecked. mono; first [exact (validate3_leq_chunk (mkChunk3 1 v))|apply end_line3_leq]. Qed.
  Lemma push_chunk3_leq s d c : leq b (push_chunk3 p1 s d c) (push_chunk3 p2 s d c).
  Proof. unfold push_chunk3, push_chunk_vec. mono; first [apply validate3_leq_chunk|apply end_line3_leq]. Qed.

  Lemma par_leq {E} cs : @leq E _ b (paragraph_from_chunks p1 cs) (paragraph_from_chunks p2 cs).
  Proof. unfold paragraph_from_chunks, par_chunk. mono. unfold par_step. mono. Qed.

  Section P3.
    Context (r1 r2 : list chunk2 -> outcome error (list chunk3)) (HR : forall s, leq b (r1 s) (r2 s)).
    Lemma scope3_leq s : leq b (scope3_try_from p1 r1 s) (scope3_try_from p2 r2 s).
    Proof. unfold scope3_try_from. mono; first [apply HR|apply par_leq]. Qed.
    Lemma args3_leq args : leq b (args3_try_from p1 r1 args) (args3_try_from p2 r2 args).
    Proof. unfold args3_try_from. mono. apply scope3_leq. Qed.
    Lemma command3_leq c : leq b (command3_try_from p1 r1 c) (command3_try_from p2 r2 c).
    Proof. unfold command3_try_from. mono. apply args3_leq. Qed.
    Lemma env3_leq e : leq b (env3_try_from p1 r1 e) (env3_try_from p2 r2 e).
    Proof. unfold env3_try_from. mono; first [apply args3_leq|apply HR|apply par_leq]. Qed.
    Lemma mt_close_leq m t : leq b (mt_close p1 r1 m t) (mt_close p2 r2 m t).
    Proof. unfold mt_close. mono; apply HR. Qed.
    Lemma mt_step_leq m c : leq b (mt_step p1 r1 m c) (mt_step p2 r2 m c).
    Proof. unfold mt_step. repeat (first [progress cbv zeta|rfl|apply mt_close_leq|mono1]). Qed.
    Lemma m_step_leq m c : leq b (m_step p1 r1 m c) (m_step p2 r2 m c).
    Proof.
      unfold m_step, m_text, m_close_brackets.
      repeat (first [progress cbv zeta|rfl|apply mt_step_leq|apply HR|apply command3_leq|apply scope3_leq|apply env3_leq|mono1]).
    Qed.
    Lemma m_finish_leq st : leq b (m_finish p1 st) (m_finish p2 st).
    Proof. unfold m_finish. mono. apply par_leq. Qed.
  End P3.
  Lemma maths_fuel_leq n m s : (n = m \/ (b = false /\ (n <= m)%nat)) -> leq b (maths_fuel n p1 s) (maths_fuel m p2 s).
  Proof.
    revert m s. induction n as [|n IH]; intros m s H.
    - destruct H as [<-|[-> _]]; [apply leq_refl|now left].
    - destruct m as [|m]; [exfalso; destruct H as [H|[_ H]]; lia|]. cbn [maths_fuel]. cbv zeta.
      assert (IH' : forall s, leq b (maths_fuel n p1 s) (maths_fuel m p2 s)) by (intros; apply IH; destruct H as [H|[Hb H]]; [left; lia|right; split; [exact Hb|lia]]).
      apply leq_bind; [apply leq_foldM; intros; now apply m_step_leq|intros; apply m_finish_leq].
  Qed.
  Lemma maths_leq d : leq b (maths_from_chunks p1 d) (maths_from_chunks p2 d).
  Proof. apply maths_fuel_leq. now left. Qed.
  Lemma d_step_leq st c : leq b (d_step p1 st c) (d_step p2 st c).
  Proof. unfold d_step. repeat (first [progress cbv zeta|rfl|apply env3_leq; apply maths_leq|mono1]). Qed.
  Lemma try_from3_leq d : leq b (try_from3 p1 d) (try_from3 p2 d).
  Proof. unfold try_from3. repeat (first [progress cbv zeta|rfl|apply d_step_leq|apply maths_leq|apply par_leq|mono1]). Qed.
  Lemma from_str3_leq s : leq b (from_str3 p1 s) (from_str3 p2 s).
  Proof. unfold from_str3. apply leq_bind; [apply from_str2_leq|intros; apply try_from3_leq]. Qed.

  (** ** stage 3 back to stage 2 *)
  Lemma into2_leq {E} c : @leq E _ b (into2_chunk p1 c) (into2_chunk p2 c).
  Proof.
    set (Q := fun c => @leq E (list chunk2) b (into2_chunk p1 c) (into2_chunk p2 c)).
    assert (SC : forall cs v, Forall Q cs -> @leq E _ b (into2_scope p1 (mkScope3 cs v)) (into2_scope p2 (mkScope3 cs v))).
    { intros cs v H. rewrite !i2scope. apply leq_bind; [|mono]. now apply leq_mapM_in. }
    assert (AR : forall args, Forall (fun a => Forall Q (chunks3 (snd a))) args ->
      leq b (mapM (fun a : str * scope3 => match a with (s, sc) => let* sc := @into2_scope E p1 sc in Ok (s, sc) end) args)
            (mapM (fun a : str * scope3 => match a with (s, sc) => let* sc := into2_scope p2 sc in Ok (s, sc) end) args)).
    { intros args H. apply leq_mapM_in. eapply Forall_impl; [|exact H]. intros [pre [cs v]] K. cbn [snd chunks3] in K. mono. now apply SC. }
    change (Q c). induction c as [l s|l s|l lab args IH|l cs v IH|l lab args cs pb pe IHa IHc|l v t cs IH] using chunk3_ind'; unfold Q.
    - apply leq_refl.
    - apply leq_refl.
    - change (@leq E _ b (let* c := into2_command p1 (mkCommand3 lab args) in Ok [mkChunk2 l (Command2 c)]) (let* c := into2_command p2 (mkCommand3 lab args) in Ok [mkChunk2 l (Command2 c)])).
      rewrite !i2command. apply leq_bind; [|mono]. apply leq_bind; [|mono]. now apply AR.
    - change (@leq E _ b (let* c := into2_scope p1 (mkScope3 cs v) in Ok [mkChunk2 l (Scope2 c)]) (let* c := into2_scope p2 (mkScope3 cs v) in Ok [mkChunk2 l (Scope2 c)])).
      apply leq_bind; [|mono]. now apply SC.
    - change (@leq E _ b (let* c := into2_env p1 (mkEnv3 lab args cs pb pe) in Ok [mkChunk2 l (Environment2 c)]) (let* c := into2_env p2 (mkEnv3 lab args cs pb pe) in Ok [mkChunk2 l (Environment2 c)])).
      rewrite !i2env. apply leq_bind; [|mono]. apply leq_bind; [now apply AR|]. intros ?. apply leq_bind; [|mono]. now apply leq_mapM_in.
    - change (@leq E _ b (let* cs := into2_maths p1 (mkMaths3 v t cs) in mapM (fun c => let* off := sub32 p1 l 1 in shift_chunk2 p1 off c) cs)
                         (let* cs := into2_maths p2 (mkMaths3 v t cs) in mapM (fun c => let* off := sub32 p2 l 1 in shift_chunk2 p2 off c) cs)).
      apply leq_bind; [|unfold shift_chunk2; mono]. rewrite !i2maths. apply leq_bind; [apply leq_mapM; intros; mono; apply lines3_leq_chunk|]. intros ?.
      apply leq_bind; [mono|]. intros ?. apply leq_bind; [mono|]. intros ?. apply leq_bind; [now apply leq_mapM_in|]. intros ?. apply leq_refl.
  Qed.
  Lemma into2_leq_scope {E} sc : @leq E _ b (into2_scope p1 sc) (into2_scope p2 sc).
  Proof. destruct sc. rewrite !i2scope. mono. apply into2_leq. Qed.
  Lemma from3_to2_leq {E} d : @leq E _ b (from3_to2 p1 d) (from3_to2 p2 d).
  Proof.
    unfold from3_to2, shift_chunk2.
    repeat (first [progress cbv zeta|rfl|apply into2_leq|apply into2_leq_scope|apply lines2_leq_chunk|apply lines3_leq_scope|mono1]).
  Qed.
End Mono.

Definition agree {E A} (f : profile -> outcome E A) : Prop := f Debug = Panic \/ f Debug = f Release.
Lemma dr : prof_ok true Debug Release. Proof. now right. Qed.
