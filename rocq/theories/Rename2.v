(** * Rename2: exchanging characters outside ASCII before stage-2 parsing *)
From Verif Require Import Base Ast1 Parse1 Ast2 Ast3 Spec1 SpecDoc1 SpecDoc2 Spec2 SpecFail1 SpecRename Tok Refine1 Gram1 Fail1 Ind Facts1 Valid1 Facts2 Conv2 Good2 Env2 Rename1.

Lemma map_cancel (f g : char -> char) (H : forall c, g (f c) = c) s : map g (map f s) = s.
Proof. rewrite map_map. rewrite (map_ext _ (fun x => x)) by exact H. apply map_id. Qed.
Lemma ascii_fix (f : char -> char) (H : forall c, c < 128 -> f c = c) s : forallb (fun c => c <? 128) s = true -> map f s = s.
Proof.
  induction s as [|c s IH]; [reflexivity|]. cbn [forallb map]. intros E. apply andb_prop in E as [E1 E2]. apply N.ltb_lt in E1. now rewrite H, IH.
Qed.
Lemma renaming_sym f g : renaming f g -> renaming g f.
Proof.
  intros (A & B & C & D). repeat split; auto.
  - intros c H. rewrite <- (C c H) at 1. apply A.
  - intros c. rewrite <- (D (g c)). now rewrite B.
Qed.
Lemma renaming_respects f g : renaming f g -> respects f.
Proof.
  intros (A & B & C & D) c. split; [apply D|].
  assert (Inj : f c < 128 -> f c = c).
  { intros H. pose proof (C _ H) as E. rewrite <- (A c) at 2. rewrite <- E at 2. now rewrite A. }
  assert (Lt : forall x, is_ascii_alphabetic x = true -> x < 128).
  { intros x Hx. unfold is_ascii_alphabetic in Hx. apply orb_prop in Hx as [Hx|Hx]; apply andb_prop in Hx as [Ha Hb]; apply N.leb_le in Ha, Hb; lia. }
  assert (Lm : forall x, In x marks -> x < 128).
  { intros x Hx. vm_compute in Hx. repeat (destruct Hx as [<-|Hx]; [vm_compute; reflexivity|]). destruct Hx. }
  split.
  - destruct (is_ascii_alphabetic c) eqn:E; [now rewrite (C c (Lt c E))|]. destruct (is_ascii_alphabetic (f c)) eqn:E'; [|reflexivity].
    rewrite Inj in E' by now apply Lt. congruence.
  - intros [H|H]; [apply C, Lm, H|apply Inj, Lm, H].
Qed.

(** ** Undoing a renaming *)
Section Cancel.
  Variables f g : char -> char.
  Hypothesis H : forall c, g (f c) = c.
  Lemma cancel_chunk1 c : rename_chunk1 g (rename_chunk1 f c) = c.
  Proof.
    assert (Cs : forall cs, Forall (fun c => rename_chunk1 g (rename_chunk1 f c) = c) cs -> map (rename_chunk1 g) (map (rename_chunk1 f) cs) = cs).
    { intros cs Hc. rewrite map_map. induction Hc as [|c' cs Hc _ IHc]; [reflexivity|]. cbn [map]. now rewrite Hc, IHc. }
    assert (As : forall args, Forall (fun a : str * scope1 => Forall (fun c => rename_chunk1 g (rename_chunk1 f c) = c) (chunks1 (snd a))) args ->
      rename_args1 g (rename_args1 f args) = args).
    { intros args IH. induction IH as [|[pre [cs v]] args Ha _ IHa]; [reflexivity|].
      change (rename_args1 g (rename_args1 f ((pre, mkScope1 cs v) :: args))) with ((map g (map f pre), mkScope1 (map (rename_chunk1 g) (map (rename_chunk1 f) cs)) v) :: rename_args1 g (rename_args1 f args)).
      now rewrite map_cancel, Cs, IHa. }
    induction c as [l s|l lab args IH|l cs v IH] using chunk1_ind'.
    - cbn [rename_chunk1 rename_variant1]. now rewrite map_cancel.
    - change (rename_chunk1 g (rename_chunk1 f (mkChunk1 l (Command1 (mkCommand1 lab args))))) with (mkChunk1 l (Command1 (mkCommand1 (map g (map f lab)) (rename_args1 g (rename_args1 f args))))).
      now rewrite map_cancel, As.
    - change (rename_chunk1 g (rename_chunk1 f (mkChunk1 l (Scope1 (mkScope1 cs v))))) with (mkChunk1 l (Scope1 (mkScope1 (map (rename_chunk1 g) (map (rename_chunk1 f) cs)) v))).
      now rewrite Cs.
  Qed.
  Lemma cancel1 d : rename1 g (rename1 f d) = d.
  Proof. unfold rename1. rewrite map_map. rewrite (map_ext _ (fun x => x)) by exact cancel_chunk1. apply map_id. Qed.
  Lemma cancel_chunk2 c : rename_chunk2 g (rename_chunk2 f c) = c.
  Proof.
    assert (Cs : forall cs, Forall (fun c => rename_chunk2 g (rename_chunk2 f c) = c) cs -> map (rename_chunk2 g) (map (rename_chunk2 f) cs) = cs).
    { intros cs Hc. rewrite map_map. induction Hc as [|c' cs Hc _ IHc]; [reflexivity|]. cbn [map]. now rewrite Hc, IHc. }
    assert (As : forall args, Forall (fun a : str * scope2 => Forall (fun c => rename_chunk2 g (rename_chunk2 f c) = c) (chunks2 (snd a))) args ->
      rename_args2 g (rename_args2 f args) = args).
    { intros args IH. induction IH as [|[pre [cs v]] args Ha _ IHa]; [reflexivity|].
      change (rename_args2 g (rename_args2 f ((pre, mkScope2 cs v) :: args))) with ((map g (map f pre), mkScope2 (map (rename_chunk2 g) (map (rename_chunk2 f) cs)) v) :: rename_args2 g (rename_args2 f args)).
      now rewrite map_cancel, Cs, IHa. }
    induction c as [l s|l lab args IH|l cs v IH|l lab args cs pb pe IH IHc] using chunk2_ind'.
    - cbn [rename_chunk2 rename_variant2]. now rewrite map_cancel.
    - change (rename_chunk2 g (rename_chunk2 f (mkChunk2 l (Command2 (mkCommand2 lab args))))) with (mkChunk2 l (Command2 (mkCommand2 (map g (map f lab)) (rename_args2 g (rename_args2 f args))))).
      now rewrite map_cancel, As.
    - change (rename_chunk2 g (rename_chunk2 f (mkChunk2 l (Scope2 (mkScope2 cs v))))) with (mkChunk2 l (Scope2 (mkScope2 (map (rename_chunk2 g) (map (rename_chunk2 f) cs)) v))).
      now rewrite Cs.
    - change (rename_chunk2 g (rename_chunk2 f (mkChunk2 l (Environment2 (mkEnv2 lab args cs pb pe))))) with
        (mkChunk2 l (Environment2 (mkEnv2 (map g (map f lab)) (rename_args2 g (rename_args2 f args)) (map (rename_chunk2 g) (map (rename_chunk2 f) cs)) (map g (map f pb)) (map g (map f pe))))).
      now rewrite !map_cancel, As, Cs.
  Qed.
  Lemma cancel2 d : rename2 g (rename2 f d) = d.
  Proof. unfold rename2. rewrite map_map. rewrite (map_ext _ (fun x => x)) by exact cancel_chunk2. apply map_id. Qed.
End Cancel.

(** ** Display *)
Section Show.
  Variable f : char -> char.
  Hypothesis Fix : forall c, c < 128 -> f c = c.
  Ltac fixed := match goal with |- context [f ?c] => rewrite (Fix c) by (vm_compute; reflexivity) end.
  Lemma map_open1 v : f (open1 v) = open1 v. Proof. apply Fix. destruct v; vm_compute; reflexivity. Qed.
  Lemma map_close1 v : f (close1 v) = close1 v. Proof. apply Fix. destruct v; vm_compute; reflexivity. Qed.
  Lemma map_open2 v : f (open2 v) = open2 v. Proof. apply Fix. destruct v; vm_compute; reflexivity. Qed.
  Lemma map_close2 v : f (close2 v) = close2 v. Proof. apply Fix. destruct v; vm_compute; reflexivity. Qed.
  Lemma show_rename_chunk1 c : show_chunk1 (rename_chunk1 f c) = map f (show_chunk1 c).
  Proof.
    assert (Cs : forall cs, Forall (fun c => show_chunk1 (rename_chunk1 f c) = map f (show_chunk1 c)) cs -> concat (map show_chunk1 (map (rename_chunk1 f) cs)) = map f (concat (map show_chunk1 cs))).
    { intros cs Hc. induction Hc as [|c' cs Hc _ IHc]; [reflexivity|]. cbn [map concat]. now rewrite Hc, IHc, map_app. }
    assert (Ss : forall cs v, Forall (fun c => show_chunk1 (rename_chunk1 f c) = map f (show_chunk1 c)) cs -> show_scope1 (rename_scope1 f (mkScope1 cs v)) = map f (show_scope1 (mkScope1 cs v))).
    { intros cs v Hc. change (show_scope1 (rename_scope1 f (mkScope1 cs v))) with (open1 v :: concat (map show_chunk1 (map (rename_chunk1 f) cs)) ++ [close1 v]).
      rewrite Cs by exact Hc. change (show_scope1 (mkScope1 cs v)) with (open1 v :: concat (map show_chunk1 cs) ++ [close1 v]). cbn [map]. rewrite map_app. cbn [map].
      now rewrite map_open1, map_close1. }
    induction c as [l s|l lab args IH|l cs v IH] using chunk1_ind'; [reflexivity| |now apply Ss].
    change (show_chunk1 (rename_chunk1 f (mkChunk1 l (Command1 (mkCommand1 lab args))))) with (c_bslash :: map f lab ++ show_args1 (rename_args1 f args)).
    change (show_chunk1 (mkChunk1 l (Command1 (mkCommand1 lab args)))) with (c_bslash :: lab ++ show_args1 args).
    cbn [map]. rewrite map_app, (Fix c_bslash) by (vm_compute; reflexivity). do 2 f_equal.
    induction IH as [|[pre [cs v]] args Ha _ IHa]; [reflexivity|].
    change (rename_args1 f ((pre, mkScope1 cs v) :: args)) with ((map f pre, rename_scope1 f (mkScope1 cs v)) :: rename_args1 f args).
    rewrite !show_args_cons, IHa, Ss by exact Ha. now rewrite !map_app.
  Qed.
  Lemma show_rename1 d : show1 (rename1 f d) = map f (show1 d).
  Proof. unfold show1, rename1. rewrite map_map, concat_map, map_map. f_equal. apply map_ext. exact show_rename_chunk1. Qed.
  Lemma show_rename_scope1 sc : show_scope1 (rename_scope1 f sc) = map f (show_scope1 sc).
  Proof. exact (show_rename_chunk1 (mkChunk1 1 (Scope1 sc))). Qed.
  Lemma args_text_rename args : args_text (rename_args1 f args) = map f (args_text args).
  Proof.
    induction args as [|[pre sc] args IH]; [reflexivity|]. unfold args_text in *. cbn [rename_args1 map concat]. rewrite !map_app, <- IH, show_rename_scope1. reflexivity.
  Qed.
  Lemma show_rename_chunk2 c : show_chunk2 (rename_chunk2 f c) = map f (show_chunk2 c).
  Proof.
    assert (Cs : forall cs, Forall (fun c => show_chunk2 (rename_chunk2 f c) = map f (show_chunk2 c)) cs -> concat (map show_chunk2 (map (rename_chunk2 f) cs)) = map f (concat (map show_chunk2 cs))).
    { intros cs Hc. induction Hc as [|c' cs Hc _ IHc]; [reflexivity|]. cbn [map concat]. now rewrite Hc, IHc, map_app. }
    assert (Ss : forall cs v, Forall (fun c => show_chunk2 (rename_chunk2 f c) = map f (show_chunk2 c)) cs -> show_scope2 (rename_scope2 f (mkScope2 cs v)) = map f (show_scope2 (mkScope2 cs v))).
    { intros cs v Hc. change (show_scope2 (rename_scope2 f (mkScope2 cs v))) with (open2 v :: concat (map show_chunk2 (map (rename_chunk2 f) cs)) ++ [close2 v]).
      rewrite Cs by exact Hc. change (show_scope2 (mkScope2 cs v)) with (open2 v :: concat (map show_chunk2 cs) ++ [close2 v]). cbn [map]. rewrite map_app. cbn [map].
      now rewrite map_open2, map_close2. }
    assert (As : forall args, Forall (fun a : str * scope2 => Forall (fun c => show_chunk2 (rename_chunk2 f c) = map f (show_chunk2 c)) (chunks2 (snd a))) args ->
      show_args2 (rename_args2 f args) = map f (show_args2 args)).
    { intros args IH. induction IH as [|[pre [cs v]] args Ha _ IHa]; [reflexivity|].
      change (rename_args2 f ((pre, mkScope2 cs v) :: args)) with ((map f pre, rename_scope2 f (mkScope2 cs v)) :: rename_args2 f args).
      unfold show_args2 in *. cbn [map concat]. rewrite IHa, Ss by exact Ha. now rewrite !map_app. }
    induction c as [l s|l lab args IH|l cs v IH|l lab args cs pb pe IH IHc] using chunk2_ind'; [reflexivity| |now apply Ss|].
    - change (show_chunk2 (rename_chunk2 f (mkChunk2 l (Command2 (mkCommand2 lab args))))) with (c_bslash :: map f lab ++ show_args2 (rename_args2 f args)).
      change (show_chunk2 (mkChunk2 l (Command2 (mkCommand2 lab args)))) with (c_bslash :: lab ++ show_args2 args).
      cbn [map]. rewrite map_app, (Fix c_bslash) by (vm_compute; reflexivity). now rewrite As.
    - change (show_chunk2 (rename_chunk2 f (mkChunk2 l (Environment2 (mkEnv2 lab args cs pb pe))))) with
        ((c_bslash :: s_begin) ++ map f pb ++ [c_lcurly] ++ map f lab ++ [c_rcurly] ++ show_args2 (rename_args2 f args) ++ concat (map show_chunk2 (map (rename_chunk2 f) cs)) ++ (c_bslash :: s_end) ++ map f pe ++ [c_lcurly] ++ map f lab ++ [c_rcurly]).
      change (show_chunk2 (mkChunk2 l (Environment2 (mkEnv2 lab args cs pb pe)))) with
        ((c_bslash :: s_begin) ++ pb ++ [c_lcurly] ++ lab ++ [c_rcurly] ++ show_args2 args ++ concat (map show_chunk2 cs) ++ (c_bslash :: s_end) ++ pe ++ [c_lcurly] ++ lab ++ [c_rcurly]).
      rewrite As, Cs by assumption. rewrite !map_app.
      rewrite (ascii_fix f Fix (c_bslash :: s_begin)), (ascii_fix f Fix (c_bslash :: s_end)), (ascii_fix f Fix [c_lcurly]), (ascii_fix f Fix [c_rcurly]) by (vm_compute; reflexivity). reflexivity.
  Qed.
  Lemma show_rename2 d : show2 (rename2 f d) = map f (show2 d).
  Proof. unfold show2, rename2. rewrite map_map, concat_map, map_map. f_equal. apply map_ext. exact show_rename_chunk2. Qed.
End Show.

(** ** The conversion *)
Section Renaming.
  Variables f g : char -> char.
  Hypothesis HR : renaming f g.
  Lemma Hgf c : g (f c) = c. Proof. apply HR. Qed.
  Lemma Hfix c : c < 128 -> f c = c. Proof. apply HR. Qed.
  Definition Hresp : respects f := renaming_respects f g HR.
  Lemma map_inj a b : map f a = map f b -> a = b.
  Proof. intros E. rewrite <- (map_cancel f g Hgf a), E. apply map_cancel, Hgf. Qed.
  Lemma map_ascii lab s : forallb (fun c => c <? 128) s = true -> map f lab = s <-> lab = s.
  Proof. intros H. split; intros E; [|subst; now apply ascii_fix; [exact Hfix|]]. apply map_inj. rewrite E. symmetry. apply ascii_fix; [exact Hfix|exact H]. Qed.
  Lemma map_neq lab s : forallb (fun c => c <? 128) s = true -> lab <> s -> map f lab <> s.
  Proof. intros H N E. apply N. now apply (map_ascii lab s H). Qed.
  Lemma rename1_inj a b : rename1 f a = rename1 f b -> a = b.
  Proof. intros E. rewrite <- (cancel1 f g Hgf a), E. apply cancel1, Hgf. Qed.
  Lemma rename_begin l pb lab args : rename_chunk1 f (begin_cmd l pb lab args) = begin_cmd l (map f pb) (rename1 f lab) (rename_args1 f args).
  Proof.
    change (rename_chunk1 f (begin_cmd l pb lab args)) with (mkChunk1 l (Command1 (mkCommand1 (map f (S! "begin")) ((map f pb, mkScope1 (rename1 f lab) Curly1) :: rename_args1 f args)))).
    rewrite (ascii_fix f Hfix) by (vm_compute; reflexivity). reflexivity.
  Qed.
  Lemma rename_end l pe lab : rename_chunk1 f (end_cmd l pe lab) = end_cmd l (map f pe) (rename1 f lab).
  Proof.
    change (rename_chunk1 f (end_cmd l pe lab)) with (mkChunk1 l (Command1 (mkCommand1 (map f (S! "end")) [(map f pe, mkScope1 (rename1 f lab) Curly1)]))).
    rewrite (ascii_fix f Hfix) by (vm_compute; reflexivity). reflexivity.
  Qed.
  Lemma rename_rebase s b : rename1 f (map (rebase s) b) = map (rebase s) (rename1 f b).
  Proof. unfold rename1. rewrite !map_map. apply map_ext. intros [l v]. reflexivity. Qed.
  Lemma rename1_app a b : rename1 f (a ++ b) = rename1 f a ++ rename1 f b. Proof. apply map_app. Qed.
  Lemma rename1_cons c b : rename1 f (c :: b) = rename_chunk1 f c :: rename1 f b. Proof. reflexivity. Qed.
  Lemma begin_line_map l pb lab args : begin_end_line l (map f pb) (rename1 f lab) (rename_args1 f args) = begin_end_line l pb lab args.
  Proof.
    unfold begin_end_line. change (mkScope1 (rename1 f lab) Curly1) with (rename_scope1 f (mkScope1 lab Curly1)).
    rewrite (show_rename_scope1 f Hfix), (args_text_rename f Hfix), <- !map_app, (newlines_map f Hresp). reflexivity.
  Qed.
  Lemma converts_map_both :
    (forall d d', converts d d' -> converts (rename1 f d) (rename2 f d')) /\
    (forall a a', converts_args a a' -> converts_args (rename_args1 f a) (rename_args2 f a')).
  Proof.
    apply converts_both_ind.
    - constructor.
    - intros l s d d' _ IH. now apply cs_text.
    - intros l cs v cs' d d' _ IH1 _ IH2. now apply cs_scope.
    - intros l lab args args' d d' N1 N2 _ IH1 _ IH2. apply (cs_cmd l (map f lab) (rename_args1 f args) (rename_args2 f args')); auto; apply map_neq; auto.
    - intros l pb lab args args' body content l' pe d d' start E _ IH1 _ IH2 _ IH3. rewrite rename1_cons, rename1_app, rename1_cons, rename_begin, rename_end.
      change (rename2 f (mkChunk2 start (Environment2 (mkEnv2 (show1 lab) args' content pb pe)) :: d')) with
        (mkChunk2 start (Environment2 (mkEnv2 (map f (show1 lab)) (rename_args2 f args') (rename2 f content) (map f pb) (map f pe))) :: rename2 f d').
      rewrite <- (show_rename1 f Hfix). apply cs_env; auto.
      + rewrite E. symmetry. apply begin_line_map.
      + rewrite <- rename_rebase. exact IH2.
    - constructor.
    - intros pre cs v cs' args args' _ IH1 _ IH2. now apply (cs_arg (map f pre)).
  Qed.
  Lemma bad_map open c e : bad_here open c e -> bad_here (map (rename1 f) open) (rename_chunk1 f c) (rename_error f e).
  Proof.
    intros [l lab args Hl Ha|l pe lab args Hh|l pe lab args Hh Ha].
    - apply (bh_label _ l (map f lab) (rename_args1 f args)).
      + destruct Hl as [->| ->]; [left|right]; apply (ascii_fix f Hfix); reflexivity.
      + destruct args as [|[pre [cs v]] args]; [exact I|]. destruct v; [destruct Ha|exact I|exact I].
    - change (rename_chunk1 f (mkChunk1 l (Command1 (mkCommand1 (S! "end") ((pe, mkScope1 lab Curly1) :: args))))) with
        (mkChunk1 l (Command1 (mkCommand1 (map f (S! "end")) ((map f pe, mkScope1 (rename1 f lab) Curly1) :: rename_args1 f args)))).
      rewrite (ascii_fix f Hfix) by (vm_compute; reflexivity).
      change (rename_error f (mkError l (UnexpectedEnd (show1 lab)))) with (mkError l (UnexpectedEnd (map f (show1 lab)))). rewrite <- (show_rename1 f Hfix).
      apply bh_unexpected. destruct open as [|x open]; [discriminate|]. cbn [map hd_error] in *. intros E. apply Hh. injection E as E. f_equal. now apply rename1_inj.
    - change (rename_chunk1 f (mkChunk1 l (Command1 (mkCommand1 (S! "end") ((pe, mkScope1 lab Curly1) :: args))))) with
        (mkChunk1 l (Command1 (mkCommand1 (map f (S! "end")) ((map f pe, mkScope1 (rename1 f lab) Curly1) :: rename_args1 f args)))).
      rewrite (ascii_fix f Hfix) by (vm_compute; reflexivity). apply bh_many; [|now destruct args].
      destruct open as [|x open]; [discriminate|]. cbn [map hd_error] in *. injection Hh as ->. reflexivity.
  Qed.
  Lemma opens_map st b : opens st b -> opens (map (rename1 f) st) (rename1 f b).
  Proof.
    induction 1 as [|st b c _ IH Hc|st b l pb lab args _ IH|st b l pe lab _ IH]; [constructor| | |]; rewrite rename1_app.
    - apply op_plain; [exact IH|]. destruct c as [l [s|[lab args]|sc]]; auto. destruct Hc as [N1 N2]. split; apply map_neq; auto.
    - change (rename1 f [begin_cmd l pb lab args]) with [rename_chunk1 f (begin_cmd l pb lab args)]. rewrite rename_begin. now apply op_begin.
    - change (rename1 f [end_cmd l pe lab]) with [rename_chunk1 f (end_cmd l pe lab)]. rewrite rename_end. now apply (op_end _ _ l (map f pe) (rename1 f lab)).
  Qed.
  Lemma rejects_map_both :
    (forall d e, rejects d e -> rejects (rename1 f d) (rename_error f e)) /\
    (forall a e, rejects_args a e -> rejects_args (rename_args1 f a) (rename_error f e)).
  Proof.
    destruct converts_map_both as [CM CA].
    apply rejects_both_ind.
    - intros pre pre' c post e Hp Hb. rewrite rename1_app, rename1_cons. eapply rj_here; [apply CM; eassumption|]. now apply (bad_map []).
    - intros pre pre' l cs v post e Hp _ IH. rewrite rename1_app, rename1_cons.
      apply (rj_scope (rename1 f pre) (rename2 f pre') l (rename1 f cs) v (rename1 f post) (rename_error f e)); [now apply CM|exact IH].
    - intros pre pre' l lab args post e Hp N1 N2 _ IH. rewrite rename1_app, rename1_cons.
      apply (rj_cmd (rename1 f pre) (rename2 f pre') l (map f lab) (rename_args1 f args)); [now apply CM|apply map_neq; auto|apply map_neq; auto|exact IH].
    - intros pre pre' l pb lab args b c post e inner Hp Ho Hb. rewrite rename1_app, rename1_cons, rename1_app, rename1_cons, rename_begin.
      eapply rj_open; [apply CM; eassumption|apply opens_map; eassumption|]. apply bad_map in Hb. rewrite map_app in Hb. exact Hb.
    - intros pre pre' l pb lab args b inner Hp Ho. rewrite rename1_app, rename1_cons, rename_begin.
      change (rename_error f (mkError (begin_end_line l pb lab args) (UnclosedEnvironment (show1 lab)))) with (mkError (begin_end_line l pb lab args) (UnclosedEnvironment (map f (show1 lab)))).
      rewrite <- (show_rename1 f Hfix), <- begin_line_map. eapply rj_unclosed; [apply CM; eassumption|apply opens_map; eassumption].
    - intros pre pre' l pb lab args b l' pe post e Hp Ho _ IH. rewrite rename1_app, rename1_cons, rename1_app, rename1_cons, rename_begin, rename_end.
      eapply rj_env_arg; [apply CM; eassumption|exact (opens_map _ _ Ho)|exact IH].
    - intros pre pre' l pb lab args args' b l' pe post e Hp Ho Ha _ IH. rewrite rename1_app, rename1_cons, rename1_app, rename1_cons, rename_begin, rename_end.
      rewrite rename_rebase in IH. rewrite <- begin_line_map in *.
      apply (rj_env_body (rename1 f pre) (rename2 f pre') l (map f pb) (rename1 f lab) (rename_args1 f args) (rename_args2 f args') (rename1 f b) l' (map f pe) (rename1 f post) (rename_error f e));
        [now apply CM|exact (opens_map _ _ Ho)|now apply CA|exact IH].
    - intros pre cs v args e _ IH. now apply (ra_here (map f pre)).
    - intros pre cs v cs' args e Hc _ IH. eapply (ra_next (map f pre) (rename1 f cs)); [apply CM; exact Hc|exact IH].
  Qed.
End Renaming.

Theorem from_str2_map f g p q s : renaming f g -> source_fits s -> from_str2 q (map f s) = rename_outcome f (rename2 f) (from_str2 p s).
Proof.
  intros HR B. assert (B' : source_fits (map f s)) by (unfold source_fits in *; now rewrite map_length).
  pose proof (from_str1_map f (Hresp f g HR) p q s B) as E1. unfold from_str2. rewrite E1.
  destruct (from_str1 p s) as [d|e| |] eqn:E; cbn [rename_outcome bind] in *; try reflexivity.
  assert (P : parsed d) by (exists p, s; auto). assert (P' : parsed (rename1 f d)) by (exists q, (map f s); auto).
  destruct (try_from2_parsed p d P) as [[d2 H]|[e H]]; rewrite H; cbn [rename_outcome].
  - apply (try_from2_converts q _ _ P'). apply (proj1 (converts_map_both f g HR)). now apply (try_from2_converts p d d2 P).
  - apply (try_from2_rejects q _ _ P'). apply (proj1 (rejects_map_both f g HR)). now apply (try_from2_rejects p d e P).
Qed.
