(** * Compose2: the conversions between stage 1 and stage 2 work piece by piece *)
From Verif Require Import Base Ast1 Parse1 Ast2 Spec2 Valid1 Valid2 Conv2 Fail2 Depth2 Back2 SpecBuild Rebuild.
Local Open Scope N_scope.

(** two runs of the loop, the second one with other chunks behind it *)
Definition framed (x : list chunk2) (s t : tstate) : Prop :=
  ts_chunks t = x ++ ts_chunks s /\ ts_stack t = ts_stack s /\ ts_args t = ts_args s /\ ts_buffer t = ts_buffer s /\
  ts_prec t = ts_prec s /\ (ts_stack s = [] \/ ts_start t = ts_start s).
Definition framedM (x : list chunk2) (a b : outcome error tstate) : Prop :=
  match a with
  | Ok s => exists t, b = Ok t /\ framed x s t
  | Err e => b = Err e
  | Panic => b = Panic
  | OutOfFuel => b = OutOfFuel
  end.

Section Frame.
  Context (p : profile) (rec : list chunk1 -> outcome error document2) (x : list chunk2).
  Lemma framed_push st l v : forall ch stack start args buf prec,
    st = mkT (x ++ ch) stack start args buf prec ->
    framedM x (t_push_buffer p (mkT ch stack start args buf prec) l v) (t_push_buffer p st l v).
  Proof.
    intros ch stack start args buf prec ->. unfold t_push_buffer. cbn [ts_start ts_chunks ts_stack ts_args ts_buffer ts_prec].
    destruct (sub32 p l start) as [k| | |]; cbn [bind framedM]; auto.
    destruct (add32 p k 1) as [m| | |]; cbn [bind framedM]; auto.
    eexists. split; [reflexivity|]. repeat split. now right.
  Qed.
  Lemma framed_step s t c : framed x s t -> framedM x (tstep p rec s c) (tstep p rec t c).
  Proof.
    destruct s as [ch stack start args buf prec], t as [ch' stack' start' args' buf' prec'].
    unfold framed at 1. cbn [ts_start ts_chunks ts_stack ts_args ts_buffer ts_prec]. intros (-> & -> & -> & -> & -> & [-> | ->]).
    - destruct c as [l v]. destruct v as [u|[lab cargs]|sc]; unfold tstep; cbn [is_empty ts_stack].
      + cbn. eexists. split; [reflexivity|]. unfold framed; cbn. rewrite app_assoc. repeat split. now left.
      + cbn [label1 arguments1]. destruct (negb (str_eqb lab s_begin || str_eqb lab s_end)).
        * destruct (command2_try_from rec (mkCommand1 lab cargs)); cbn [bind framedM]; auto.
          eexists. split; [reflexivity|]. unfold framed; cbn. rewrite app_assoc. repeat split. now left.
        * destruct cargs as [|[prec0 content] rest]; [reflexivity|].
          destruct (negb (sv1_eqb (scope_variant1 content) Curly1)); [reflexivity|].
          destruct (str_eqb lab s_begin).
          -- cbn [ts_chunks ts_stack ts_args ts_buffer ts_prec].
             match goal with |- context [add32 p l ?n] => destruct (add32 p l n); cbn [bind framedM]; auto end.
             eexists. split; [reflexivity|]. unfold framed; cbn. repeat split. now right.
          -- cbn [hd_error opt_chunks_eqb negb]. reflexivity.
      + destruct (scope2_try_from rec sc) as [sc'|e| |]; cbn [shift_err map_err bind framedM]; auto.
        * eexists. split; [reflexivity|]. unfold framed; cbn. rewrite app_assoc. repeat split. now left.
        * destruct (add32 p (err_line e) l); reflexivity.
    - destruct stack as [|top stack].
      { destruct c as [l v]. destruct v as [u|[lab cargs]|sc]; unfold tstep; cbn [is_empty ts_stack].
      + cbn. eexists. split; [reflexivity|]. unfold framed; cbn. rewrite app_assoc. repeat split. now left.
      + cbn [label1 arguments1]. destruct (negb (str_eqb lab s_begin || str_eqb lab s_end)).
        * destruct (command2_try_from rec (mkCommand1 lab cargs)); cbn [bind framedM]; auto.
          eexists. split; [reflexivity|]. unfold framed; cbn. rewrite app_assoc. repeat split. now left.
        * destruct cargs as [|[prec0 content] rest]; [reflexivity|].
          destruct (negb (sv1_eqb (scope_variant1 content) Curly1)); [reflexivity|].
          destruct (str_eqb lab s_begin).
          -- cbn [ts_chunks ts_stack ts_args ts_buffer ts_prec].
             match goal with |- context [add32 p l ?n] => destruct (add32 p l n); cbn [bind framedM]; auto end.
             eexists. split; [reflexivity|]. unfold framed; cbn. repeat split. now right.
          -- cbn [hd_error opt_chunks_eqb negb]. reflexivity.
      + destruct (scope2_try_from rec sc) as [sc'|e| |]; cbn [shift_err map_err bind framedM]; auto.
        * eexists. split; [reflexivity|]. unfold framed; cbn. rewrite app_assoc. repeat split. now left.
        * destruct (add32 p (err_line e) l); reflexivity. }
      destruct c as [l v]. destruct v as [u|[lab cargs]|sc]; unfold tstep; cbn [is_empty ts_stack]; try now apply framed_push.
      cbn [label1 arguments1]. destruct (negb (str_eqb lab s_begin || str_eqb lab s_end)); [now apply framed_push|].
      destruct cargs as [|[prec0 content] rest]; [reflexivity|].
      destruct (negb (sv1_eqb (scope_variant1 content) Curly1)); [reflexivity|].
      destruct (str_eqb lab s_begin); [now apply framed_push|].
      cbn [hd_error ts_chunks ts_stack ts_args ts_buffer ts_prec ts_start].
      destruct (negb (opt_chunks_eqb (Some top) (chunks1 content))); [reflexivity|].
      match goal with |- context [1 <? ?n] => destruct (1 <? n); [reflexivity|] end.
      destruct (is_empty stack); [|now apply framed_push].
      destruct (args2_try_from rec args) as [an| | |]; cbn [bind framedM]; auto.
      destruct (rec buf) as [bd|e| |]; cbn [shift_err map_err bind framedM]; auto.
      + eexists. split; [reflexivity|]. unfold framed; cbn. rewrite app_assoc. repeat split. now right.
      + destruct (add32 p (err_line e) start); reflexivity.
  Qed.
  Lemma framed_run ds : forall s t, framed x s t -> framedM x (foldM (tstep p rec) s ds) (foldM (tstep p rec) t ds).
  Proof.
    induction ds as [|c ds IH]; intros s t H; cbn [foldM]; [now exists t|].
    pose proof (framed_step s t c H) as K. destruct (tstep p rec s c) as [s'| | |]; cbn [framedM] in K.
    - destruct K as (t' & -> & K). cbn [bind]. now apply IH.
    - now rewrite K.
    - now rewrite K.
    - now rewrite K.
  Qed.
End Frame.

Lemma enough p d n : (size1 d < n)%nat -> try_from2_fuel n p d = try_from2 p d.
Proof.
  intros H. unfold try_from2. destruct (fuel_leq2 p d (S (size1 d)) n ltac:(lia)) as [E|E]; [now symmetry|].
  exfalso. exact (try_from2_total p d E).
Qed.


(** one piece behind another *)
Theorem convert_append p a b x : try_from2 p a = Ok x ->
  try_from2 p (a ++ b) = (let* y := try_from2 p b in Ok (x ++ y)).
Proof.
  intros H. apply try_from2_iff in H.
  set (n := (size1 (a ++ b))%nat). assert (Na : (size1 a <= n)%nat) by (unfold n; rewrite size1_app; lia).
  assert (Nb : (size1 b <= n)%nat) by (unfold n; rewrite size1_app; lia).
  rewrite <- (enough p b (S n)) by lia. change (try_from2 p (a ++ b)) with (try_from2_fuel (S n) p (a ++ b)). cbn [try_from2_fuel].
  destruct (proj1 (conv_complete p) _ _ H n Na tinit tinit_idle) as (st & E & (I1 & I2 & I3 & I4) & Hch).
  rewrite foldM_app, E. cbn [bind].
  assert (F : framed x tinit st).
  { unfold framed. rewrite I1, I2, I3, I4, Hch. cbn. rewrite ?app_nil_r. repeat split. now left. }
  pose proof (framed_run p (try_from2_fuel n p) x b _ _ F) as K.
  destruct (foldM (tstep p (try_from2_fuel n p)) tinit b) as [s| | |]; cbn [framedM bind] in *; try now rewrite K.
  destruct K as (t & -> & Kc & Ks & _ & _ & _ & Kst). cbn [bind]. unfold tfinish. rewrite Ks.
  destruct (last_opt (ts_stack s)) as [lab|] eqn:L; cbn [bind].
  - destruct Kst as [Z | ->]; [|reflexivity]. now rewrite Z in L.
  - now rewrite Kc.
Qed.

(** what is wrong stays wrong *)
Theorem panic_stays p a b : try_from2 p a = Panic -> try_from2 p (a ++ b) = Panic.
Proof.
  intros H. set (n := (size1 (a ++ b))%nat). assert (Na : (size1 a < S n)%nat) by (unfold n; rewrite size1_app; lia).
  rewrite <- (enough p a (S n) Na) in H. change (try_from2 p (a ++ b)) with (try_from2_fuel (S n) p (a ++ b)). cbn [try_from2_fuel] in *.
  rewrite foldM_app. destruct (foldM (tstep p (try_from2_fuel n p)) tinit a) as [s| | |]; cbn [bind] in *; try discriminate; auto.
  unfold tfinish in H. destruct (last_opt (ts_stack s)); discriminate.
Qed.
Theorem error_stays p a b e : try_from2 p a = Err e ->
  try_from2 p (a ++ b) = Err e \/
  exists pre x l pb lab args rest, a = pre ++ begin_cmd l pb lab args :: rest /\ try_from2 p pre = Ok x /\
    err_type e = UnclosedEnvironment (show1 lab).
Proof.
  intros H. apply try_from2_err_iff in H. rewrite try_from2_err_iff. inversion H; subst.
  1-4, 6-7: left; rewrite <- ?app_assoc; cbn [app]; rewrite <- ?app_assoc; cbn [app]; econstructor; eassumption.
  right. exists pre, pre', l, pb, lab, args, b0. repeat split. now apply try_from2_iff.
Qed.

(** ** Back to stage 1 *)
Lemma down_from {E} p b : forall out, foldM (fun out c => let* cs := @into1_chunk E p c None in Ok (fold_left push_chunk_unchecked1 cs out)) out b =
  (let* css := mapM (fun c => @into1_chunk E p c None) b in Ok (fold_left push_chunk_unchecked1 (concat css) out)).
Proof.
  induction b as [|c b IH]; intros out; cbn [foldM mapM bind]; [reflexivity|].
  destruct (into1_chunk p c None) as [x| | |]; cbn [bind]; auto. rewrite IH.
  destruct (mapM (fun c => into1_chunk p c None) b); cbn [bind concat]; auto. now rewrite fold_left_app.
Qed.
Lemma join_head c r : join1 (head1 c r) = head1 c (join1 r).
Proof.
  destruct c as [l v]. destruct v as [s|cm|sc]; [|now rewrite <- join1_cons|now rewrite <- join1_cons].
  destruct r as [|[l' v'] r]; [reflexivity|]. destruct v' as [t|cm|sc]; cbn [head1]; [|now rewrite !join1_cons|now rewrite !join1_cons].
  rewrite !join1_cons. destruct (join1 r) as [|[k w] r']; [reflexivity|]. destruct w as [u|cm|sc]; cbn [head1]; try reflexivity. now rewrite app_assoc.
Qed.
Lemma join_join d : join1 (join1 d) = join1 d.
Proof. induction d as [|c d IH]; [reflexivity|]. now rewrite join1_cons, join_head, IH. Qed.
Lemma join_left a b : join1 (join1 a ++ b) = join1 (a ++ b).
Proof. rewrite <- !fold_unch1. now rewrite join_join. Qed.
Lemma join_right a b : join1 (a ++ join1 b) = join1 (a ++ b).
Proof. induction a as [|c a IH]; [apply join_join|]. cbn [app]. now rewrite !join1_cons, IH. Qed.
Lemma from2_to1_join {E} p d : @from2_to1 E p d = (let* css := mapM (fun c => @into1_chunk E p c None) d in Ok (join1 (concat css))).
Proof.
  unfold from2_to1. rewrite down_from. destruct (mapM (fun c => into1_chunk p c None) d) as [css| | |]; cbn [bind]; auto.
  pose proof (fold_unch1 (concat css) []) as F. cbn [join1 app] in F. now rewrite F.
Qed.
Theorem down_append {E} p a b : @from2_to1 E p (a ++ b) = (let* x := @from2_to1 E p a in let* y := @from2_to1 E p b in Ok (join1 (x ++ y))).
Proof.
  rewrite !from2_to1_join, mapM_app. destruct (mapM (fun c => into1_chunk p c None) a) as [xs| | |]; cbn [bind]; auto.
  destruct (mapM (fun c => into1_chunk p c None) b) as [ys| | |]; cbn [bind]; auto.
  now rewrite join_left, join_right, concat_app.
Qed.
