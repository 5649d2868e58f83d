(** * Inside2: a source written into an environment, stages 1 and 2 (C89) *)
From Coq Require Import Lia.
From Verif Require Import Base Ast1 Parse1 Ast2 Ast3 Spec1 SpecDoc1 Tok Pure1 Refine1 Gram1 Facts1 Rules SpecCanon1 Canon1 SpecConcat Concat1 Spec2 SpecInside Inside Properties1 Properties2.
Local Open Scope N_scope.

Lemma nl_of_alpha c : is_ascii_alphabetic c = true -> is_whitespace c = false /\ is_opening c = false.
Proof.
  intros H. split.
  - destruct (is_whitespace c) eqn:E; [|reflexivity]. exfalso. unfold is_whitespace, is_ascii_alphabetic in *. rewrite ?orb_true_iff, ?andb_true_iff, ?N.leb_le, ?N.eqb_eq in *. lia.
  - destruct (is_opening c) eqn:E; [|reflexivity]. exfalso. unfold is_opening in E. rewrite !orb_true_iff, !N.eqb_eq in E. destruct E as [[-> | ->]| ->]; discriminate.
Qed.
Lemma then_end p q r s t d l c lab args : source_fits (s ++ t) -> clean_end s -> is_ascii_alphabetic c = true ->
  from_str1 p s = Ok d -> from_str1 q t = Ok [mkChunk1 l (Command1 (mkCommand1 (c :: lab) args))] -> ends_plainly d ->
  from_str1 r (s ++ t) = Ok (d ++ [mkChunk1 (l + count_newlines s) (Command1 (mkCommand1 (c :: lab) args))]).
Proof.
  intros B C A Hd He E. destruct (fits_app _ _ B) as [Bs Bt]. apply (from_str1_iff p s d Bs) in Hd. apply (from_str1_iff q t _ Bt) in He.
  destruct (parses_head _ _ _ _ He) as (x & lab' & us & K & Hu). injection K as <- <-.
  apply (proj1 (parses_below_both (nl (tokens s)))) in He. rewrite Hu in He.
  destruct (nl_of_alpha c A) as [A1 A2]. apply (from_str1_iff r _ _ B). rewrite tokens_app, Hu by exact C. rewrite <- (tokens_nl s).
  exact (proj1 (then_esc_both c us _ A1 A2) _ _ _ Hd E He).
Qed.
Lemma after_word_end has d l c lab args : is_ascii_alphabetic c = true -> after_word has d = true -> after_word has (d ++ [mkChunk1 l (Command1 (mkCommand1 (c :: lab) args))]) = true.
Proof.
  intros A H. destruct (nl_of_alpha c A) as [A1 A2].
  assert (Nx : next_ok (mkChunk1 l (Command1 (mkCommand1 (c :: lab) args))) = true) by (unfold next_ok; cbn; now rewrite A1, A2).
  destruct d as [|[l0 v] d]; [unfold after_word; cbn; now rewrite A1, A2|]. cbn [app]. unfold after_word in *. cbn [variant_of1] in *. destruct v as [s|cm|sc]; [|exact H|exact H].
  destruct s as [|x s]; [exact H|]. destruct (forallb is_whitespace (x :: s)); [|exact H]. destruct d as [|c' d]; [exact Nx|exact H].
Qed.
Theorem inside1 p q r s b t d l a lab args l' c lab' args' o : source_fits (b ++ s ++ t) -> clean_end b -> clean_end s ->
  from_str1 p b = Ok [mkChunk1 l (Command1 (mkCommand1 (a :: lab) args))] -> is_ascii_alphabetic a = true ->
  from_str1 q t = Ok [mkChunk1 l' (Command1 (mkCommand1 (c :: lab') args'))] -> is_ascii_alphabetic c = true ->
  from_str1 r s = Ok d -> after_word (negb (is_empty args)) d = true -> ends_plainly d ->
  from_str1 o (b ++ s ++ t) = Ok (mkChunk1 l (Command1 (mkCommand1 (a :: lab) args)) ::
    map (below1 (count_newlines b)) d ++ [mkChunk1 (l' + count_newlines s + count_newlines b) (Command1 (mkCommand1 (c :: lab') args'))]).
Proof.
  intros B Cb Cs Hb Ha Ht Hc Hd Aw En. destruct (fits_app _ _ B) as [_ B']. pose proof (then_end r q o s t d l' c lab' args' B' Cs Hc Hd Ht En) as K.
  pose proof (concat_word p o o b (s ++ t) [] l a lab args _ B Cb Hb Ha K (after_word_end _ _ _ _ _ _ Hc Aw)) as R. rewrite map_app in R. exact R.
Qed.
Lemma parses_from L ts d : parses L ts d -> Forall (fun c => L <= line_no1 c) d.
Proof.
  induction 1; repeat constructor; cbn; try lia; (eapply Forall_impl; [|eassumption]; cbn; intros; lia).
Qed.
Lemma rebased k d : Forall (fun c => 1 <= line_no1 c) d -> map (rebase (1 + k)) (map (below1 k) d) = d.
Proof.
  induction 1 as [|[l v] d H _ IH]; [reflexivity|]. cbn [map below1 rebase]. rewrite IH. cbn in H. replace (l + k - (1 + k) + 1) with l by lia. reflexivity.
Qed.
(** an environment without content, written as [b ++ t], and [s] between the two *)
Theorem inside2 p q r o s b t lb pb lab0 args le pe l2 env2 d content : source_fits (b ++ s ++ t) -> clean_end b -> clean_end s ->
  from_str1 p b = Ok [begin_cmd lb pb lab0 args] -> from_str1 p t = Ok [end_cmd le pe lab0] -> from_str2 q (b ++ t) = Ok [mkChunk2 l2 (Environment2 env2)] ->
  from_str1 r s = Ok d -> after_word true d = true -> ends_plainly d -> try_from2 r d = Ok content ->
  exists lab args2, env2 = mkEnv2 lab args2 [] pb pe /\ from_str2 o (b ++ s ++ t) = Ok [mkChunk2 l2 (Environment2 (mkEnv2 lab args2 content pb pe))].
Proof.
  intros B Cb Cs Hb Ht He Hd Aw En Hc.
  destruct (fits_app _ _ B) as [Bb B']. destruct (fits_app _ _ B') as [Bs Bt]. assert (Bbt : source_fits (b ++ t)) by (clear - B; unfold source_fits in *; rewrite !app_length in *; lia).
  assert (X : from_str1 q (b ++ t) = Ok [begin_cmd lb pb lab0 args; end_cmd (le + count_newlines b) pe lab0]).
  { apply (then_end p p q b t [begin_cmd lb pb lab0 args] le 101 (S! "nd") _ Bbt Cb eq_refl Hb Ht). intros d0 w l u E. destruct d0 as [|? [|? ?]]; discriminate. }
  pose proof (inside1 p p r s b t d lb 98 (S! "egin") ((pb, mkScope1 lab0 Curly1) :: args) le 101 (S! "nd") _ o B Cb Cs Hb eq_refl Ht eq_refl Hd Aw En) as Y.
  unfold from_str2 in *. rewrite X in He. cbn [bind] in He. rewrite Y. cbn [bind].
  assert (Pd : parsed d) by (now exists r, s). apply (C42_conversion r d _ Pd) in Hc.
  match type of He with try_from2 q ?x = _ => assert (Px : parsed x) by (now exists q, (b ++ t)); apply (C42_conversion q x _ Px) in He end.
  match type of Y with _ = Ok ?x => assert (Py : parsed x) by (now exists o, (b ++ s ++ t)) end.
  assert (L1 : lb = 1). { apply (from_str1_iff p b _ Bb) in Hb. now inversion Hb. }
  assert (Nl : count_newlines b = count_newlines (pb ++ show_scope1 (mkScope1 lab0 Curly1) ++ args_text args)).
  { pose proof (from_str1_newlines p b _ Bb Hb) as N. unfold nls in N. rewrite <- N. 
    change (show1 [begin_cmd lb pb lab0 args]) with ((S! "\begin" ++ (pb ++ show_scope1 (mkScope1 lab0 Curly1)) ++ args_text args) ++ []).
    rewrite app_nil_r, <- app_assoc. rewrite (count_newlines_app (S! "\begin")). reflexivity. }
  remember [begin_cmd lb pb lab0 args; end_cmd (le + count_newlines b) pe lab0] as x eqn:K. remember [mkChunk2 l2 (Environment2 env2)] as y eqn:Ky.
  destruct He as [| | | |l1 pb1 lab1 args1 args2 body content0 l3 pe1 d0 d' start Es Ca Cc Cd]; try discriminate.
  injection Ky as -> <- ->. inversion Cd; subst d0. injection K as -> -> -> -> K. destruct body as [|? [|? ?]]; cbn in K; try discriminate. injection K as _ ->. cbn [map] in Cc. inversion Cc; subst content0.
  eexists _, args2. split; [reflexivity|]. apply (C42_conversion o _ _ Py).
  apply cs_env with (body := map (below1 (count_newlines b)) d) (d := []); [exact Es|exact Ca| |constructor].
  rewrite Es, <- Nl, L1, rebased; [exact Hc|]. apply (from_str1_iff r s _ Bs) in Hd. exact (parses_from 1 _ _ Hd).
Qed.
