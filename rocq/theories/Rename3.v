(** * Rename3: exchanging characters outside ASCII before stage-3 parsing *)
From Verif Require Import Base Ast1 Parse1 Ast2 Ast3 SpecDoc1 SpecRename Tok Refine1 Ind Facts1 Conv2 Eqb Rename1 Rename2.

Section Renaming.
  Variables f g : char -> char.
  Hypothesis HR : renaming f g.
  Notation ro F := (rename_outcome f F).
  Lemma Fix : forall c, c < 128 -> f c = c. Proof. apply HR. Qed.

  Lemma eqb_ascii c m : m < 128 -> (f c =? m) = (c =? m).
  Proof.
    intros H. destruct (N.eq_dec c m) as [E|E]; [rewrite E, (Fix m H); reflexivity|]. destruct (N.eq_dec (f c) m) as [E'|E'].
    - exfalso. apply E. rewrite <- (Fix m H) in E'. destruct HR as (A & _). rewrite <- (A c), E'. apply A.
    - apply N.eqb_neq in E, E'. congruence.
  Qed.
  Lemma fws c : is_whitespace (f c) = is_whitespace c. Proof. apply HR. Qed.
  Lemma str_eqb_ascii lab s : forallb (fun c => c <? 128) s = true -> str_eqb (map f lab) s = str_eqb lab s.
  Proof.
    intros H. destruct (str_eqb lab s) eqn:E.
    - apply str_eqb_iff in E. subst. apply str_eqb_iff. apply (ascii_fix f Fix). exact H.
    - destruct (str_eqb (map f lab) s) eqn:E'; [|reflexivity]. apply str_eqb_iff in E'. apply (map_ascii f g HR lab s H) in E'. subst.
      assert (K : str_eqb s s = true) by now apply str_eqb_iff. congruence.
  Qed.
  Lemma empty_map {A B} (h : A -> B) l : is_empty (map h l) = is_empty l. Proof. now destruct l. Qed.

  (** ** Outcomes *)
  Lemma bind_ro {A B} (F : A -> A) (G : B -> B) (o : outcome error A) k k' : (forall x, k' (F x) = ro G (k x)) -> bind (ro F o) k' = ro G (bind o k).
  Proof. intros H. destruct o; cbn; auto. Qed.
  Lemma add_cases p a b : (exists x, @add32 error p a b = Ok x) \/ @add32 error p a b = Panic.
  Proof. unfold add32. destruct (a + b <? two32); [eauto|]. unfold overflow32. destruct p; eauto. Qed.
  Lemma sub_cases p a b : (exists x, @sub32 error p a b = Ok x) \/ @sub32 error p a b = Panic.
  Proof. unfold sub32. destruct (b <=? a); [eauto|]. unfold overflow32. destruct p; eauto. Qed.
  Lemma inc_cases p a : (exists x, @inc_i32 error p a = Ok x) \/ @inc_i32 error p a = Panic.
  Proof. unfold inc_i32. destruct (_ <? _)%Z; [eauto|]. destruct p; eauto. Qed.
  Ltac arith := repeat match goal with
    | |- context [@add32 error ?p ?a ?b] => destruct (add_cases p a b) as [[? ->]| ->]; cbn [bind rename_outcome]; try reflexivity
    | |- context [@sub32 error ?p ?a ?b] => destruct (sub_cases p a b) as [[? ->]| ->]; cbn [bind rename_outcome]; try reflexivity
    | |- context [@inc_i32 error ?p ?a] => destruct (inc_cases p a) as [[? ->]| ->]; cbn [bind rename_outcome]; try reflexivity
    end.
  Lemma foldM_ro {A S} (F : S -> S) (G : A -> A) (step : S -> A -> outcome error S) :
    (forall s x, step (F s) (G x) = ro F (step s x)) -> forall l s, foldM step (F s) (map G l) = ro F (foldM step s l).
  Proof.
    intros H. induction l as [|x l IH]; intros s; [reflexivity|]. cbn [map foldM]. rewrite H. apply bind_ro. exact IH.
  Qed.
  Lemma mapM_ro {A B} (G : A -> A) (H : B -> B) (k : A -> outcome error B) l :
    (forall x, k (G x) = ro H (k x)) -> mapM k (map G l) = ro (map H) (mapM k l).
  Proof.
    intros E. induction l as [|x l IH]; [reflexivity|]. cbn [map mapM]. rewrite E. apply bind_ro. intros y. rewrite IH. apply bind_ro. intros ys. reflexivity.
  Qed.

  (** ** Paragraphs *)
  Definition fpar (st : parstate) : parstate :=
    match st with mkPar new line text tline buf bline consec => mkPar (rename_chunks3 f new) line (map f text) tline (map f buf) bline consec end.
  Lemma chunks_app a b : rename_chunks3 f (a ++ b) = rename_chunks3 f a ++ rename_chunks3 f b. Proof. apply map_app. Qed.
  Ltac push := first [reflexivity|rewrite chunks_app; reflexivity|rewrite ?chunks_app, ?map_app; reflexivity].
  Lemma par_step_ro p st c : par_step p (fpar st) (f c) = ro fpar (par_step p st c).
  Proof.
    destruct st as [new line text tline buf bline consec]. cbn [fpar par_step]. rewrite !eqb_ascii by (vm_compute; reflexivity). rewrite !fws, !empty_map.
    destruct ((c =? c_newline) && (consec =? 1)%Z).
    { arith. destruct (is_empty text); cbn [negb fpar map]; push. }
    destruct (c =? c_newline). { arith. cbn [fpar]. push. }
    destruct (is_whitespace c && (consec =? 0)%Z). { cbn [rename_outcome fpar]. push. }
    destruct (is_whitespace c). { cbn [rename_outcome fpar]. push. }
    destruct (consec =? 0)%Z. { cbn [rename_outcome fpar]. destruct (is_empty text); push. }
    destruct (consec =? 1)%Z; cbn [rename_outcome fpar map]; [destruct (is_empty text)|]; push.
  Qed.
  Lemma par_finish_ro st : par_finish (fpar st) = rename_chunks3 f (par_finish st).
  Proof.
    destruct st as [new line text tline buf bline consec]. cbn [fpar par_finish]. rewrite <- map_app, !empty_map.
    destruct (negb (is_empty buf)); [destruct (consec >? 1)%Z; [push|]|destruct (negb (is_empty text)); [|reflexivity]]; destruct (negb (is_empty (text ++ buf))); push.
  Qed.
  Lemma par_chunk_ro p new c : par_chunk p (rename_chunks3 f new) (rename_chunk3 f c) = ro (rename_chunks3 f) (par_chunk p new c).
  Proof.
    destruct c as [l v]. destruct v; try (cbn [par_chunk rename_outcome]; rewrite chunks_app; reflexivity).
    change (rename_chunk3 f (mkChunk3 l (Text3 s))) with (mkChunk3 l (Text3 (map f s))). cbn [par_chunk].
    change (mkPar (rename_chunks3 f new) l [] l [] l 0%Z) with (fpar (mkPar new l [] l [] l 0%Z)).
    rewrite (foldM_ro fpar f (par_step p)) by (intros; apply par_step_ro). apply bind_ro. intros x. cbn [rename_outcome]. now rewrite par_finish_ro.
  Qed.
  Lemma paragraph_ro p cs : paragraph_from_chunks p (rename_chunks3 f cs) = ro (rename_chunks3 f) (paragraph_from_chunks p cs).
  Proof. exact (foldM_ro (rename_chunks3 f) (rename_chunk3 f) (par_chunk p) (par_chunk_ro p) cs []). Qed.

  (** ** Maths *)
  Section Rec.
    Variables (p : profile) (rec : list chunk2 -> outcome error (list chunk3)).
    Hypothesis Hrec : forall cs, rec (rename2 f cs) = ro (rename_chunks3 f) (rec cs).
    Lemma scope_ro sc : scope3_try_from p rec (rename_scope2 f sc) = ro (rename_scope3 f) (scope3_try_from p rec sc).
    Proof.
      destruct sc as [cs v]. change (rename_scope2 f (mkScope2 cs v)) with (mkScope2 (rename2 f cs) v). cbn [scope3_try_from].
      rewrite Hrec. apply bind_ro. intros x. rewrite paragraph_ro. apply bind_ro. reflexivity.
    Qed.
    Lemma args_ro args : args3_try_from p rec (rename_args2 f args) = ro (rename_args3 f) (args3_try_from p rec args).
    Proof.
      unfold args3_try_from, rename_args2, rename_args3. apply mapM_ro. intros [pre sc]. rewrite scope_ro. apply bind_ro. reflexivity.
    Qed.
    Lemma command_ro c : command3_try_from p rec (rename_command2 f c) = ro (rename_command3 f) (command3_try_from p rec c).
    Proof.
      destruct c as [lab args]. change (rename_command2 f (mkCommand2 lab args)) with (mkCommand2 (map f lab) (rename_args2 f args)). cbn [command3_try_from].
      rewrite args_ro. apply bind_ro. reflexivity.
    Qed.
    Lemma env_ro e : env3_try_from p rec (rename_env2 f e) = ro (rename_env3 f) (env3_try_from p rec e).
    Proof.
      destruct e as [lab args content pb pe]. change (rename_env2 f (mkEnv2 lab args content pb pe)) with (mkEnv2 (map f lab) (rename_args2 f args) (rename2 f content) (map f pb) (map f pe)). cbn [env3_try_from].
      rewrite args_ro. apply bind_ro. intros x. rewrite Hrec. apply bind_ro. intros y. rewrite paragraph_ro. apply bind_ro. reflexivity.
    Qed.
    Definition fst_m (st : mstate) : mstate := mkM (rename_chunks3 f (ms_out st)) (ms_mode st) (ms_depth st) (rename2 f (ms_buffer st)) (ms_bline st).
    Definition fmt (m : mtext) : mtext := mkMT (fst_m (mt_st m)) (mt_cursor m) (map f (mt_text m)) (mt_line m).
    Lemma push_out_ro st c : m_push_out (fst_m st) (rename_chunk3 f c) = fst_m (m_push_out st c).
    Proof. unfold m_push_out, fst_m. cbn. push. Qed.
    Lemma push_buffer_ro st c : m_push_buffer (fst_m st) (rename_chunk2 f c) = fst_m (m_push_buffer st c).
    Proof. unfold m_push_buffer, fst_m, rename2. cbn. rewrite map_app. reflexivity. Qed.
    Lemma push_str_ro m : mt_push_str (fmt m) = fmt (mt_push_str m).
    Proof.
      unfold mt_push_str, fmt at 1 2. cbn [mt_text]. rewrite empty_map. destruct (is_empty (mt_text m)); [reflexivity|]. cbn [negb]. unfold fmt. cbn [mt_st mt_cursor mt_line mt_text map].
      change (mkChunk3 (mt_line m) (Text3 (map f (mt_text m)))) with (rename_chunk3 f (mkChunk3 (mt_line m) (Text3 (mt_text m)))). now rewrite push_out_ro.
    Qed.
    Lemma close_ro m t : mt_close p rec (fmt m) t = ro fmt (mt_close p rec m t).
    Proof.
      unfold mt_close, fmt at 1 2 3 4 5 6 7 8 9. cbn [mt_st mt_cursor mt_line mt_text]. rewrite empty_map.
      set (b := if negb (is_empty (mt_text m)) then ms_buffer (mt_st m) ++ [mkChunk2 (mt_line m) (Text2 (mt_text m))] else ms_buffer (mt_st m)).
      assert (Eb : (if negb (is_empty (mt_text m)) then ms_buffer (fst_m (mt_st m)) ++ [mkChunk2 (mt_line m) (Text2 (map f (mt_text m)))] else ms_buffer (fst_m (mt_st m))) = rename2 f b).
      { unfold b. destruct (negb (is_empty (mt_text m))); [|reflexivity]. unfold rename2. rewrite map_app. reflexivity. }
      rewrite Eb. unfold rename2 at 1. rewrite (mapM_ro (rename_chunk2 f) (rename_chunk2 f)).
      2: { intros [l v]. cbn [rename_chunk2]. arith. }
      apply bind_ro. intros x. fold (rename2 f x). rewrite Hrec. apply bind_ro. intros co. cbn [rename_outcome]. unfold fmt, fst_m. cbn. push.
    Qed.
    Lemma set_mode_ro m mode : mt_set_mode (fmt m) mode = fmt (mt_set_mode m mode). Proof. reflexivity. Qed.
    Lemma mt_step_ro m c : mt_step p rec (fmt m) (f c) = ro fmt (mt_step p rec m c).
    Proof.
      unfold mt_step. rewrite !eqb_ascii by (vm_compute; reflexivity).
      assert (K : forall m, (if c =? c_dollar then
        match ms_mode (mt_st (fmt m)) with
        | MNone => let m := mt_set_mode (mt_push_str (fmt m)) (SingleDollar Dollars) in Ok (mkMT (mt_st m) (mt_cursor m) (mt_text m) (mt_cursor m))
        | SingleDollar Dollars => if is_empty (mt_text (fmt m)) && is_empty (ms_buffer (mt_st (fmt m))) then Ok (mt_set_mode (fmt m) (DoubleDollar Dollars)) else mt_close p rec (fmt m) Inline
        | DoubleDollar Dollars => Ok (mt_set_mode (fmt m) DoubleClosing)
        | DoubleClosing => mt_close p rec (fmt m) Outline
        | SingleDollar Brackets | DoubleDollar Brackets => Ok (fmt m)
        end
        else Ok (mkMT (mt_st (fmt m)) (mt_cursor (fmt m)) (mt_text (fmt m) ++ [f c]) (mt_line (fmt m)))) =
        ro fmt (if c =? c_dollar then
        match ms_mode (mt_st m) with
        | MNone => let m := mt_set_mode (mt_push_str m) (SingleDollar Dollars) in Ok (mkMT (mt_st m) (mt_cursor m) (mt_text m) (mt_cursor m))
        | SingleDollar Dollars => if is_empty (mt_text m) && is_empty (ms_buffer (mt_st m)) then Ok (mt_set_mode m (DoubleDollar Dollars)) else mt_close p rec m Inline
        | DoubleDollar Dollars => Ok (mt_set_mode m DoubleClosing)
        | DoubleClosing => mt_close p rec m Outline
        | SingleDollar Brackets | DoubleDollar Brackets => Ok m
        end
        else Ok (mkMT (mt_st m) (mt_cursor m) (mt_text m ++ [c]) (mt_line m)))).
      { clear m. intros m. destruct (c =? c_dollar).
        - change (ms_mode (mt_st (fmt m))) with (ms_mode (mt_st m)). destruct (ms_mode (mt_st m)) as [[|]|[|]| |]; try reflexivity; try apply close_ro.
          + change (mt_text (fmt m)) with (map f (mt_text m)). change (ms_buffer (mt_st (fmt m))) with (map (rename_chunk2 f) (ms_buffer (mt_st m))). rewrite !empty_map.
            destruct (is_empty (mt_text m) && is_empty (ms_buffer (mt_st m))); [reflexivity|apply close_ro].
          + rewrite push_str_ro, set_mode_ro. reflexivity.
        - cbn [rename_outcome]. unfold fmt at 5. cbn [mt_st mt_cursor mt_line mt_text]. rewrite map_app. reflexivity. }
      destruct (c =? c_newline).
      - change (mt_cursor (fmt m)) with (mt_cursor m). arith. exact (K (mkMT (mt_st m) _ (mt_text m) (mt_line m))).
      - cbn [bind]. apply K.
    Qed.
    Lemma m_text_ro st l s : m_text p rec (fst_m st) l (map f s) = ro fst_m (m_text p rec st l s).
    Proof.
      unfold m_text. change (mkMT (fst_m st) l [] l) with (fmt (mkMT st l [] l)). rewrite (foldM_ro fmt f (mt_step p rec)) by (intros; apply mt_step_ro).
      apply bind_ro. intros m. rewrite push_str_ro. reflexivity.
    Qed.
    Lemma close_br_ro st t : m_close_brackets rec (fst_m st) t = ro fst_m (m_close_brackets rec st t).
    Proof.
      unfold m_close_brackets. change (ms_buffer (fst_m st)) with (rename2 f (ms_buffer st)). rewrite Hrec. apply bind_ro. intros co. cbn [rename_outcome]. unfold fst_m. cbn. push.
    Qed.
    Lemma m_step_ro st c : m_step p rec (fst_m st) (rename_chunk2 f c) = ro fst_m (m_step p rec st c).
    Proof.
      destruct c as [l v]. change (rename_chunk2 f (mkChunk2 l v)) with (mkChunk2 l (rename_variant2 f v)).
      assert (B : Ok (m_push_buffer (fst_m st) (mkChunk2 l (rename_variant2 f v))) = ro fst_m (Ok (m_push_buffer st (mkChunk2 l v)))).
      { exact (f_equal Ok (push_buffer_ro st (mkChunk2 l v))). }
      unfold m_step. change (ms_mode (fst_m st)) with (ms_mode st). change (ms_depth (fst_m st)) with (ms_depth st).
      destruct v as [s|[lab args]|sc|e].
      - change (rename_variant2 f (Text2 s)) with (Text2 (map f s)) in *. destruct (negb _); [apply m_text_ro|exact B].
      - change (rename_variant2 f (Command2 (mkCommand2 lab args))) with (Command2 (rename_command2 f (mkCommand2 lab args))) in *. set (cmd := mkCommand2 lab args) in *.
        cbv beta iota zeta. change (label2 (rename_command2 f cmd)) with (map f lab). change (label2 cmd) with lab. rewrite !str_eqb_ascii by (vm_compute; reflexivity).
        repeat match goal with |- (if ?b then _ else _) = ro _ (if ?b then _ else _) => destruct b end; try reflexivity; try (arith; fail); try apply close_br_ro; try exact B.
        rewrite command_ro. apply bind_ro. intros x. cbn [rename_outcome]. f_equal. apply (push_out_ro st (mkChunk3 l (Command3 x))).
      - change (rename_variant2 f (Scope2 sc)) with (Scope2 (rename_scope2 f sc)) in *. destruct (is_none (ms_mode st)); [|exact B].
        rewrite scope_ro. apply bind_ro. intros x. cbn [rename_outcome]. f_equal. apply (push_out_ro st (mkChunk3 l (Scope3 x))).
      - change (rename_variant2 f (Environment2 e)) with (Environment2 (rename_env2 f e)) in *. destruct (is_none (ms_mode st)); [|exact B].
        rewrite env_ro. apply bind_ro. intros x. cbn [rename_outcome]. f_equal. apply (push_out_ro st (mkChunk3 l (Environment3 x))).
    Qed.
    Lemma m_finish_ro st : m_finish p (fst_m st) = ro (rename_chunks3 f) (m_finish p st).
    Proof. unfold m_finish. change (ms_mode (fst_m st)) with (ms_mode st). destruct (negb _); [reflexivity|]. apply paragraph_ro. Qed.
  End Rec.
  Lemma maths_fuel_ro p n : forall cs, maths_fuel n p (rename2 f cs) = ro (rename_chunks3 f) (maths_fuel n p cs).
  Proof.
    induction n as [|n IH]; intros cs; [reflexivity|]. cbn [maths_fuel]. change minit with (fst_m minit). unfold rename2.
    rewrite (foldM_ro fst_m (rename_chunk2 f) (m_step p (maths_fuel n p))) by (intros; apply m_step_ro; exact IH).
    apply bind_ro. intros st. apply m_finish_ro.
  Qed.
  Lemma size_rename c : size_chunk2 (rename_chunk2 f c) = size_chunk2 c.
  Proof.
    assert (Cs : forall cs, Forall (fun c => size_chunk2 (rename_chunk2 f c) = size_chunk2 c) cs -> list_sum (map size_chunk2 (map (rename_chunk2 f) cs)) = list_sum (map size_chunk2 cs)).
    { intros cs Hc. induction Hc as [|c' cs Hc _ IHc]; [reflexivity|]. cbn [map list_sum fold_right]. unfold list_sum in IHc. now rewrite Hc, IHc. }
    assert (As : forall args, Forall (fun a : str * scope2 => Forall (fun c => size_chunk2 (rename_chunk2 f c) = size_chunk2 c) (chunks2 (snd a))) args ->
      list_sum (map (fun a : str * scope2 => match a with (_, sc) => size_scope2 sc end) (rename_args2 f args)) = list_sum (map (fun a : str * scope2 => match a with (_, sc) => size_scope2 sc end) args)).
    { intros args IH. induction IH as [|[pre [cs v]] args Ha _ IHa]; [reflexivity|]. cbn [rename_args2 map list_sum fold_right]. unfold list_sum, rename_args2 in IHa. rewrite IHa. f_equal.
      change (size_scope2 (rename_scope2 f (mkScope2 cs v))) with (S (list_sum (map size_chunk2 (map (rename_chunk2 f) cs)))). now rewrite Cs. }
    induction c as [l s|l lab args IH|l cs v IH|l lab args cs pb pe IH IHc] using chunk2_ind'.
    - cbn. now rewrite map_length.
    - change (size_chunk2 (rename_chunk2 f (mkChunk2 l (Command2 (mkCommand2 lab args))))) with (S (S (list_sum (map (fun a : str * scope2 => match a with (_, sc) => size_scope2 sc end) (rename_args2 f args))))). now rewrite As.
    - change (size_chunk2 (rename_chunk2 f (mkChunk2 l (Scope2 (mkScope2 cs v))))) with (S (S (list_sum (map size_chunk2 (map (rename_chunk2 f) cs))))). now rewrite Cs.
    - change (size_chunk2 (rename_chunk2 f (mkChunk2 l (Environment2 (mkEnv2 lab args cs pb pe))))) with
        (S (S (list_sum (map (fun a : str * scope2 => match a with (_, sc) => size_scope2 sc end) (rename_args2 f args)) + list_sum (map size_chunk2 (map (rename_chunk2 f) cs))))). now rewrite As, Cs.
  Qed.
  Lemma size2_rename cs : size2 (rename2 f cs) = size2 cs.
  Proof. unfold size2, rename2. rewrite map_map. f_equal. apply map_ext. exact size_rename. Qed.
  Theorem maths_ro p cs : maths_from_chunks p (rename2 f cs) = ro (rename_chunks3 f) (maths_from_chunks p cs).
  Proof. unfold maths_from_chunks. rewrite size2_rename. apply maths_fuel_ro. Qed.

  (** ** Class and options *)
  Lemma split_ro sep s : sep < 128 -> split_on sep (map f s) = map (map f) (split_on sep s).
  Proof.
    intros H. induction s as [|c s IH]; [reflexivity|]. cbn [map split_on]. rewrite eqb_ascii by exact H. rewrite IH. destruct (c =? sep); [reflexivity|].
    destruct (split_on sep s); reflexivity.
  Qed.
  Lemma split_once_ro sep s : sep < 128 -> split_once sep (map f s) = match split_once sep s with Some (a, b) => Some (map f a, map f b) | None => None end.
  Proof.
    intros H. induction s as [|c s IH]; [reflexivity|]. cbn [map split_once]. rewrite eqb_ascii by exact H. rewrite IH. destruct (c =? sep); [reflexivity|].
    destruct (split_once sep s) as [[a b]|]; reflexivity.
  Qed.
  Lemma fold_ro {A S} (F : S -> S) (G : A -> A) (step : S -> A -> S) :
    (forall s x, step (F s) (G x) = F (step s x)) -> forall l s, fold_left step (map G l) (F s) = F (fold_left step l s).
  Proof. intros H. induction l as [|x l IH]; intros s; [reflexivity|]. cbn [map fold_left]. now rewrite H, IH. Qed.
  Lemma option_ro o : parse_option (map f o) = rename_option f (parse_option o).
  Proof.
    unfold parse_option.
    pose (F := fun st : str * str * str * buffer_mode => match st with (a, b, c, m) => (map f a, map f b, map f c, m) end).
    assert (E : fold_left opt_step (map f o) ([], [], [], BmPrec) = F (fold_left opt_step o ([], [], [], BmPrec))).
    { change (([], [], [], BmPrec) : str * str * str * buffer_mode) with (F ([], [], [], BmPrec)) at 1. apply fold_ro. intros [[[a b] c] m] x. unfold F, opt_step.
      rewrite fws. destruct m, (is_whitespace x); cbn [negb]; rewrite ?map_app; reflexivity. }
    rewrite E. clear E. destruct (fold_left opt_step o ([], [], [], BmPrec)) as [[[prec arg] buffer] m]. unfold F. rewrite split_once_ro by (vm_compute; reflexivity).
    destruct (split_once c_equal arg) as [[k v]|]; [|reflexivity].
    pose (F2 := fun st : str * str => (map f (fst st), map f (snd st))).
    assert (K : fold_left key_step (map f k) ([], []) = F2 (fold_left key_step k ([], []))).
    { change (([], []) : str * str) with (F2 ([], [])) at 1. apply fold_ro. intros [a b] x. unfold F2, key_step. cbn [fst snd]. rewrite fws. destruct (is_whitespace x); cbn [fst snd]; rewrite ?map_app; reflexivity. }
    assert (V : fold_left val_step (map f k) ([], []) = F2 (fold_left val_step k ([], []))).
    { change (([], []) : str * str) with (F2 ([], [])) at 1. apply fold_ro. intros [a b] x. unfold F2, val_step. cbn [fst snd]. rewrite fws. destruct (is_whitespace x); cbn [fst snd]; rewrite ?map_app; reflexivity. }
    rewrite K, V. destruct (fold_left key_step k ([], [])), (fold_left val_step k ([], [])). reflexivity.
  Qed.
  Definition fclass (st : option str * list option_entry) := (option_map (map f) (fst st), map (rename_option f) (snd st)).
  Lemma class_ro l st a : class_arg_step l (fclass st) (match a with (pre, sc) => (map f pre, rename_scope2 f sc) end) = ro fclass (class_arg_step l st a).
  Proof.
    destruct a as [pre [cs v]], st as [cls opts]. change (rename_scope2 f (mkScope2 cs v)) with (mkScope2 (rename2 f cs) v). unfold class_arg_step, fclass. cbn [fst snd].
    rewrite (show_rename2 f Fix).
    assert (K : map parse_option (split_on c_comma (map f (show2 cs))) = map (rename_option f) (map parse_option (split_on c_comma (show2 cs)))).
    { rewrite split_ro by (vm_compute; reflexivity). rewrite !map_map. apply map_ext. exact option_ro. }
    destruct v; [destruct cls; reflexivity| |]; cbn [rename_outcome fst snd]; rewrite map_app, K; reflexivity.
  Qed.
  Definition fds (st : dstate) : dstate := mkD (rename3 f (ds_construct st)) (rename2 f (ds_pre st)) (rename2 f (ds_trail st)) (ds_trailing st).
  Lemma push_other_ro st c : d_push_other (fds st) (rename_chunk2 f c) = fds (d_push_other st c).
  Proof.
    unfold d_push_other, d_push_pre, fds. cbn [ds_construct ds_pre ds_trail ds_trailing]. destruct (negb (ds_trailing st)); cbn; unfold rename2; rewrite map_app; reflexivity.
  Qed.
  Lemma d_step_ro p st c : d_step p (fds st) (rename_chunk2 f c) = ro fds (d_step p st c).
  Proof.
    destruct c as [l v]. change (rename_chunk2 f (mkChunk2 l v)) with (mkChunk2 l (rename_variant2 f v)).
    assert (B : Ok (d_push_other (fds st) (mkChunk2 l (rename_variant2 f v))) = ro fds (Ok (d_push_other st (mkChunk2 l v)))).
    { exact (f_equal Ok (push_other_ro st (mkChunk2 l v))). }
    unfold d_step. change (ds_trailing (fds st)) with (ds_trailing st).
    destruct v as [s|[lab args]|sc|[lab args content pb pe]]; [exact B| |exact B|].
    - change (rename_variant2 f (Command2 (mkCommand2 lab args))) with (Command2 (mkCommand2 (map f lab) (rename_args2 f args))) in *. cbn [label2 arguments2].
      rewrite str_eqb_ascii by (vm_compute; reflexivity). destruct (str_eqb lab s_documentclass && negb (ds_trailing st)); [|exact B].
      change (d_class (ds_construct (fds st))) with (option_map (map f) (d_class (ds_construct st))). destruct (d_class (ds_construct st)) eqn:Ec; [reflexivity|]. cbn [option_map].
      change (@None str, d_options (ds_construct (fds st))) with (fclass (None, d_options (ds_construct st))). unfold rename_args2 at 1.
      rewrite (foldM_ro fclass (fun a : str * scope2 => match a with (pre, sc) => (map f pre, rename_scope2 f sc) end) (class_arg_step l)) by (intros; apply class_ro).
      apply bind_ro. intros x. cbn [rename_outcome]. unfold d_push_pre, fds. cbn. unfold rename2. rewrite map_app. reflexivity.
    - change (rename_variant2 f (Environment2 (mkEnv2 lab args content pb pe))) with (Environment2 (rename_env2 f (mkEnv2 lab args content pb pe))) in *. set (e := mkEnv2 lab args content pb pe) in *.
      cbv beta iota zeta. change (env_label2 (rename_env2 f e)) with (map f lab). change (env_label2 e) with lab. rewrite str_eqb_ascii by (vm_compute; reflexivity).
      destruct (str_eqb lab s_document); [|exact B]. rewrite env_ro by apply maths_ro. apply bind_ro. intros [lab' args' content' b' e']. reflexivity.
  Qed.
  Theorem try_from3_ro p d : try_from3 p (rename2 f d) = ro (rename3 f) (try_from3 p d).
  Proof.
    unfold try_from3. change dinit with (fds dinit). unfold rename2 at 1. rewrite (foldM_ro fds (rename_chunk2 f) (d_step p)) by (intros; apply d_step_ro).
    apply bind_ro. intros st. change (ds_pre (fds st)) with (rename2 f (ds_pre st)). change (ds_trail (fds st)) with (rename2 f (ds_trail st)).
    rewrite maths_ro. apply bind_ro. intros pre. rewrite paragraph_ro. apply bind_ro. intros pre'. rewrite maths_ro. apply bind_ro. intros tr. rewrite paragraph_ro. apply bind_ro. intros tr'. reflexivity.
  Qed.
  Theorem from_str3_ro p s : source_fits s -> from_str3 p (map f s) = ro (rename3 f) (from_str3 p s).
  Proof. intros B. unfold from_str3. rewrite (from_str2_map f g p p s HR B). apply bind_ro. apply try_from3_ro. Qed.
End Renaming.
