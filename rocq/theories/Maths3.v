(** * Maths3: maths recognition *)
From Verif Require Import Base Ast1 Parse1 Ast2 Ast3 Spec1 SpecDoc1 SpecDoc2 SpecDoc3 SpecPar3 SpecMaths3 Order
  Tok Refine1 Ind Lines Facts1 Valid1 Valid2 Valid3 Eqb Conv2 Par3.
Open Scope N_scope.

(** ** Atoms as the machine sees them *)
Inductive matom := MB (l : N) | MC (c : char) | ME (l : N) | MO (l : N) (v : variant2).
Definition erase (a : matom) : atom :=
  match a with MB _ => TextBegin | MC c => Ch c | ME _ => TextEnd | MO _ v => Other v end.
Definition matoms_chunk (c : chunk2) : list matom :=
  match c with
  | mkChunk2 l (Text2 s) => MB l :: map MC s ++ [ME l]
  | mkChunk2 l v => [MO l v]
  end.
Definition matoms (cs : list chunk2) : list matom := concat (map matoms_chunk cs).
Lemma erase_matoms cs : map erase (matoms cs) = atoms cs.
Proof.
  unfold matoms, atoms. induction cs as [|[l v] cs IH]; [reflexivity|]. cbn [map concat]. rewrite map_app, IH. f_equal.
  destruct v; try reflexivity. cbn [matoms_chunk atoms_chunk map]. rewrite map_app, map_map. reflexivity.
Qed.
Definition not_text (v : variant2) : Prop := match v with Text2 _ => False | _ => True end.
Definition wf_atom (a : matom) : Prop := match a with MO _ v => not_text v | _ => True end.
Lemma matoms_wf cs : Forall wf_atom (matoms cs).
Proof.
  unfold matoms. induction cs as [|[l v] cs IH]; [constructor|]. cbn [map concat]. apply Forall_app. split; [|exact IH].
  destruct v; cbn [matoms_chunk]; try (repeat constructor; fail).
  constructor; [exact I|]. apply Forall_app. split; [|repeat constructor]. apply Forall_forall. intros a Ha. apply in_map_iff in Ha as (c & <- & _). exact I.
Qed.
Lemma atoms_cons c cs : atoms (c :: cs) = atoms_chunk c ++ atoms cs. Proof. reflexivity. Qed.
Lemma atoms_app a b : atoms (a ++ b) = atoms a ++ atoms b.
Proof. unfold atoms. now rewrite map_app, concat_app. Qed.
Definition show_atom (a : atom) : str := match a with Ch c => [c] | TextBegin | TextEnd => [] | Other v => show_variant2 v end.
Definition show_atoms (A : list atom) : str := concat (map show_atom A).
Lemma show_atoms_app a b : show_atoms (a ++ b) = show_atoms a ++ show_atoms b.
Proof. unfold show_atoms. now rewrite map_app, concat_app. Qed.
Lemma show_atoms_chars s : show_atoms (map Ch s) = s.
Proof. unfold show_atoms. induction s as [|c s IH]; [reflexivity|]. cbn. now rewrite IH. Qed.
Lemma show_atoms_atoms cs : show_atoms (atoms cs) = show2 cs.
Proof.
  induction cs as [|[l v] cs IH]; [reflexivity|]. rewrite atoms_cons, show_atoms_app, IH. unfold show2. cbn [map concat]. f_equal.
  destruct v; cbn [atoms_chunk]; try (unfold show_atoms; cbn; now rewrite app_nil_r).
  change (show_atoms (TextBegin :: map Ch s ++ [TextEnd])) with (show_atoms (map Ch s ++ [TextEnd])).
  rewrite show_atoms_app, show_atoms_chars. cbn. now rewrite app_nil_r.
Qed.

Section Machine.
  Context (p : profile) (rec : list chunk2 -> outcome error (list chunk3)).
  Definition is_br (m : maths_mode) : bool := is_single_br m || is_double_br m.
  Definition set_st (m : mtext) (st : mstate) : mtext := mkMT st (mt_cursor m) (mt_text m) (mt_line m).
  Definition astep (m : mtext) (a : matom) : outcome error mtext :=
    match a with
    | MB l => let m := if is_br (ms_mode (mt_st m)) then m else mt_push_str m in
              Ok (mkMT (mt_st m) l (mt_text m) l)
    | MC c => if is_br (ms_mode (mt_st m)) then Ok (mkMT (mt_st m) (mt_cursor m) (mt_text m ++ [c]) (mt_line m))
              else mt_step p rec m c
    | ME l => if is_br (ms_mode (mt_st m))
              then Ok (mkMT (m_push_buffer (mt_st m) (mkChunk2 l (Text2 (mt_text m)))) (mt_cursor m) [] (mt_line m))
              else Ok (mt_push_str m)
    | MO l v => let* st := m_step p rec (mt_st m) (mkChunk2 l v) in Ok (set_st m st)
    end.
  Lemma mt_step_char m c : c <> c_dollar -> mt_step p rec m c =
    let* cur := (if c =? c_newline then add32 p (mt_cursor m) 1 else Ok (mt_cursor m)) in
    Ok (mkMT (mt_st m) cur (mt_text m ++ [c]) (mt_line m)).
  Proof.
    intros H. unfold mt_step. apply N.eqb_neq in H. rewrite H. destruct (c =? c_newline); [|now destruct m].
    destruct (add32 p (mt_cursor m) 1); reflexivity.
  Qed.
  Lemma mt_step_dollar m : mt_step p rec m c_dollar =
    match ms_mode (mt_st m) with
    | MNone => let m1 := mt_set_mode (mt_push_str m) (SingleDollar Dollars) in Ok (mkMT (mt_st m1) (mt_cursor m1) (mt_text m1) (mt_cursor m1))
    | SingleDollar Dollars => if is_empty (mt_text m) && is_empty (ms_buffer (mt_st m)) then Ok (mt_set_mode m (DoubleDollar Dollars)) else mt_close p rec m Inline
    | DoubleDollar Dollars => Ok (mt_set_mode m DoubleClosing)
    | DoubleClosing => mt_close p rec m Outline
    | SingleDollar Brackets | DoubleDollar Brackets => Ok m
    end.
  Proof. reflexivity. Qed.
  Lemma mt_close_ok m t m' : mt_close p rec m t = Ok m' ->
    exists sh content, map variant_of2 sh = map variant_of2 (ms_buffer (mt_st m) ++ (if is_empty (mt_text m) then [] else [mkChunk2 (mt_line m) (Text2 (mt_text m))])) /\
      rec sh = Ok content /\
      m' = mkMT (mkM (ms_out (mt_st m) ++ [mkChunk3 (mt_line m) (Maths3 (mkMaths3 Dollars t content))]) MNone (ms_depth (mt_st m)) [] (ms_bline (mt_st m)))
                (mt_cursor m) [] (mt_cursor m).
  Proof.
    unfold mt_close. set (b := if negb (is_empty (mt_text m)) then _ else _).
    assert (Eb : b = ms_buffer (mt_st m) ++ (if is_empty (mt_text m) then [] else [mkChunk2 (mt_line m) (Text2 (mt_text m))])).
    { unfold b. destruct (is_empty (mt_text m)); cbn [negb]; [now rewrite app_nil_r|reflexivity]. }
    rewrite Eb. clear b Eb. set (b := ms_buffer _ ++ _).
    destruct (mapM _ b) as [sh|e| |] eqn:Em; cbn [bind]; try discriminate.
    destruct (rec sh) as [co|e| |] eqn:Er; cbn [bind]; try discriminate. intros E. injection E as <-.
    exists sh, co. split; [|split; [exact Er|reflexivity]].
    clear Er. revert sh Em. induction b as [|[l v] b IH]; intros sh Em; cbn [mapM] in Em.
    - injection Em as <-. reflexivity.
    - destruct (sub32 p (mt_line m) 1) as [o|e| |]; cbn [bind] in Em; try discriminate.
      destruct (sub32 p l o) as [l'|e| |]; cbn [bind] in Em; try discriminate.
      destruct (mapM _ b) as [sh'|e| |] eqn:Eb; cbn [bind] in Em; try discriminate. injection Em as <-.
      cbn [map variant_of2]. f_equal. now apply IH.
  Qed.
  Lemma push_str_mode m : ms_mode (mt_st (mt_push_str m)) = ms_mode (mt_st m).
  Proof. unfold mt_push_str. now destruct (is_empty (mt_text m)). Qed.
  (** characters of a text do not enter bracket mode *)
  Lemma mt_step_not_br m c m' : is_br (ms_mode (mt_st m)) = false -> mt_step p rec m c = Ok m' -> is_br (ms_mode (mt_st m')) = false.
  Proof.
    intros H. destruct (N.eq_dec c c_dollar) as [->|Hc].
    - rewrite mt_step_dollar.
      assert (C : forall t, mt_close p rec m t = Ok m' -> is_br (ms_mode (mt_st m')) = false).
      { intros t Hm. apply mt_close_ok in Hm as (sh & co & _ & _ & ->). reflexivity. }
      destruct (ms_mode (mt_st m)) as [[|]|[|]| |] eqn:Em; try discriminate H; eauto.
      + destruct (is_empty _ && is_empty _); eauto. intros E. injection E as <-. reflexivity.
      + intros E. injection E as <-. reflexivity.
      + intros E. injection E as <-. reflexivity.
    - rewrite mt_step_char by exact Hc. destruct (c =? c_newline).
      + destruct (add32 p (mt_cursor m) 1); cbn [bind]; try discriminate. intros E. injection E as <-. exact H.
      + cbn [bind]. intros E. injection E as <-. exact H.
  Qed.
  Lemma push_str_text m : mt_text (mt_push_str m) = [].
  Proof. unfold mt_push_str. destruct (mt_text m) eqn:Et; cbn [is_empty negb]; [exact Et|reflexivity]. Qed.
  Lemma astep_chars s : forall m, is_br (ms_mode (mt_st m)) = false -> foldM astep m (map MC s) = foldM (mt_step p rec) m s.
  Proof.
    induction s as [|c s IH]; intros m H; [reflexivity|]. cbn [map foldM]. unfold astep at 1. rewrite H.
    destruct (mt_step p rec m c) as [m'|e| |] eqn:Em; cbn [bind]; try reflexivity. apply IH. eapply mt_step_not_br; eassumption.
  Qed.
  Lemma astep_chars_br s : forall m, is_br (ms_mode (mt_st m)) = true ->
    foldM astep m (map MC s) = Ok (mkMT (mt_st m) (mt_cursor m) (mt_text m ++ s) (mt_line m)).
  Proof.
    induction s as [|c s IH]; intros m H; cbn [map foldM]; [rewrite app_nil_r; now destruct m|]. unfold astep at 1. rewrite H. cbn [bind].
    rewrite IH by exact H. cbn [mt_st mt_cursor mt_text mt_line]. now rewrite <- app_assoc.
  Qed.
  Lemma push_str_empty m : mt_text m = [] -> mt_push_str m = m.
  Proof. intros H. unfold mt_push_str. now rewrite H. Qed.
  (** the machine on chunks is the machine on atoms *)
  Lemma foldM_atoms cs : forall st x y,
    foldM (m_step p rec) st cs = (let* m := foldM astep (mkMT st x [] y) (matoms cs) in Ok (mt_st m)) /\
    (forall m, foldM astep (mkMT st x [] y) (matoms cs) = Ok m -> mt_text m = []).
  Proof.
    induction cs as [|[l v] cs IH]; intros st x y.
    - split; [reflexivity|]. intros m E. injection E as <-. reflexivity.
    - unfold matoms. cbn [map concat]. fold (matoms cs). rewrite foldM_app. cbn [foldM].
      assert (O : matoms_chunk (mkChunk2 l v) = [MO l v] ->
        (let* s' := m_step p rec st (mkChunk2 l v) in foldM (m_step p rec) s' cs) =
        (let* m := let* s := foldM astep (mkMT st x [] y) (matoms_chunk (mkChunk2 l v)) in foldM astep s (matoms cs) in Ok (mt_st m)) /\
        (forall m, (let* s := foldM astep (mkMT st x [] y) (matoms_chunk (mkChunk2 l v)) in foldM astep s (matoms cs)) = Ok m -> mt_text m = [])).
      { intros ->. cbn [foldM]. unfold astep at 1 3. cbn [mt_st].
        destruct (m_step p rec st (mkChunk2 l v)) as [st'|e| |]; cbn [bind]; try (split; [reflexivity|discriminate]).
        unfold set_st. cbn [mt_cursor mt_text mt_line]. apply IH. }
      destruct v; try (apply O; reflexivity). clear O.
      cbn [matoms_chunk].
      assert (M : foldM astep (mkMT st x [] y) (MB l :: map MC s ++ [ME l]) =
        (let* m := foldM astep (mkMT st l [] l) (map MC s) in astep m (ME l))).
      { cbn [foldM]. unfold astep at 1. rewrite push_str_empty by reflexivity. destruct (is_br (ms_mode _)); cbn [bind mt_st mt_text];
          rewrite foldM_app; cbn [foldM]; destruct (foldM astep _ (map MC s)) as [m1|e| |]; cbn [bind]; try reflexivity; destruct (astep m1 (ME l)); reflexivity. }
      rewrite M. clear M.
      unfold m_step at 1. destruct (is_br (ms_mode st)) eqn:Eb.
      + unfold is_br in Eb. rewrite Eb. cbn [negb]. fold (is_br (ms_mode st)) in Eb.
        rewrite astep_chars_br by exact Eb. cbn [bind mt_st mt_cursor mt_text mt_line app]. unfold astep at 1 3. cbn [mt_st]. rewrite Eb. cbn [bind mt_text app mt_cursor mt_line].
        apply IH.
      + unfold is_br in Eb. rewrite Eb. cbn [negb]. fold (is_br (ms_mode st)) in Eb.
        rewrite astep_chars by exact Eb. unfold m_text.
        destruct (foldM (mt_step p rec) (mkMT st l [] l) s) as [m1|e| |] eqn:Em; cbn [bind]; try (split; [reflexivity|discriminate]).
        assert (Hb : is_br (ms_mode (mt_st m1)) = false).
        { clear - Em Eb. assert (G : forall s m, is_br (ms_mode (mt_st m)) = false -> foldM (mt_step p rec) m s = Ok m1 -> is_br (ms_mode (mt_st m1)) = false).
          { clear. induction s as [|c s IH]; intros m H Hf; cbn [foldM] in Hf; [injection Hf as <-; exact H|].
            destruct (mt_step p rec m c) as [m'|e| |] eqn:Em; cbn [bind] in Hf; try discriminate. apply (IH m'); [eapply mt_step_not_br; eassumption|exact Hf]. }
          apply (G s (mkMT st l [] l)); assumption. }
        unfold astep at 1 3. rewrite Hb. cbn [bind]. destruct (mt_push_str m1) as [st1 x1 t1 y1] eqn:Ep.
        pose proof (push_str_text m1) as Ht. rewrite Ep in Ht. cbn [mt_text] in Ht. subst t1. cbn [mt_st]. apply IH.
  Qed.

  (** ** The other chunks *)
  Definition conv_variant (v : variant2) : outcome error variant3 :=
    match v with
    | Text2 s => Ok (Text3 s)
    | Command2 c => let* c := command3_try_from p rec c in Ok (Command3 c)
    | Scope2 s => let* s := scope3_try_from p rec s in Ok (Scope3 s)
    | Environment2 e => let* e := env3_try_from p rec e in Ok (Environment3 e)
    end.
  Definition kind (v : variant2) : option (bool * maths_type) :=
    match v with
    | Command2 (mkCommand2 lab _) =>
        if str_eqb lab [c_lround] then Some (true, Inline)
        else if str_eqb lab [c_lsquare] then Some (true, Outline)
        else if str_eqb lab [c_rround] then Some (false, Inline)
        else if str_eqb lab [c_rsquare] then Some (false, Outline)
        else None
    | _ => None
    end.
  Definition br (t : maths_type) : maths_mode :=
    match t with Inline => SingleDollar Brackets | Outline => DoubleDollar Brackets end.
  Definition teqb (a b : maths_type) : bool := match a, b with Inline, Inline | Outline, Outline => true | _, _ => false end.
  Definition m_other (st : mstate) (l : N) (v : variant2) : outcome error mstate :=
    let in_br t0 :=
      match kind v with
      | Some (o, t) =>
          if teqb t t0 then
            if o then let* d := add32 p (ms_depth st) 1 in Ok (m_set_depth st d)
            else if ms_depth st =? 1 then m_close_brackets rec st t0
            else let* d := sub32 p (ms_depth st) 1 in Ok (m_set_depth st d)
          else Ok (m_push_buffer st (mkChunk2 l v))
      | None => Ok (m_push_buffer st (mkChunk2 l v))
      end in
    match ms_mode st with
    | MNone =>
        match kind v with
        | Some (true, t) => Ok (mkM (ms_out st) (br t) 1 (ms_buffer st) l)
        | Some (false, t) => Err (mkError l UnexpectedMathsEnd)
        | None => let* v3 := conv_variant v in Ok (m_push_out st (mkChunk3 l v3))
        end
    | SingleDollar Brackets => in_br Inline
    | DoubleDollar Brackets => in_br Outline
    | _ => Ok (m_push_buffer st (mkChunk2 l v))
    end.
  Lemma m_step_other st l v : not_text v -> m_step p rec st (mkChunk2 l v) = m_other st l v.
  Proof.
    intros H. unfold m_step, m_other, conv_variant. destruct v as [s|[lab args]|sc|e]; [destruct H| | |].
    - cbn [label2 kind].
      destruct (str_eqb lab [c_lround]) eqn:E1; [apply str_eqb_iff in E1; subst lab|
      destruct (str_eqb lab [c_lsquare]) eqn:E2; [apply str_eqb_iff in E2; subst lab|
      destruct (str_eqb lab [c_rround]) eqn:E3; [apply str_eqb_iff in E3; subst lab|
      destruct (str_eqb lab [c_rsquare]) eqn:E4; [apply str_eqb_iff in E4; subst lab|]]]];
      destruct (ms_mode st) as [[|]|[|]| |]; cbn [is_none is_single_br is_double_br andb orb teqb]; try reflexivity;
      try (cbn [str_eqb]; cbn; destruct (ms_depth st =? 1); reflexivity).
      destruct (command3_try_from p rec (mkCommand2 lab args)); reflexivity.
    - cbn [kind]. destruct (ms_mode st) as [[|]|[|]| |]; cbn [is_none]; try reflexivity. destruct (scope3_try_from p rec sc); reflexivity.
    - cbn [kind]. destruct (ms_mode st) as [[|]|[|]| |]; cbn [is_none]; try reflexivity. destruct (env3_try_from p rec e); reflexivity.
  Qed.
End Machine.
