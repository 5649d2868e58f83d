(** * Ind: induction principles for the nested tree types of the three stages *)
From Verif Require Import Base Ast1 Parse1 Ast2 Ast3.

Section Chunk1Ind.
  Context (P : chunk1 -> Prop).
  Context (Htext : forall l s, P (mkChunk1 l (Text1 s))).
  Context (Hcmd : forall l lab args,
    Forall (fun a => Forall P (chunks1 (snd a))) args ->
    P (mkChunk1 l (Command1 (mkCommand1 lab args)))).
  Context (Hscope : forall l cs v, Forall P cs -> P (mkChunk1 l (Scope1 (mkScope1 cs v)))).

  Fixpoint chunk1_ind' (c : chunk1) : P c :=
    let chunks := fix chunks (cs : list chunk1) : Forall P cs :=
      match cs with [] => Forall_nil _ | c :: cs => Forall_cons _ (chunk1_ind' c) (chunks cs) end in
    match c with
    | mkChunk1 l (Text1 s) => Htext l s
    | mkChunk1 l (Command1 (mkCommand1 lab args)) =>
        Hcmd l lab args
          ((fix go (args : list (str * scope1)) : Forall (fun a => Forall P (chunks1 (snd a))) args :=
              match args with
              | [] => Forall_nil _
              | a :: args =>
                  Forall_cons a
                    (match a return Forall P (chunks1 (snd a)) with
                     | (_, mkScope1 cs _) => chunks cs end) (go args)
              end) args)
    | mkChunk1 l (Scope1 (mkScope1 cs v)) => Hscope l cs v (chunks cs)
    end.

  Lemma chunks1_ind' cs : Forall P cs.
  Proof. induction cs; constructor; [apply chunk1_ind'|assumption]. Qed.
End Chunk1Ind.

Section Chunk2Ind.
  Context (P : chunk2 -> Prop).
  Context (Htext : forall l s, P (mkChunk2 l (Text2 s))).
  Context (Hcmd : forall l lab args,
    Forall (fun a => Forall P (chunks2 (snd a))) args ->
    P (mkChunk2 l (Command2 (mkCommand2 lab args)))).
  Context (Hscope : forall l cs v, Forall P cs -> P (mkChunk2 l (Scope2 (mkScope2 cs v)))).
  Context (Henv : forall l lab args cs pb pe,
    Forall (fun a => Forall P (chunks2 (snd a))) args -> Forall P cs ->
    P (mkChunk2 l (Environment2 (mkEnv2 lab args cs pb pe)))).

  Fixpoint chunk2_ind' (c : chunk2) : P c :=
    let chunks := fix chunks (cs : list chunk2) : Forall P cs :=
      match cs with [] => Forall_nil _ | c :: cs => Forall_cons _ (chunk2_ind' c) (chunks cs) end in
    let args_ind := fix go (args : list (str * scope2)) : Forall (fun a => Forall P (chunks2 (snd a))) args :=
              match args with
              | [] => Forall_nil _
              | a :: args =>
                  Forall_cons a
                    (match a return Forall P (chunks2 (snd a)) with
                     | (_, mkScope2 cs _) => chunks cs end) (go args)
              end in
    match c with
    | mkChunk2 l (Text2 s) => Htext l s
    | mkChunk2 l (Command2 (mkCommand2 lab args)) => Hcmd l lab args (args_ind args)
    | mkChunk2 l (Scope2 (mkScope2 cs v)) => Hscope l cs v (chunks cs)
    | mkChunk2 l (Environment2 (mkEnv2 lab args cs pb pe)) => Henv l lab args cs pb pe (args_ind args) (chunks cs)
    end.
  Lemma chunks2_ind' cs : Forall P cs.
  Proof. induction cs; constructor; [apply chunk2_ind'|assumption]. Qed.
End Chunk2Ind.

Definition chunks3 (s : scope3) : list chunk3 := match s with mkScope3 cs _ => cs end.

Section Chunk3Ind.
  Context (P : chunk3 -> Prop).
  Context (Htext : forall l s, P (mkChunk3 l (Text3 s))).
  Context (Hbreak : forall l s, P (mkChunk3 l (ParagraphBreak3 s))).
  Context (Hcmd : forall l lab args,
    Forall (fun a => Forall P (chunks3 (snd a))) args ->
    P (mkChunk3 l (Command3 (mkCommand3 lab args)))).
  Context (Hscope : forall l cs v, Forall P cs -> P (mkChunk3 l (Scope3 (mkScope3 cs v)))).
  Context (Henv : forall l lab args cs pb pe,
    Forall (fun a => Forall P (chunks3 (snd a))) args -> Forall P cs ->
    P (mkChunk3 l (Environment3 (mkEnv3 lab args cs pb pe)))).
  Context (Hmaths : forall l v t cs, Forall P cs -> P (mkChunk3 l (Maths3 (mkMaths3 v t cs)))).

  Fixpoint chunk3_ind' (c : chunk3) : P c :=
    let chunks := fix chunks (cs : list chunk3) : Forall P cs :=
      match cs with [] => Forall_nil _ | c :: cs => Forall_cons _ (chunk3_ind' c) (chunks cs) end in
    let args_ind := fix go (args : list (str * scope3)) : Forall (fun a => Forall P (chunks3 (snd a))) args :=
              match args with
              | [] => Forall_nil _
              | a :: args =>
                  Forall_cons a
                    (match a return Forall P (chunks3 (snd a)) with
                     | (_, mkScope3 cs _) => chunks cs end) (go args)
              end in
    match c with
    | mkChunk3 l (Text3 s) => Htext l s
    | mkChunk3 l (ParagraphBreak3 s) => Hbreak l s
    | mkChunk3 l (Command3 (mkCommand3 lab args)) => Hcmd l lab args (args_ind args)
    | mkChunk3 l (Scope3 (mkScope3 cs v)) => Hscope l cs v (chunks cs)
    | mkChunk3 l (Environment3 (mkEnv3 lab args cs pb pe)) => Henv l lab args cs pb pe (args_ind args) (chunks cs)
    | mkChunk3 l (Maths3 (mkMaths3 v t cs)) => Hmaths l v t cs (chunks cs)
    end.
  Lemma chunks3_ind' cs : Forall P cs.
  Proof. induction cs; constructor; [apply chunk3_ind'|assumption]. Qed.
End Chunk3Ind.
