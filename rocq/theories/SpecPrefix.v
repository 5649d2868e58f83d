(** * SpecPrefix: what reading on can change

    [continues tail rest]: [tail] is the end of what was read of a beginning of a source, [rest] what stands there when the
    whole source is read. *)
From Verif Require Import Base Ast1.

Definition blank (w : str) : Prop := Forall (fun c => is_whitespace c = true) w.
(** a label that may go on: [\)] may not *)
Definition word (lab : str) : Prop := exists c w, lab = c :: w /\ is_ascii_alphabetic c = true.
Inductive continues : list chunk1 -> list chunk1 -> Prop :=
(** everything that was read stays, anything may follow *)
| ct_new rest : continues [] rest
(** a text may go on *)
| ct_text l s u rest : continues [mkChunk1 l (Text1 s)] (mkChunk1 l (Text1 (s ++ u)) :: rest)
(** a command may get more arguments *)
| ct_args l lab args more rest :
    continues [mkChunk1 l (Command1 (mkCommand1 lab args))] (mkChunk1 l (Command1 (mkCommand1 lab (args ++ more))) :: rest)
(** the label of a command without arguments may go on, if it is a word *)
| ct_label l lab u args rest : word lab ->
    continues [mkChunk1 l (Command1 (mkCommand1 lab []))] (mkChunk1 l (Command1 (mkCommand1 (lab ++ u) args)) :: rest)
(** blanks after a command may be the beginning of a text, or of the blanks before an argument *)
| ct_blanks_text l lab args l' l'' w u rest : blank w ->
    continues [mkChunk1 l (Command1 (mkCommand1 lab args)); mkChunk1 l' (Text1 w)]
              (mkChunk1 l (Command1 (mkCommand1 lab args)) :: mkChunk1 l'' (Text1 (w ++ u)) :: rest)
| ct_blanks_arg l lab args l' w u sc more rest : blank w ->
    continues [mkChunk1 l (Command1 (mkCommand1 lab args)); mkChunk1 l' (Text1 w)]
              (mkChunk1 l (Command1 (mkCommand1 lab (args ++ (w ++ u, sc) :: more))) :: rest).

(** The same for a tree with environments. *)
From Verif Require Import Ast2.
Inductive continues2 : list chunk2 -> list chunk2 -> Prop :=
| ct2_new rest : continues2 [] rest
| ct2_text l s u rest : continues2 [mkChunk2 l (Text2 s)] (mkChunk2 l (Text2 (s ++ u)) :: rest)
| ct2_args l lab args more rest :
    continues2 [mkChunk2 l (Command2 (mkCommand2 lab args))] (mkChunk2 l (Command2 (mkCommand2 lab (args ++ more))) :: rest)
| ct2_label l lab u args rest : word lab ->
    continues2 [mkChunk2 l (Command2 (mkCommand2 lab []))] (mkChunk2 l (Command2 (mkCommand2 (lab ++ u) args)) :: rest)
(** a label that goes on may be [begin] *)
| ct2_begin l lab u l' env rest : word lab -> lab ++ u = S! "begin" -> u <> [] -> l <= l' ->
    continues2 [mkChunk2 l (Command2 (mkCommand2 lab []))] (mkChunk2 l' (Environment2 env) :: rest)
(** blanks after a command may be the beginning of a text, which then starts on another line, or of the blanks before an argument *)
| ct2_blanks_text l' l'' w u rest : blank w -> continues2 [mkChunk2 l' (Text2 w)] (mkChunk2 l'' (Text2 (w ++ u)) :: rest)
| ct2_blanks_arg l lab args l' w u sc more rest : blank w ->
    continues2 [mkChunk2 l (Command2 (mkCommand2 lab args)); mkChunk2 l' (Text2 w)]
               (mkChunk2 l (Command2 (mkCommand2 lab (args ++ (w ++ u, sc) :: more))) :: rest).

(** [y] has everything [x] has, but for the last [n] of [x] and what [y] has instead *)
Definition all_but {A} (n : nat) (x y : list A) : Prop := exists keep last next, x = keep ++ last /\ y = keep ++ next /\ (length last <= n)%nat.
