(** * SpecEdit: replacing the contents of one chunk, at any depth

    [changedN v w x y]: [y] is [x] with one occurrence of [v], itself or the contents of one chunk somewhere inside, replaced by [w].
    Line numbers of nested chunks on the way may change too; nothing looks at them.  Nothing here refers to the functions of the code. *)
From Verif Require Import Base Ast1 Ast2 Ast3.

Inductive changed1 (v w : variant1) : variant1 -> variant1 -> Prop :=
| ch1_self : changed1 v w v w
| ch1_scope x y a l l' b k : changed1 v w x y ->
    changed1 v w (Scope1 (mkScope1 (a ++ mkChunk1 l x :: b) k)) (Scope1 (mkScope1 (a ++ mkChunk1 l' y :: b) k))
| ch1_arg x y lab s prec t a l l' b k : changed1 v w x y ->
    changed1 v w (Command1 (mkCommand1 lab (s ++ (prec, mkScope1 (a ++ mkChunk1 l x :: b) k) :: t)))
                 (Command1 (mkCommand1 lab (s ++ (prec, mkScope1 (a ++ mkChunk1 l' y :: b) k) :: t))).

Inductive changed2 (v w : variant2) : variant2 -> variant2 -> Prop :=
| ch2_self : changed2 v w v w
| ch2_scope x y a l l' b k : changed2 v w x y ->
    changed2 v w (Scope2 (mkScope2 (a ++ mkChunk2 l x :: b) k)) (Scope2 (mkScope2 (a ++ mkChunk2 l' y :: b) k))
| ch2_arg x y lab s prec t a l l' b k : changed2 v w x y ->
    changed2 v w (Command2 (mkCommand2 lab (s ++ (prec, mkScope2 (a ++ mkChunk2 l x :: b) k) :: t)))
                 (Command2 (mkCommand2 lab (s ++ (prec, mkScope2 (a ++ mkChunk2 l' y :: b) k) :: t)))
| ch2_env_arg x y lab s prec t a l l' b k cs pb pe : changed2 v w x y ->
    changed2 v w (Environment2 (mkEnv2 lab (s ++ (prec, mkScope2 (a ++ mkChunk2 l x :: b) k) :: t) cs pb pe))
                 (Environment2 (mkEnv2 lab (s ++ (prec, mkScope2 (a ++ mkChunk2 l' y :: b) k) :: t) cs pb pe))
| ch2_env x y lab args a l l' b pb pe : changed2 v w x y ->
    changed2 v w (Environment2 (mkEnv2 lab args (a ++ mkChunk2 l x :: b) pb pe))
                 (Environment2 (mkEnv2 lab args (a ++ mkChunk2 l' y :: b) pb pe)).

Inductive changed3 (v w : variant3) : variant3 -> variant3 -> Prop :=
| ch3_self : changed3 v w v w
| ch3_scope x y a l l' b k : changed3 v w x y ->
    changed3 v w (Scope3 (mkScope3 (a ++ mkChunk3 l x :: b) k)) (Scope3 (mkScope3 (a ++ mkChunk3 l' y :: b) k))
| ch3_arg x y lab s prec t a l l' b k : changed3 v w x y ->
    changed3 v w (Command3 (mkCommand3 lab (s ++ (prec, mkScope3 (a ++ mkChunk3 l x :: b) k) :: t)))
                 (Command3 (mkCommand3 lab (s ++ (prec, mkScope3 (a ++ mkChunk3 l' y :: b) k) :: t)))
| ch3_env_arg x y lab s prec t a l l' b k cs pb pe : changed3 v w x y ->
    changed3 v w (Environment3 (mkEnv3 lab (s ++ (prec, mkScope3 (a ++ mkChunk3 l x :: b) k) :: t) cs pb pe))
                 (Environment3 (mkEnv3 lab (s ++ (prec, mkScope3 (a ++ mkChunk3 l' y :: b) k) :: t) cs pb pe))
| ch3_env x y lab args a l l' b pb pe : changed3 v w x y ->
    changed3 v w (Environment3 (mkEnv3 lab args (a ++ mkChunk3 l x :: b) pb pe))
                 (Environment3 (mkEnv3 lab args (a ++ mkChunk3 l' y :: b) pb pe))
| ch3_maths x y mv mt a l l' b : changed3 v w x y ->
    changed3 v w (Maths3 (mkMaths3 mv mt (a ++ mkChunk3 l x :: b))) (Maths3 (mkMaths3 mv mt (a ++ mkChunk3 l' y :: b))).
