(** * SpecChain: maths blocks directly inside each other *)
From Verif Require Import Base Ast1 Ast2 Ast3.

(** three kinds: between dollars, between [\(] and [\)], between [\[] and [\]] *)
Inductive maths_kind := ByDollars | ByBrackets (t : maths_type).
Definition kind_of (v : maths_variant) (t : maths_type) : maths_kind :=
  match v with Dollars => ByDollars | Brackets => ByBrackets t end.

(** [chain cs ks]: a maths block in [cs] of the first kind contains, itself and not in a scope, an argument or
    an environment, one of the second kind, and so on *)
Inductive chain : list chunk3 -> list maths_kind -> Prop :=
| chain_end cs : chain cs []
| chain_in cs l v t content ks : In (mkChunk3 l (Maths3 (mkMaths3 v t content))) cs -> chain content ks ->
    chain cs (kind_of v t :: ks).
