(** * SpecReads: what maths recognition makes of a list of stage-2 chunks

    A complete description: for every list, either the chunks that come out, with their line
    numbers, or the error, or an arithmetic overflow.  Only the tree types of Ast2.v and Ast3.v
    are used, and the splitting of texts into paragraphs of SpecPar3.v. *)
From Verif Require Import Base Ast1 Ast2 Ast3 SpecPar3 SpecMaths3.

Inductive result (A : Type) := Good (a : A) | Bad (e : error) | Overflow.
Arguments Good {A}. Arguments Bad {A}. Arguments Overflow {A}.
Definition on {A B} (f : A -> B) (r : result A) : result B :=
  match r with Good a => Good (f a) | Bad e => Bad e | Overflow => Overflow end.
(** two parts read one after the other: the first failure counts *)
Definition andthen {A B C} (f : A -> B -> C) (r1 : result A) (r2 : result B) : result C :=
  match r1 with Good a => on (f a) r2 | Bad e => Bad e | Overflow => Overflow end.

Definition variant3_of (v : sv2) : sv3 :=
  match v with Curly2 => Curly3 | Square2 => Square3 | Round2 => Round3 end.
Definition text_chunk2 (l : N) (s : str) : list chunk2 :=
  match s with [] => [] | _ => [mkChunk2 l (Text2 s)] end.

(** [upto cs leaks inner l p rest]: the next dollar of the texts of [cs] ends the text [p], which
    begins on line [l]; before it are the texts without a dollar [leaks] and the other chunks
    [inner]; [rest] comes after it. *)
Inductive upto : list chunk2 -> list chunk3 -> list chunk2 -> N -> str -> list chunk2 -> Prop :=
| ud_here l p r cs : ~ In c_dollar p ->
    upto (mkChunk2 l (Text2 (p ++ c_dollar :: r)) :: cs) [] [] l p
         (mkChunk2 (l + count_newlines p) (Text2 r) :: cs)
| ud_text l s cs leaks inner l' p rest : ~ In c_dollar s -> upto cs leaks inner l' p rest ->
    upto (mkChunk2 l (Text2 s) :: cs) (text_chunk3 l s ++ leaks) inner l' p rest
| ud_other l v cs leaks inner l' p rest : (forall s, v <> Text2 s) -> upto cs leaks inner l' p rest ->
    upto (mkChunk2 l v :: cs) leaks (mkChunk2 l v :: inner) l' p rest.

(** [dollar_block t cs leaks lb content rest]: the first dollar has just been read and [cs] follows.
    The block ends before [rest]; its content is made of the chunks that are not texts and of the
    last text, which begins on line [lb]; the texts in between are the [leaks].
    A block is a display if the second dollar is the first character of its text or of the rest of it, and
    only texts without a dollar come before that text; the
    third dollar of a display is skipped wherever it stands. *)
Inductive dollar_block : maths_type -> list chunk2 -> list chunk3 -> N -> list chunk2 -> list chunk2 -> Prop :=
| db_inline cs leaks inner lb p rest : upto cs leaks inner lb p rest -> inner <> [] \/ p <> [] ->
    dollar_block Inline cs leaks lb (inner ++ text_chunk2 lb p) rest
| db_display cs leaks0 lb0 rest0 leaks1 inner1 lb1 p1 lr r cs1 leaks2 inner2 lb p rest :
    upto cs leaks0 [] lb0 [] rest0 ->
    upto rest0 leaks1 inner1 lb1 p1 (mkChunk2 lr (Text2 r) :: cs1) ->
    upto (mkChunk2 lb1 (Text2 (p1 ++ r)) :: cs1) leaks2 inner2 lb p rest ->
    dollar_block Outline cs (leaks0 ++ leaks1 ++ leaks2) lb (inner1 ++ inner2 ++ text_chunk2 lb p) rest.

(** the same chunk, numbered relative to line [lb], which becomes line 1 *)
Definition moved (lb : N) (c c' : chunk2) : Prop :=
  match c, c' with mkChunk2 l v, mkChunk2 l' v' => v' = v /\ 1 <= lb /\ l' + lb = l + 1 end.

(** [reads bl cs r]: the list [cs] is read as [r]; [bl] is the line of the last bracket block that
    was opened before [cs] in the same list, 0 if there was none (the code reports an
    unclosed dollar there). *)
Inductive reads : N -> list chunk2 -> result (list chunk3) -> Prop :=
| rd_nil bl : reads bl [] (Good [])
| rd_text bl l s cs pieces r : ~ In c_dollar s -> paragraphs l s pieces -> reads bl cs r ->
    reads bl (mkChunk2 l (Text2 s) :: cs) (on (app pieces) r)
| rd_plain bl l v cs rv r : plain v -> reads_variant v rv -> reads bl cs r ->
    reads bl (mkChunk2 l v :: cs) (andthen (fun v3 out => mkChunk3 l v3 :: out) rv r)
| rd_brackets bl t l args body kept l' args' cs rco r :
    nesting t 1 body kept 1 -> reads 0 kept rco -> reads l cs r ->
    reads bl (mkChunk2 l (Command2 (mkCommand2 [opener t] args)) :: body ++
              mkChunk2 l' (Command2 (mkCommand2 [closer t] args')) :: cs)
      (andthen (fun co out => mkChunk3 l (Maths3 (mkMaths3 Brackets t co)) :: out) rco r)
| rd_unclosed_brackets bl t l args body kept d : nesting t 1 body kept d ->
    reads bl (mkChunk2 l (Command2 (mkCommand2 [opener t] args)) :: body) (Bad (mkError l UnclosedMaths))
| rd_stray bl t l args cs :
    reads bl (mkChunk2 l (Command2 (mkCommand2 [closer t] args)) :: cs) (Bad (mkError l UnexpectedMathsEnd))
| rd_dollars bl l u s cs t leaks lb content rest pieces content' rco r :
    ~ In c_dollar u ->
    dollar_block t (mkChunk2 (l + count_newlines u) (Text2 s) :: cs) leaks lb content rest ->
    split_all (text_chunk3 l u ++ leaks) pieces ->
    Forall2 (moved lb) content content' -> reads 0 content' rco -> reads bl rest r ->
    reads bl (mkChunk2 l (Text2 (u ++ c_dollar :: s)) :: cs)
      (andthen (fun co out => pieces ++ mkChunk3 lb (Maths3 (mkMaths3 Dollars t co)) :: out) rco r)
| rd_overflow bl l u s cs t leaks lb content rest :
    ~ In c_dollar u ->
    dollar_block t (mkChunk2 (l + count_newlines u) (Text2 s) :: cs) leaks lb content rest ->
    ~ (exists content', Forall2 (moved lb) content content') ->
    reads bl (mkChunk2 l (Text2 (u ++ c_dollar :: s)) :: cs) Overflow
| rd_unclosed_dollar bl l u s cs :
    ~ In c_dollar u ->
    (forall t leaks lb content rest,
       ~ dollar_block t (mkChunk2 (l + count_newlines u) (Text2 s) :: cs) leaks lb content rest) ->
    reads bl (mkChunk2 l (Text2 (u ++ c_dollar :: s)) :: cs) (Bad (mkError bl UnclosedMaths))
with reads_variant : variant2 -> result variant3 -> Prop :=
| rv_scope cs v r : reads 0 cs r ->
    reads_variant (Scope2 (mkScope2 cs v)) (on (fun out => Scope3 (mkScope3 out (variant3_of v))) r)
| rv_command lab args r : reads_args args r ->
    reads_variant (Command2 (mkCommand2 lab args)) (on (fun args' => Command3 (mkCommand3 lab args')) r)
| rv_environment lab args content pb pe ra rc : reads_args args ra -> reads 0 content rc ->
    reads_variant (Environment2 (mkEnv2 lab args content pb pe))
      (andthen (fun args' out => Environment3 (mkEnv3 lab args' out pb pe)) ra rc)
with reads_args : list (str * scope2) -> result (list (str * scope3)) -> Prop :=
| ra_nil : reads_args [] (Good [])
| ra_cons pre cs v args r ra : reads 0 cs r -> reads_args args ra ->
    reads_args ((pre, mkScope2 cs v) :: args)
      (andthen (fun out args' => (pre, mkScope3 out (variant3_of v)) :: args') r ra).

(** The counters of the code do not overflow: fewer than 2^32 commands in every list, fewer than
    2^31 newlines in every text, and every text ends on a line below 2^32. *)
Definition is_command (c : chunk2) : bool := match c with mkChunk2 _ (Command2 _) => true | _ => false end.
Inductive in_range : list chunk2 -> Prop :=
| in_range_intro cs : N.of_nat (length (filter is_command cs)) < 4294967296 ->
    (forall l s, In (mkChunk2 l (Text2 s)) cs ->
       count_newlines s < 2147483648 /\ l + count_newlines s < 4294967296) ->
    (forall l v inner, In (mkChunk2 l v) cs -> inside v inner -> in_range inner) ->
    in_range cs.
