(** * SpecWrap: what a stage-2 document is at stage 3, in builds without overflow checks

    As SpecReads.v and SpecRead3.v, except for the content of a dollar block: there, line numbers relative to the last text of
    the block are taken modulo 2^32, so that nothing overflows.  The result [Overflow] does not occur. *)
From Verif Require Import Base Ast1 Ast2 Ast3 SpecMaths3 SpecPar3 SpecReads SpecClass3 SpecRead3.

(** the same chunk, numbered relative to line [lb], which becomes line 1; line numbers are those of 32 bits *)
Definition moved32 (lb : N) (c c' : chunk2) : Prop :=
  match c, c' with mkChunk2 l v, mkChunk2 l' v' =>
    v' = v /\ l' < 4294967296 /\ (l' + lb) mod 4294967296 = (l + 1) mod 4294967296 end.

(** [wreads bl cs r]: the list [cs] is read as [r]; [bl] is the line of the last bracket block that
    was opened before [cs] in the same list, 0 if there was none (the code reports an
    unclosed dollar there). *)
Inductive wreads : N -> list chunk2 -> result (list chunk3) -> Prop :=
| wd_nil bl : wreads bl [] (Good [])
| wd_text bl l s cs pieces r : ~ In c_dollar s -> paragraphs l s pieces -> wreads bl cs r ->
    wreads bl (mkChunk2 l (Text2 s) :: cs) (on (app pieces) r)
| wd_plain bl l v cs rv r : plain v -> wreads_variant v rv -> wreads bl cs r ->
    wreads bl (mkChunk2 l v :: cs) (andthen (fun v3 out => mkChunk3 l v3 :: out) rv r)
| wd_brackets bl t l args body kept l' args' cs rco r :
    nesting t 1 body kept 1 -> wreads 0 kept rco -> wreads l cs r ->
    wreads bl (mkChunk2 l (Command2 (mkCommand2 [opener t] args)) :: body ++
              mkChunk2 l' (Command2 (mkCommand2 [closer t] args')) :: cs)
      (andthen (fun co out => mkChunk3 l (Maths3 (mkMaths3 Brackets t co)) :: out) rco r)
| wd_unclosed_brackets bl t l args body kept d : nesting t 1 body kept d ->
    wreads bl (mkChunk2 l (Command2 (mkCommand2 [opener t] args)) :: body) (Bad (mkError l UnclosedMaths))
| wd_stray bl t l args cs :
    wreads bl (mkChunk2 l (Command2 (mkCommand2 [closer t] args)) :: cs) (Bad (mkError l UnexpectedMathsEnd))
| wd_dollars bl l u s cs t leaks lb content rest pieces content' rco r :
    ~ In c_dollar u ->
    dollar_block t (mkChunk2 (l + count_newlines u) (Text2 s) :: cs) leaks lb content rest ->
    split_all (text_chunk3 l u ++ leaks) pieces ->
    Forall2 (moved32 lb) content content' -> wreads 0 content' rco -> wreads bl rest r ->
    wreads bl (mkChunk2 l (Text2 (u ++ c_dollar :: s)) :: cs)
      (andthen (fun co out => pieces ++ mkChunk3 lb (Maths3 (mkMaths3 Dollars t co)) :: out) rco r)
| wd_unclosed_dollar bl l u s cs :
    ~ In c_dollar u ->
    (forall t leaks lb content rest,
       ~ dollar_block t (mkChunk2 (l + count_newlines u) (Text2 s) :: cs) leaks lb content rest) ->
    wreads bl (mkChunk2 l (Text2 (u ++ c_dollar :: s)) :: cs) (Bad (mkError bl UnclosedMaths))
with wreads_variant : variant2 -> result variant3 -> Prop :=
| wv_scope cs v r : wreads 0 cs r ->
    wreads_variant (Scope2 (mkScope2 cs v)) (on (fun out => Scope3 (mkScope3 out (variant3_of v))) r)
| wv_command lab args r : wreads_args args r ->
    wreads_variant (Command2 (mkCommand2 lab args)) (on (fun args' => Command3 (mkCommand3 lab args')) r)
| wv_environment lab args content pb pe ra rc : wreads_args args ra -> wreads 0 content rc ->
    wreads_variant (Environment2 (mkEnv2 lab args content pb pe))
      (andthen (fun args' out => Environment3 (mkEnv3 lab args' out pb pe)) ra rc)
with wreads_args : list (str * scope2) -> result (list (str * scope3)) -> Prop :=
| wa_nil : wreads_args [] (Good [])
| wa_cons pre cs v args r ra : wreads 0 cs r -> wreads_args args ra ->
    wreads_args ((pre, mkScope2 cs v) :: args)
      (andthen (fun out args' => (pre, mkScope3 out (variant3_of v)) :: args') r ra).

(** the [document] environments are read in order; the last one counts *)
Inductive wreads_bodies : list environment2 -> result (option variant3) -> Prop :=
| wb_nil : wreads_bodies [] (Good None)
| wb_cons e envs re r : wreads_variant (Environment2 e) re -> wreads_bodies envs r ->
    wreads_bodies (e :: envs) (andthen (fun v last => match last with None => Some v | Some x => Some x end) re r).

(** A wrong [\documentclass] counts before a failure in a [document] environment, that before one in
    the preamble, and that before one in the trailing part. *)
Inductive wreads_document (d : list chunk2) : result document3 -> Prop :=
| wc_class pr envs trail e :
    parts d pr envs trail -> declared_class (class_commands pr) = inl e -> wreads_document d (Bad e)
| wc_parts pr envs trail cls pss opts rb rp rt :
    parts d pr envs trail -> declared_class (class_commands pr) = inr cls ->
    Forall2 pieces (all_options (class_commands pr)) pss -> Forall2 read_option (concat pss) opts ->
    wreads_bodies envs rb -> wreads 0 pr rp -> wreads 0 trail rt ->
    wreads_document d
      (andthen (fun body f => f body) rb (andthen (fun pre trail body => document_of cls opts body pre trail) rp rt)).

(** line numbers are [u32] *)
Inductive u32_lines : list chunk2 -> Prop :=
| u32_intro cs : (forall l v, In (mkChunk2 l v) cs -> l < 4294967296) ->
    (forall l v inner, In (mkChunk2 l v) cs -> inside v inner -> u32_lines inner) -> u32_lines cs.
