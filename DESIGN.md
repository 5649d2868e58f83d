# Design: a Rocq (Coq 8.16.1) model of latex-ast and its properties

The code is a three stage LaTeX parser (stage 4 is `todo!()` everywhere and is not
modelled).  Everything is pure apart from `&mut` vectors, so the model is a set of
computable Gallina functions, one per Rust function, each with a comment that cites the
file and lines it models.

## Layout (`rocq/theories`)

| files | what |
|---|---|
| `Base` | characters, strings, machine integers, outcomes (incl. panic) |
| `Ast1`, `Parse1`, `Ast2`, `Ast3`, `Api`, `Message` | **the model**: types, Display, Validate, Lines, push, constructors, equality, `from_str`, `try_from`, `from`, `into_chunks`, paragraph and maths recognition, class and options |
| `ModelTests1-3` | the crate's own unit tests replayed on the model (`vm_compute`), a check of the model, not a proof |
| `Spec*` | **the specifications**: inductive/declarative vocabulary that mentions the tree types (and Display) but none of the functions that are being specified |
| `Properties1-41` | **the theorems**, with one-line proofs from the lemmas, `Print Assumptions`, and examples showing that concrete non-trivial cases meet the hypotheses |
| everything else | lemmas |

## Conventions of the model

* `char` = a code point in `N`; `String`/`&str` = `list N`.  UTF-8 matters in one place
  only (`label.len()`), which is modelled with the UTF-8 byte length.
  `char::is_whitespace` is the full Unicode White_Space set.
* `u32` = `N` with explicit checked operations.  Each arithmetic operation takes a
  build profile: `Debug` (overflow checks on) panics, `Release` wraps modulo 2^32.
  `usize` counters are unbounded (a string of 2^64 chars does not exist); `as u32` is `mod 2^32`.
  `consec_newlines` of `paragraph.rs` is an `i32` (integer default) and is modelled as such in `Z`.
* result of an operation: `Ok v | Err e | Panic | OutOfFuel`.  `unwrap`, `unreachable!` and
  overflow are `Panic`.  Non structural recursion (`from_str` on argument contents,
  `try_from` on environment buffers, `MathsBlock::from_chunks`) uses fuel;
  `OutOfFuel` is excluded by theorem for the fuel the public entry points use (C01, C40).
* `&mut self` becomes a returned new value; `Stateful` models the pushes once more with explicit state (C77).  `#[derive(PartialEq)]` is a structural boolean
  equality proved to reflect `=` (C48).

## Trusted base

* Coq 8.16.1's kernel (with `vm_compute` in examples and model tests).
* Axioms: **none**.  `Print Assumptions` says "Closed under the global context" for every
  theorem of the manifest.  The gate's list of library axioms (`Coq.ssr.ssrunder.Under_rel.*`) are
  parameters of a standard-library module that is merely loaded; no theorem uses them.
* That the model is the code: the translation was done by hand, function by function.  It is
  checked by `ModelTests1-3` (all unit tests of the crate) and by two complete line-by-line readings of
  the model against the source, and nothing else.
* The meaning of Rust: evaluation order, `Vec`, `String`, iterator semantics, `char` methods.
  Memory and stack are unbounded (deep nesting overflows the real stack).
* The statements: `Properties*.v` with the `Spec*.v` files they mention.

### Modelled

`src/ast1/*`, `src/ast2/*`, `src/ast3/*`, `src/traits/*`, `src/error.rs` and
`src/internal_error.rs`: parsing, conversions in both directions,
Display, Validate, Lines, all pushes (checked, unchecked, chunk, section), constructors, decompose, equality,
scope-variant functions.

### Not modelled

* `src/ast4`: every function is `todo!()`.
* `Debug` output of the trees (only behind a feature).  `Display` of `Error`/`InternalError`, which prints their
  `Debug` form, is modelled (`Message`) for an arbitrary table of printable characters.
* Trivial field accessors and `Clone`.  `line_no_mut`/`variant_mut` are modelled as assignment through the reference (`Api`).
* Time and memory, except the step counts of C39, C66 and C67 (C39: main-loop iterations of stage-1 parsing,
  not the cost of `Vec`/`String` operations).

### Bounds in statements

None of the theorems bounds sizes for the sake of the proof; the bounds below are where the
machine integers of the code really overflow (or nearly so).

* `source_fits s`: `length s + 1 < 2^32`.  Line numbers are `u32`.
* pushes and `lines()`: the newlines (plus 2) fit `u32`.
* stage 2 to 1 (C20): `2*(length+1) < 2^32`; the code adds argument newlines twice.
* paragraphs and maths: fewer than `2^31` newlines (an `i32` counter); `in_range` of `SpecReads.v`.
* C52/C53: resulting line numbers fit `u32`, environments/maths blocks numbered from 1.

## Method per property

`_refuted` theorems are concrete witnesses that the documented claim is false of the code;
`_partial` ones are the exact truth (usually an iff) in its place.

| property | model part | proof method |
|---|---|---|
| C01 C05 C07 | `from_str` state machine | token abstraction (`Pure1`, `Refine1`) + invariants of the character loop |
| C02 C03 C04 C06 C08 C10 C43 | `from_str`, `Display` | the machine is proved equivalent to a declarative grammar over tokens (C41, C46); properties by induction over derivations |
| C09 | `from_str` after `Display` | induction over canonical documents (`Canon1`); canonical is also necessary |
| C11 C12 C13 C14 C15 C49 C50 C51 | `Lines`, `push*`, `new`, `Validate` | structural induction, invariant over push histories, declarative first-fault relation (`SpecFault`) |
| C16 C17 C18 C19 C22 C23 C24 C42 | `TryFrom<ast1>` | loop invariant; equivalence with the declarative conversion `converts`/`rejects` (`Spec2`) |
| C20 C21 C52 | `into_chunks`, `From<ast2>` | structural induction + label re-parse lemma; `restored`, `unfolds` |
| C25 C26 C27 C28 | `Paragraph::from_chunks` | invariant of the character loop; equivalence with `paragraphs` |
| C29 C30 C44 C45 C54 | `MathsBlock::from_chunks` | fuelled induction; atoms and `tidy` for Display; `reads` for the exact result |
| C31 C40 | everything | totality by induction on size; exact panicking inputs from C54/C55 |
| C32 C33 C34 C36 C55 | `TryFrom<ast2>`, Display, Lines of `ast3::Document` | fold decomposition by section, `read_option`, `reads_document` |
| C35 C53 | `From<ast3>` | structural induction, `lowers` |
| C37 | stage-3 pushes | exact condition for one push, invariant over histories |
| C38 | all | a simulation relation between runs of two profiles (`Mono`) |
| C39 | `from_str` | instrumented copy proved to compute the same result, quadratic bound and a quadratic family |
| C46 | `from_str` errors | declarative `fails` relation, decided for every token list |
| C47 C48 | variants, equality | case analysis, mutual induction |
| C56 | the three `from_str` | composition of C41, C46, C42, C24, C55 |
| C57 C59 | `from_str` of Display at stages 2 and 3 | from C09, C42, C58, C32 |
| C58 | `TryFrom<ast1>` | injectivity by rule induction over `converts` (`Again2`) |
| C60 C61 | `from_str` of stages 1 and 2 on concatenated sources | rule inductions over `parses`, `fails`, `converts`, `rejects` (`Concat1`, `Concat2`), specification `SpecConcat` |
| C62 | `from_str` and `try_from` of all stages on a renamed source | simulation (`Rename1-3`), specification `SpecRename` |
| C63 | `Display` of `Error` and `InternalError` (`Message`) | the written form is a prefix code: digits end at a non-digit, escapes decode uniquely |
| C64 C65 | `from_str` of stage 1 on nested sources; `validate` and `Display` | rule induction over `fails` (`Nested1`), specification `SpecNested` |
| C66 | `ast2::Document::try_from` with a counter | erasure; potential method for the bound, loop invariant for the exact count (`Cost2`) |
| C67 | `ast3::Document::try_from` with a counter | erasure (`Cost3`); potential method over the set of delimiter kinds that can still occur (`Cost3b`) |
| C68 | parsing or converting, then `validate` | what texts and labels of the result are made of, by induction on the relations of C23, C55 and C70 (`Keep2`, `Keep3`, `KeepW`) |
| C69 | `push`, `push_chunk` repeated; `validate` | induction on the sequence with the invariant that lines add up; `join` commutes with pushing (`Rebuild`) |
| C70 | stage-3 conversion, Release profile | as C54/C55, with the invariant that texts in the content of a dollar block stand on its own line, so only copied numbers wrap (`ReadsW`) |
| C71 | stage-3 conversion | induction on the reading of C70: a block's content cannot start a block of its kind (`Chain`) |
| C72 | stage-3 conversion | both readings (C69 debug, C70 release) are equivariant under a shift of lines (`Below3`); the fold over the document as a simulation (`Below3d`); sources through C60 |
| C73 | recursion depth | the run with n+k units of fuel against the run with n, step by step: same result or out of fuel, and success iff the depth of the result is below n (`Depth0`, `Depth1`, `Depth2`, `Depth3`); bounds for rejected input by counting brackets; C71 for the maths blocks (`Depth3b`) |
| C74 | size of documents | texts are not empty, so a document has at most as many nodes as its Display has characters (`Size`); Display is not longer than the source (C03, C35); environments: accounting for what each step puts on the stack; no empty texts through every step of the maths pass (`Size3`) |
| C75 | line numbers influence nothing but line numbers | a relational semantics: every function run on two inputs that agree without line numbers is in simulation (`Unnum`, `Unnum3`), a Debug panic excused; on the way down the results agree (`Unnum1`, `Unnum4`) |
| C76 | down and up again | the exact way down (C52) composed with the conversion in closed form (`conv`): lines lowered by an amount that is carried inwards, modulo 2^32 (`DownUp`); matching of environments is unique, so with overflow checks every body must have room; documents from sources meet the hypotheses (`DownUp2`) |
| C77 | the pushes as methods | state-passing model of each method body (`Stateful`); each is proved to be its functional form with the old state kept on failure; histories by induction |
| C78 | down and up again from stage 3 | the way down flattens chunks (`flat`), the grammar of readings is followed on the flattened list (`up`), line numbers ignored by C75; induction over chunks; converted documents are shaped by induction over the readings; a length argument gives the exact condition (`Again3`--`Again3f`) |
| C79 | up and down again from stage 2 | induction over the readings (`tidy_restored`): on tidy lists each reading, flattened, shows the same tokens; the converse from the exactness of the printed text (C29); documents by parts, with line numbers and pushes of texts invisible (`Seen`, `Seen2`) |
| C80 | in-place edits (`set_variantN`, `set_line_no2` of Api) | induction over the place of the edit: the printed text is a context around it, validation of everything else is unchanged (`iterM_mid`), then the line-number loop from the edited chunk on |
| C81 | characters counted in the printed text before and after the conversion to stage 3 | induction on the reading relation `wreads` (C70), for each character; parsing gives bracket commands no arguments by induction on `parses` and `converts` |
| C82 | the errors of `MathsBlock::from_chunks` and `TryFrom<ast2::Document>` | induction on the reading relations `reads` and `wreads` (C54, C70); the lines of parsed documents are bounded by their newlines |
| C83 | `TryFrom<ast1::Document>` (stage 2), `From<ast2::Document>` (stage 1) | simulation of the conversion loop with other chunks already pushed (`framed`); errors via the exact characterisation of C42; `join1` laws |
| C84 | `TryFrom<ast2::Document>` (stage 3) | frame property of the loop over sections; compositionality of maths recognition and paragraph splitting (C45) |
| C85 | `FromStr` of stages 1 and 2, `TryFrom<ast1::Document>` | every state of the parser determines the beginning of all trees reachable from it (`Fut`, backward invariant); at stage 2 compositionality (C83) and the exact conversion relation |
| C86 | `FromStr` of stages 1-3 | an error at the last chunk stays when the chunk goes on; the loops over chunks, characters, arguments and sections cut at the seam |
| C87 | `FromStr` of stage 3 | C85 at stage 2; the chunk loop, the character loop and paragraph splitting only append to what they have written, and what is pending comes out with more behind it; in range the second splitting keeps finished pieces |
| C88 | `MathsBlock::from_chunks`, `Paragraph::from_chunks`, `TryFrom` of stage 3 | a predicate on stage-3 trees kept by every step of the chunk loop, the character loop and paragraph splitting, for the recursion at any fuel; then through the document loop and down to any nested list |
| C89 | stages 1, 2 and 3 on `b ++ s ++ t` | the stage-1 parse of the parts put together (an escape, then a control word, cannot change what comes before it), then `converts`' constructor for environments with the lines rebased; at stage 3 the environment runs the same two passes over its content as the document does |

## Findings

Stage 1
* comments are dropped from Display; top-level `(..)`/`[..]` are stored as Curly scopes; brackets of
  the same kind nested in an argument are dropped; an escaped bracket or blank right after a control word
  loses its backslash (and opens an argument); a lone trailing backslash is dropped; a backslash inside a
  comment escapes the newline that ends it (C02).
* chunk lines are off by one for the command `\` + newline and for a trailing blank text (C06).
* lines of errors inside arguments ignore the newlines of earlier arguments (C46).

Stage 2
* an environment is numbered by the line on which the arguments of `\begin` end (C23); coming back
  to stage 1 the lines are shifted (C20); error lines inside scopes and arguments are off (C24).
* converting a document back to stage 1 and up again: a debug build panics for `\begin{q}[\n]x\end{q}`, i.e. for most
  environments with a newline among the arguments of `\begin`; a release build wraps line numbers (C76).

Stage 3
* `$a \alpha b$`: the texts before the last one leak out of the block; inner brackets of `\( \( \) \)` and the arguments
  of `\(` are lost; `$$a$b$` is printed as `$$ab$$` (C29, C54, C81).
* debug builds panic by `u32` underflow, e.g. on `$\alpha x\n\n\beta y$` (C31).
* an unclosed dollar is reported on line 0 or on that of the last bracket block (C44, C54).
* errors inside scopes, arguments and environments give a line relative to these; a release build may report line 4294967295
  for an unclosed bracket between dollars (C82).
* breaks of three newlines or more carry the wrong line (C28).
* Display always prints a document environment, uses the blanks of `\begin` for `\end`; of two document environments only
  the last survives (C32, C55).
* options lose their first character and the recorded value is the key (C34).
* `lines()` ignores arguments and blanks of the document environment (C36).
* converting back panics for one-line documents and numbers the environment one too low (C35, C53).
* what follows the document environment is numbered from the start of the file but validated from line 1, so an ordinary file
  ending in a newline is parsed to a document that `validate` rejects (C68).
* pushing "a\n" then "\nb" makes an invalid document out of a valid one (C37).

## Testing the theorems

`seeded/LOG.jsonl`: each line is an edit of the model, the claim it breaks and the theorems whose statements are
then false.  Each listed theorem was not merely seen to stop compiling: with the edited model, its *negation* was proved
(`Goal <statement> -> False`), so the failure is of the statement and not of the proof script.
