import json
P=[]
def p(title,statement,quantifier,why,anchors):
    P.append(dict(id="C%02d"%(len(P)+1),title=title,statement=statement,quantifier=quantifier,why_tests_cant=why,anchors=anchors))
A1="src/ast1/document.rs"; A2="src/ast2/document.rs"; A3="src/ast3/document.rs"
p("Stage-1 parsing always returns","ast1::Document::from_str terminates and returns Ok or Err; it never panics (no unwrap, unreachable!, or u32 overflow/underflow), with overflow checks on or off.",
  "every string of fewer than 2^32-1 characters, both build profiles","Totality over all strings, all nesting depths; a test suite only samples strings.",[A1+": FromStr for Document, Buffer::{push,push_str,push_scope,no_scope}, flush"])
p("Stage-1 Display reconstructs the source","If from_str(s) succeeds, Display of the document is s, character for character (documented as 'one-to-one copy of the original document with no loss of information').",
  "every accepted string","Quantifies over all documents; the repo's tests check one document.",[A1+": FromStr, Display","src/ast1/mod.rs"])
p("Stage-1 content conservation","If from_str(s) succeeds then, once comments are deleted from s and brackets and backslashes are ignored on both sides, Display of the document is s: no other character is ever lost, duplicated, invented or reordered.",
  "every accepted string","Loss of a single character in a rare bracket/escape combination is invisible to sampled tests.",[A1+": FromStr, Display"])
p("Comments do not influence stage-1 parsing","Deleting a comment (from an unescaped % up to but excluding the newline, body without backslash) from the source leaves the from_str result, Ok or Err with the same line, unchanged.",
  "every string, every set of comments in it","Comment position interacts with every parser state; all of them must be covered.",[A1+": FromStr (comment, escaped flags)"])
p("Parsed line count is the source line count","If ast1::Document::from_str(s) succeeds, lines() of the document is the number of newline characters of s plus one.",
  "every accepted string under 2^32-1 characters","All inputs, including comments, escapes and nested arguments.",[A1+": FromStr, Lines","src/ast1/command.rs: Lines","src/ast1/scope.rs: Lines"])
p("Stage-1 chunk line numbers","In a parsed document every chunk's line_no is one plus the number of newlines before the chunk's first character (relative to the enclosing scope).",
  "every accepted string, every chunk at every depth","Needs every combination of whitespace, escapes and chunk kinds.",[A1+": FromStr (line_no, buffer_line_no)","src/ast1/chunk.rs"])
p("Stage-1 error reports are in range","If from_str(s) fails, the reported line is between 1 and the number of lines of s and the error is one of UnexpectedClosing, UnclosedArgument, UnclosedScope.",
  "every rejected string under 2^32-1 characters","Error offsets are summed over an unbounded recursion.",[A1+": FromStr flush! map_err","src/error.rs"])
p("Parsed documents are in normal form","A parsed stage-1 document contains no empty Text chunk and no two adjacent Text chunks, at any depth; a Scope chunk never directly follows a command that could have taken it as argument.",
  "every accepted string, every depth","Must hold for every chunk sequence the parser can emit.",[A1+": FromStr"])
p("Parsing inverts Display on canonical documents","For every canonical stage-1 document d (clean texts and labels, consistent line numbers, Curly scopes, whitespace-only argument separators, no ambiguous adjacency), from_str(d.to_string()) = Ok(d).",
  "every canonical document, any size and nesting depth","Round trip over an infinite family of trees.",[A1+": FromStr, Display","src/ast1/command.rs: Display","src/ast1/scope.rs: Display"])
p("What can make a parsed document invalid","If from_str(s) = Ok(d), every label of d passes validation and the only characters that can make d.validate() fail with UnsanitisedCharInString are closing brackets ')', ']', '}' in Text.",
  "every accepted string","Quantifies over all chunks of all parse results.",[A1+": Validate","src/ast1/chunkvariant.rs: Validate","src/ast1/command.rs: Validate"])
p("lines() counts the newlines of Display","For every stage 1, 2 or 3 chunk, scope, command, environment or maths block and for stage 1 and 2 documents, lines() is one plus the number of newlines in to_string() (when that fits u32).",
  "every value constructible through the public API","Recursive over unbounded trees.",["src/traits/lines.rs: Lines","src/ast1/*.rs, src/ast2/*.rs, src/ast3/*.rs: Lines, Display"])
p("push appends to Display","Pushing a variant or a chunk that is accepted changes to_string() to exactly old text followed by the pushed text; adjacent texts are merged into one chunk.",
  "every document, every variant, every sequence of pushes (stage 1, 2 and each stage-3 section)","Histories of pushes of arbitrary length.",[A1+": push*",A2+": push*",A3+": push_*"])
p("push keeps documents valid","Starting from a document that passes validate(), any sequence of push/push_chunk calls leaves a document that passes validate().",
  "every valid document and every finite sequence of push and push_chunk calls (stage 1 and 2)","Invariant over unbounded histories.",[A1+": push, push_chunk, Validate",A2+": push, push_chunk, Validate"])
p("push_chunk decision rule","push_chunk succeeds iff the chunk validates and its line number is the line on which the document currently ends; otherwise the document is unchanged and the error carries exactly the expected and given lines.",
  "every document (stage 1, 2, stage-3 sections), every chunk","All documents and chunks.",[A1+": push_chunk",A2+": push_chunk",A3+": push_chunk_vec"])
p("validate decides well-formedness","validate() returns Ok iff the document meets the declarative rules: line numbers accumulate from 1, texts and long labels contain none of \\ % ( ) [ ] { }, stages 2-3 have no begin/end command, paragraph breaks are whitespace with two newlines, texts contain no paragraph break.",
  "every document value of stage 1, 2 and 3","Exact equivalence over unbounded trees.",["src/ast1/*.rs, src/ast2/*.rs, src/ast3/*.rs: Validate"])
p("Stage 2 preserves Display","If ast2::Document::try_from(d1) succeeds with d2 then d2.to_string() = d1.to_string().",
  "every stage-1 document, including ones built with new_unchecked","All documents, all environment nestings.",[A2+": TryFrom<ast1::Document>","src/ast2/environment.rs: Display"])
p("Stage 2 accepts exactly well-nested environments","try_from(d1) succeeds iff at every depth the \\begin/\\end commands of d1 are properly nested with equal labels, each has a leading curly argument and each \\end has exactly one argument.",
  "every parsed stage-1 document","Dyck-language membership at every depth.",[A2+": TryFrom<ast1::Document>","src/ast2/scope.rs: TryFrom","src/ast2/command.rs: TryFrom"])
p("No begin/end command survives stage 2","A document produced by try_from contains no Command labelled begin or end at any depth, so stage-2 validation never fails with BeginCommand/EndCommand on it.",
  "every successful conversion","All trees, all depths (arguments, scopes, environments).",[A2+": TryFrom<ast1::Document>","src/ast2/command.rs: Validate"])
p("Stage-2 conversion never panics on parsed input","ast2::Document::from_str returns Ok or Err for every string; line arithmetic (line_no - buffer_start + 1) never underflows.",
  "every string under 2^32-1 characters, both profiles","Depends on monotonicity of all line numbers of all parses.",[A2+": FromStr, TryFrom<ast1::Document>"])
p("Stage 2 back to stage 1 is the identity","ast1::Document::from(ast2::Document::try_from(d1)) = d1 ('one-to-one copy of the stage 1 AST').",
  "every parsed stage-1 document that converts","Structural equality with line numbers over all trees.",["src/ast2/chunk.rs: ast1::IntoChunks",A1+": From<ast2::Document>",A2+": TryFrom<ast1::Document>"])
p("Stage 2 back to stage 1 preserves Display","ast1::Document::from(d2).to_string() = d2.to_string() whenever environment labels are plain text, and for every d2 obtained by parsing.",
  "every stage-2 document with plain labels","All trees; includes label re-parsing.",["src/ast2/chunk.rs: ast1::IntoChunks","src/ast2/scope.rs: to_ast1_scope"])
p("Stage 2 preserves line counts","ast2::Document::from_str(s) = Ok(d2) implies d2.lines() = newlines(s) + 1.",
  "every accepted string under 2^32-1 characters","All inputs.",[A2+": Lines, FromStr"])
p("Environment line numbers","The Environment chunk produced by stage 2 carries the line of its \\begin command.",
  "every environment of every converted document","All documents, including multi-line arguments.",[A2+": TryFrom (buffer_start)"])
p("Stage-2 error line numbers","The line reported by a stage-2 error is the line of the offending command.",
  "every rejected document","Errors are re-based through an unbounded number of levels.",[A2+": map_e!, map_env_e!, Error::new"])
p("Paragraph splitting preserves text","Paragraph::from_chunks never changes the concatenated Display of the chunks.",
  "every list of stage-3 chunks","All strings of whitespace/newline/other characters.",["src/ast3/paragraph.rs: from_chunks"])
p("Paragraph splitting is exact","After Paragraph::from_chunks every Text at that level is free of paragraph breaks (two newlines separated by whitespace only) and non-empty, and every break that comes from a Text is whitespace only with at least two newlines.",
  "every list of stage-3 chunks","All strings.",["src/ast3/paragraph.rs: from_chunks","src/ast3/chunkvariant.rs: Validate"])
p("Paragraph splitting is idempotent","Paragraph::from_chunks(Paragraph::from_chunks(x)) = Paragraph::from_chunks(x), line numbers included (stage 3 applies it twice).",
  "every list of stage-3 chunks","All strings.",["src/ast3/paragraph.rs: from_chunks","src/ast3/mathsblock.rs: from_chunks"])
p("Paragraph line numbers","Chunks produced by paragraph splitting carry the line of their first character.",
  "every text chunk","All newline/whitespace patterns.",["src/ast3/paragraph.rs: from_chunks (buffer_line, text_buffer_line)"])
p("Maths recognition preserves Display","MathsBlock::from_chunks never changes the concatenated Display.",
  "every list of stage-2 chunks that converts","All interleavings of dollars, brackets, commands and texts.",["src/ast3/mathsblock.rs: from_chunks, Display"])
p("Bracket maths is recognised","A sequence \\( body \\) (resp. \\[ body \\]) in text mode, with no nested bracket-maths command of the same kind in the body, becomes exactly one Inline (resp. Outline) Brackets block whose content is the conversion of body; an unmatched \\) or \\] outside maths is UnexpectedMathsEnd at its line and an unclosed one is UnclosedMaths at its opening line.",
  "every list of stage-2 chunks","All bodies, prefixes, suffixes.",["src/ast3/mathsblock.rs: from_chunks"])
p("Stage-3 parsing never panics","ast3::Document::from_str returns Ok or Err for every string.",
  "every string under 2^32-1 characters","All inputs.",[A3+": FromStr, TryFrom<ast2::Document>","src/ast3/mathsblock.rs: from_chunks"])
p("Stage-3 Display reconstructs the source","ast3::Document::from_str(s).to_string() = s ('one-to-one copy').",
  "every accepted string","All inputs.",[A3+": Display, TryFrom<ast2::Document>"])
p("Document class extraction","After conversion documentclass is the text of the single curly argument of the preamble's \\documentclass; a second class is DoubleDocumentClass at its line, a second curly argument is TooManyArgsDocumentClass, and commands after the document environment are ignored.",
  "every stage-2 document","All documents.",[A3+": TryFrom<ast2::Document>"])
p("Document options extraction","documentoptions lists, for every comma-separated option, its surrounding whitespace, key and optional value so that the option text can be rebuilt.",
  "every \\documentclass[...] argument","All option strings.",[A3+": TryFrom<ast2::Document> (option parser)"])
p("Stage 3 back to stage 2","ast2::Document::from(d3) does not panic and preserves Display.",
  "every stage-3 document obtained by parsing","All documents.",[A2+": From<ast3::Document>","src/ast3/mathsblock.rs: into_chunks","src/ast3/chunk.rs: into_chunks"])
p("Stage-3 document line count","ast3::Document::lines() is one plus the number of newlines of its Display.",
  "every stage-3 document","All documents.",[A3+": Lines, Display"])
p("Stage-3 pushes keep documents valid","Pushing a valid variant to a section of a valid stage-3 document leaves it valid.",
  "every valid stage-3 document and every push sequence","Histories.",[A3+": push_*"])
p("Build profiles agree","Whenever an operation does not panic with overflow checks on, it returns the same result with overflow checks off.",
  "every operation modelled, every input","All inputs and both profiles.",["all u32 arithmetic"])
p("Quadratic parsing","The total number of main-loop character steps of stage-1 parsing, over all recursive calls, is at most n^2 for a source of n characters (documented worst case O(n^2)).",
  "every string","Worst case over all inputs.",[A1+": FromStr","src/ast1/mod.rs"])
p("Stage-2 and stage-3 conversions terminate","try_from (ast1 to ast2), MathsBlock::from_chunks and try_from (ast2 to ast3) terminate on every input; recursion is on strictly smaller data.",
  "every stage-1 / stage-2 document, including hand-built ones","Termination is universally quantified.",[A2+": TryFrom","src/ast3/mathsblock.rs: from_chunks",A3+": TryFrom"])
p("Stage-1 accepts exactly a declared grammar","from_str(s) = Ok(d) iff the token sequence of s (escapes resolved, comments removed) derives d, with its line numbers, in a context-free-style declarative grammar of texts, control symbols, control words with blank-separated arguments and scopes; in particular the grammar is unambiguous.",
  "every string and every document","All inputs, both directions.",[A1+": FromStr"])
p("Stage-2 conversion is exactly the declared one","For a stage-1 document obtained by parsing, the stage-2 form is determined by the declarative conversion: texts, scopes and commands keep their place and text, and every \\begin..matching \\end of equal label becomes one environment with the same label, arguments and converted content; conversion succeeds with d2 iff d2 is that declarative result.",
  "every stage-1 document obtained by parsing","All documents, both directions.",[A2+": TryFrom<ast1::Document>"])
p("Curly arguments are self-contained","In a document obtained by parsing, the chunks of every argument written in curly brackets (environment labels among them) are what parsing the argument's own text returns, line numbers included; this is what lets stage 2 rebuild a label from its text.",
  "every accepted string, every command at every depth","All inputs, all depths.",[A1+": FromStr",A2+": TryFrom<ast1::Document>","src/ast2/chunk.rs: into_chunks"])
p("Dollar maths is recognised","In text mode, $m$ (m non-empty) or $$m$$ inside one text, where m has no dollar, becomes exactly one Inline resp. Outline Dollars block at the line where it begins, whose content is the conversion of m on its own; the text before is split into paragraphs, the rest is converted as if it began a new text; text without dollars is only split into paragraphs; a dollar without a partner is UnclosedMaths at its line.",
  "every text, every list of chunks around it","All texts, all contexts.",["src/ast3/mathsblock.rs: from_chunks"])
p("Maths recognition is compositional","If two lists of stage-2 chunks convert, their concatenation converts to the concatenation of the results; an error in the second list is reported with the same type. The same holds for paragraph splitting.",
  "every two lists of stage-2 chunks","All lists of all lengths.",["src/ast3/mathsblock.rs: from_chunks","src/ast3/paragraph.rs: from_chunks"])
p("Stage-1 errors are exactly the declared ones","from_str(s) = Err(e) iff the token sequence of s is rejected with e by a declarative specification: an unclosed scope is reported on the line of its bracket, an unclosed argument on the line of its command, a closing bracket directly after a command or its arguments on its own line, an error inside a scope or an argument on its inner line shifted by the line of the enclosing chunk; the first fault in reading order wins, except that a command's own brackets are checked before the contents of its arguments. Every source is accepted or rejected with exactly one error.",
  "every string and every error","All inputs, both directions.",[A1+": FromStr","src/error.rs"])
p("Brackets of a scope variant","open/close give the documented brackets at every stage; a character is an opening (closing) bracket iff it opens (closes) a variant, from_opening/from_closing find exactly that variant and panic on every other character; no character is both; converting a variant between stages keeps its brackets and can be undone.",
  "every character, every variant, every stage","All characters.",["src/ast1/scopevariant.rs","src/ast2/scopevariant.rs","src/ast3/scopevariant.rs"])
p("Equality is structural","== between two chunks, commands, scopes, environments, maths blocks or documents of one stage holds exactly when they are the same value, line numbers and blanks between arguments included.",
  "every two values of every public type of stages 1 to 3","All pairs of trees of any depth.",["src/ast1/chunk.rs: derive(PartialEq)","src/ast2/chunk.rs: derive(PartialEq)","src/ast3/document.rs: derive(PartialEq)"])
p("Checking constructors","new returns exactly the value made of its arguments, each in its own field, when that value is well formed; otherwise it returns the error of the first fault.",
  "all arguments of every constructor of stages 1 to 3","All trees.",[A1+": new",A2+": new",A3+": new, new_unchecked, decompose","src/ast2/environment.rs: new","src/ast3/mathsblock.rs: new"])
p("Validation reports the first fault","validate returns an error e exactly when e describes the first fault in depth-first order: a chunk's line number before its content, a label before the arguments, arguments before contents, the first special character of a text; sections in the order preamble, body, trailing.",
  "every document of stages 1 to 3 with fewer than 2^32-1 newlines, hand-built ones included","All trees, both directions.",[A1+": Validate",A2+": Validate",A3+": Validate","src/internal_error.rs"])
p("Unchecked pushes","push_unchecked and push_chunk_unchecked accept everything and do what the checked pushes do on success: a text is joined to a last text, anything else is appended, push_unchecked numbers it with the line on which the document ends; in a stage-3 document only the chosen section changes.",
  "every document, valid or not, every chunk","All documents and chunks.",[A1+": push_unchecked, push_chunk_unchecked",A2+": push_unchecked, push_chunk_unchecked",A3+": push_*_unchecked"])
p("Exactly what comes back at stage 1","into_chunks of a stage-2 chunk, push_into_unchecked and the conversion of a stage-2 document give exactly: texts, scopes and commands in place, brackets and blanks kept; an environment on line l becomes \\begin with the label and the arguments on line l, its contents counted from l, and \\end with the same label as many lines below l as there are newlines printed between the two; the chunks are added one after the other, texts joined to a last text.",
  "every stage-2 chunk and document, hand-built ones included, whose environments are on line 1 or later with labels that parse and whose resulting line numbers fit u32; both profiles","All trees of any depth, every line number.",["src/ast2/chunk.rs: into_chunks",A1+": From<ast2::Document>, push_into_unchecked","src/ast1/command.rs: From<ast2::Command>","src/ast1/scope.rs"])
p("Exactly what comes back at stage 2","into_chunks of a stage-3 chunk and the conversion of a stage-3 document give exactly: paragraph breaks become texts; a bracketed maths block its two commands around its contents, on the lines where it begins and ends; a dollar block its contents with the dollars joined to the first and the last text, or as texts of their own; the document environment is on the line numbered by the newlines of the preamble, its contents moved by the newlines of its arguments, the trailing chunks follow it.",
  "every stage-3 chunk and document, hand-built ones included, whose maths blocks are on line 1 or later and whose resulting line numbers fit u32, with a newline up to the end of the document environment; both profiles","All trees of any depth, every line number.",["src/ast3/chunk.rs: into_chunks","src/ast3/mathsblock.rs: into_chunks",A2+": From<ast3::Document>"])
p("Maths recognition is exactly the declared reading","For a list of stage-2 chunks, MathsBlock recognition returns out (resp. the error e, resp. an arithmetic overflow in a build with overflow checks) iff the list is declared to be read so: texts without a dollar are split into paragraphs; a bracket command takes everything up to its partner by depth, dropping the inner brackets of its kind; a dollar takes everything up to the next dollar that closes it, the texts before the last one falling out in front of the block and the rest renumbered from the line of the last text; other chunks are read inside; the first failure counts, with its line. Every list has exactly one reading.",
  "every list of stage-2 chunks with fewer than 2^32 commands, texts of fewer than 2^31 newlines ending below line 2^32, hand-built ones included; every parsed document is in that range","All trees of any depth, both directions.",["src/ast3/mathsblock.rs: from_chunks","src/ast3/paragraph.rs: from_chunks","src/ast3/scope.rs","src/ast3/command.rs","src/ast3/environment.rs"])
p("Stage-3 conversion is exactly the declared one","Converting a stage-2 document returns d3 (resp. the error e, resp. an arithmetic overflow with overflow checks) iff it is declared so: everything before the first document environment is the preamble, from whose \\documentclass commands class and options are taken; the arguments, contents and blanks of the last document environment are the body; everything else after the first one is the trailing part; each part is read as a list of chunks; a wrong \\documentclass is reported before a failure in a document environment, that before one in the preamble, that before one in the trailing part. Every document has exactly one reading.",
  "every stage-2 document in the range of C54, hand-built ones included","All documents, both directions.",[A3+": TryFrom<ast2::Document>","src/ast3/mathsblock.rs: from_chunks"])
p("The whole pipeline","ast2::Document::from_str and ast3::Document::from_str return d (resp. an error) iff the source is declared to denote it: its tokens derive a stage-1 document in the grammar, that converts to a stage-2 document, and that is read as d; and an error comes from the first of these that fails. Debug and release builds agree unless the debug build panics.",
  "every string with fewer than 2^32-1 characters, for stage 3 fewer than 2^31 newlines","All inputs, both directions.",[A1+": FromStr",A2+": FromStr",A3+": FromStr"])
p("Parsing the Display of a stage-2 document","ast2::Document::from_str(d.to_string()) = Ok(d) exactly for the documents d that are the stage-2 form of a canonical stage-1 document (C09); for a document obtained by parsing, exactly when its source has, at stage 1, no raw closing curly bracket inside a scope and no scope inside a curly argument.",
  "every stage-2 document, hand-built ones included, printed with fewer than 2^32-1 characters","All documents of any depth, both directions.",[A2+": FromStr, TryFrom<ast1::Document>, Display"])
p("The stage-2 conversion is one-to-one","Two stage-1 documents obtained by parsing that convert to the same stage-2 document are equal, line numbers and blanks included: the conversion loses nothing.",
  "every two accepted strings","All pairs of inputs.",[A2+": TryFrom<ast1::Document>"])
p("Parsing the Display of a stage-3 document","If a source has exactly one document environment with the same blanks before both labels, its stage-1 form can be re-parsed (C09) and its maths is tidy (C29), then the Display of its stage-3 document is the Display of its stage-2 document and parses to the same stage-3 document.",
  "every string with fewer than 2^32-1 characters and 2^31 newlines, every such document","All inputs.",[A3+": FromStr, TryFrom<ast2::Document>, Display"])
p("Sources written one below the other","If s parses to d, no comment or escape is open at its end, and d does not end with a control word (or one and blanks), then s followed by t parses to d followed by the chunks of t moved down by the newlines of s, a last text of d and a first text of t joined to one; a stage-1 error of t is reported moved down by as much. After a control word the same holds when t cannot continue it. At stage 2 likewise: an error keeps its type, and its line is the same or moved down.",
  "every two strings with together fewer than 2^32-1 characters","All pairs of inputs.",[A1+": FromStr",A2+": FromStr"])
p("After a misplaced closing bracket nothing helps","If a source is rejected for an unexpected closing bracket, every source that begins with it is rejected; a rejected source can be completed to an accepted one only if the error says that something is unclosed.",
  "every rejected string and every continuation","All inputs and continuations.",[A1+": FromStr","src/error.rs"])
p("Characters of one class are treated alike","Replacing characters by others of the same class before parsing gives the same tree, or the same error, with the characters replaced. At stage 1 the classes are: blanks, letters, each of newline, percent, backslash and the six brackets, and all others. At stages 2 and 3 every exchange of characters outside ASCII that keeps blanks blank commutes with parsing and with the conversion of any document.",
  "every string of fewer than 2^32-1 characters and every such replacement of characters; for the conversion every document","All inputs in all alphabets.",[A1+": FromStr",A2+": FromStr, TryFrom",A3+": FromStr, TryFrom"])
p("Error messages tell everything","The text of an error determines the error: two errors that differ in line, kind, bracket, name or number have different texts. The text is a single line whatever the names in the source contain, gives the line in decimal, and gives the name of an environment verbatim if none of its characters needs an escape.",
  "every error value, with names of any characters and numbers of any size","All error values and all names.",["src/error.rs: Display","src/internal_error.rs: Display"])
p("Sources whose brackets nest are accepted","If the unescaped brackets of a source, of all three kinds, match and nest, comments left out, and no escaped opening bracket follows a control word (a new word has begun since the last control word or closing bracket), stage-1 parsing succeeds.",
  "every string of fewer than 2^32-1 characters","All inputs.",[A1+": FromStr"])
p("The Display of a validated document is accepted","Every document that validate accepts is written by Display as a source that stage-1 parsing accepts.",
  "every validated document","All documents that can be built.",[A1+": FromStr, Display, Validate","src/ast1/command.rs: Validate"])
p("The running time of the conversion to stage 2","Converting a stage-1 document takes at most n*n iterations of the loop over chunks, recursive calls included, and at most n*(D+1) when the environments of the result are nested at most D deep; the documented worst case, k times \\begin{a} followed by k times \\end{a}, takes exactly k*(k+1).",
  "every stage-1 document, accepted or not, every k and D","A bound for all inputs, and a family of inputs of every size.",["src/ast2/mod.rs: Performance",A2+": TryFrom"])
p("The running time of the conversion to stage 3","Converting a stage-2 document takes at most 19 loop iterations for each chunk and each character of the document, recursive calls included: linear, although the documentation assumes O(n^2). Parsing a source of n characters to stage 3 takes at most 2*n*n+38*n.",
  "every stage-2 document, accepted or not; every source of fewer than 2^32-1 characters","A bound for all inputs.",["src/ast3/mod.rs: Performance","src/ast3/mathsblock.rs: from_chunks","src/ast3/paragraph.rs: from_chunks",A3+": TryFrom"])
p("When parsed and converted documents are valid","A parsed stage-2 or stage-3 document passes validate exactly when its top-level line numbers add up, no text contains a stray closing bracket and no environment name a special character; converting a valid stage-1 document gives a valid stage-2 document exactly when every top-level \\begin is written on one line and environment names are free of special characters; a stage-3 document with anything after its document environment is valid only if that environment ends on line 1, so an ordinary file with a final newline is parsed to an invalid document.",
  "every source of fewer than 2^32-1 characters and every valid stage-1 document; stage 3: fewer than 2^31 newlines, debug builds","An equivalence over all sources and all documents at every depth.",[A2+": TryFrom, validate",A3+": TryFrom, validate"])
p("Documents built by pushing","Pushing the chunks of a document one by one with push_chunk succeeds exactly when the document is valid, and the result is the document with neighbouring texts joined; pushing variants with push succeeds exactly when each is valid, and the result is those variants, numbered, with neighbouring texts joined; otherwise the error is that of the first element that does not fit. At stages 1 and 2 text may be pushed in pieces.",
  "every document, every sequence of variants, every build profile; fewer than 2^32-2 newlines","Sequences of operations of any length.",[A1+": push, push_chunk, validate",A2+": push, push_chunk, validate",A3+": push_*, validate"])
p("Exact result of stage 3 without overflow checks","In a build without overflow checks the conversion to stage 3 never panics, and what it yields is exactly the declared reading in which the content of a dollar block is renumbered modulo 2^32: the document with all its line numbers, or the error. Where a checked build does not panic, both builds yield the same.",
  "every list of chunks, every document, every source with fewer than 2^31 newlines; line numbers below 2^32, fewer than 2^32 commands in a list","All trees of any depth; the wrapped numbers appear only in rare shapes.",[A3+": TryFrom<ast2::Document>, FromStr","src/ast3/mathsblock.rs: from_chunks"])
p("Maths blocks directly inside each other","In a converted document a maths block contains, directly or through other maths blocks, no block of its own kind; there are three kinds (dollars, \\( \\), \\[ \\]), so maths blocks are at most three deep, however the source nests them. Inside a scope, an argument or an environment the count starts afresh.",
  "every source, every document and list of chunks in the range of C70, every list within the result, every build profile","Unbounded nesting in the source.",[A3+": TryFrom<ast2::Document>","src/ast3/mathsblock.rs: from_chunks"])
p("Conversion to stage 3 further down in a file","When a document is put below other text (a header without a document environment and without \\documentclass), it is converted exactly as alone: same class, options, body, maths blocks and paragraphs; the header becomes the beginning of the preamble and every top-level line number moves by the number of lines above. If it is rejected alone it is rejected there, with the same kind of error.",
  "every list of chunks and every document in the range of C70, every pair of sources whose seam is neutral (C60; no text on both sides), every build profile","Unbounded sources and shifts; every interaction of the header with what follows.",[A3+": TryFrom<ast2::Document>, FromStr","src/ast3/mathsblock.rs: from_chunks","src/ast3/paragraph.rs: from_chunks"])
p("Recursion depth","Each of the three recursive passes (parsing, recognising environments, recognising maths) has, for an accepted input, exactly one activation per level of nesting of its result plus one: with fewer it cannot complete, with that many it completes with the same result. For any input, rejected ones included, the number of opening brackets of the source plus one suffices for the first two. A stage-3 document is at most 4 times the number of opening brackets plus 3 deep. There is no limit in the code: k brackets around nothing need k+1 activations.",
  "every source, every document, every list of chunks, every number of activations, every build profile","Stack use is a function of nesting, which is unbounded; a test only shows some depths to be fine.",[A1+": FromStr",A2+": TryFrom<ast1::Document>","src/ast3/mathsblock.rs: from_chunks"])
p("Documents are not larger than their sources","The number of chunks and arguments of a parsed document, at any depth, is at most the number of characters its Display prints, and Display prints at most as many characters as were read: for stage 1, for stage 2, and for the parts of a stage-3 document together. Recognising environments never increases the number of nodes; recognising maths may, but never beyond the number of characters. No text and no paragraph break of a stage-3 document is empty.",
  "every source (at most 2^31 line breaks for stage 3), every document, every list of chunks, every build profile","Memory use is bounded for every input or not at all; tests measure some inputs.",[A1+": FromStr",A2+": TryFrom<ast1::Document>",A3+": TryFrom<ast2::Document>","src/ast3/mathsblock.rs: from_chunks"])
p("Line numbers influence nothing but line numbers","If two stage-1 documents differ only in line numbers (those inside the labels of \\begin and \\end aside, which stage 2 compares), converting them to stage 2 gives documents that differ only in line numbers, or errors of the same type. The same holds for the maths pass, for the paragraph pass, for the conversion of stage-2 documents to stage 3, and for the conversions back from stage 3 to stage 2 and from stage 2 to stage 1. The one difference: with overflow checks either of the two may panic.",
  "every pair of documents or lists of chunks that differ in line numbers only, parsed or built by hand, every build profile","Pairs of documents built by hand are not enumerable; a test compares a few.",[A2+": TryFrom<ast1::Document>",A3+": TryFrom<ast2::Document>","src/ast3/mathsblock.rs: from_chunks","src/ast3/paragraph.rs"])
p("Down to stage 1 and up again","Converting a stage-2 document read from a source down to stage 1 and up to stage 2 again gives, without overflow checks, the same document except that every environment is moved down by the newlines between its \\begin and its body and what is directly in that body is moved up by as many (modulo 2^32). It is the same document, line numbers included, exactly when no environment has a newline there. With overflow checks the conversion succeeds exactly when every chunk of such a body is on a later line of the body than there are newlines, and panics otherwise.",
  "every source of fewer than 2^31 - 1 characters, every profile, and every stage-2 document built by hand with lines from 1 on, labels that print as they are and no \\begin or \\end commands","The panic needs nested line arithmetic; tests of the round trip use environments whose arguments are on one line.",[A1+": From<ast2::Document>",A2+": TryFrom<ast1::Document>","src/ast2/chunk.rs: IntoChunks"])
p("A push that does not succeed changes nothing","If a push, push_chunk, push_unchecked or push_into_unchecked call returns an error or panics (and the panic is caught), the document object is exactly as before. So after any history of calls the document is the one made by the successful calls alone, which all succeed when made without the others; its Display is the original one followed by what they pushed, in order (at stage 3 section by section, everything else untouched); and checked pushes leave a valid document valid at every point of the history, and do not panic.",
  "every document, every finite sequence of the calls with any arguments, every point of it, every build profile; for validity fewer than 2^32 - 2 newlines in all, at stage 3 texts without a newline","Unit tests stop at the first error; whether a failing call has already written to the object, at any of its exits, shows only in later calls.",[A1+": push, push_unchecked, push_chunk, push_chunk_unchecked, push_into_unchecked",A2+": push, push_unchecked, push_chunk, push_chunk_unchecked",A3+": push_vec, push_chunk_vec, push_body, push_preamable, push_trailing and their _chunk and _unchecked forms"])
p("Down to stage 2 and up again","A stage-3 document that is converted to stage 2 and converted to stage 3 again comes out, up to line numbers, with the same chunks in the same places, except that of the texts and paragraph breaks directly in a dollar block only the last stays, at the end of the block, while the others move in front of it; class and options are read again from the preamble. So it comes out the same exactly if every dollar block, at any depth, has at most one text or break directly in it (and class and options are those the preamble declares); no character of the stage-2 text is lost in any case; after one round nothing moves any more. Every document parsed or converted from a stage-2 document has the required shape.",
  "every document of the shape that conversion produces, of any depth, whose text has fewer than 2^32 characters and 2^31 newlines and in whose trailing part no two texts, breaks and dollar blocks touch; release builds; in debug builds the same or a panic","Tests on a few documents show neither that the only thing that can change is the order of texts in dollar blocks nor that the process settles.",[A3+": TryFrom<ast2::Document>","src/ast2/document.rs: From<ast3::Document>","src/ast3/mathsblock.rs: MathsBlock::from_chunks, IntoChunks for MathsBlock","src/ast3/paragraph.rs: Paragraph::from_chunks"])
p("Up to stage 3 and down again","A stage-2 document with exactly one document environment that is converted to stage 3 and back to stage 2 comes out the same to a reader (the same tree of commands, arguments, scopes and environments with the same blanks, and the same characters in between; line numbers and the places where one text chunk ends and the next begins are not looked at) exactly if it is tidy: every maths block has one of the forms recognition keeps. It is also enough that the printed text is the same. Without dollars and bracket commands a document always comes back. With several document environments, or none, the document put together from the preamble, the last environment (or an empty one) and the rest comes out, exactly if that one is tidy. Hence conversion is one-to-one: tidy documents that look different become different stage-3 documents, even if line numbers are not compared.",
  "every stage-2 document, parsed or built by hand, of any depth, in the range of the counters (every parsed one is); release builds; in debug builds the same or a panic","Tests on a few documents cannot show that nothing but untidy maths is changed by the round trip, nor that no two documents are confused.",[A3+": TryFrom<ast2::Document>",A2+": From<ast3::Document>","src/ast3/mathsblock.rs: MathsBlock","src/ast3/paragraph.rs"])
p("Editing a chunk","Replacing, through variant_mut or by rebuilding, the contents of one chunk at any depth of a document that passes validation changes the printed text exactly where the old contents were printed. The chunks form a document again (Document::new) exactly if the new contents are acceptable on their own (Chunk::new) and, unless the edited top-level chunk is the last, print as many newlines as the old ones; otherwise the error is that of the new contents, or names the line of the next chunk. Line numbers of nested chunks do not matter. A top-level line number set through line_no_mut is accepted exactly if it is the old one, and an edit that changes the number of newlines is repaired by moving the line numbers of the chunks that follow.",
  "every stage-1, stage-2 document and section of a stage-3 document that passes validation, every place in it, every new contents; both build profiles; as long as line numbers fit u32","Tests edit a few documents in a few places; the claim is about every place at every depth and every replacement.",["src/ast1/chunk.rs: variant_mut","src/ast2/chunk.rs: variant_mut, line_no_mut","src/ast3/chunk.rs: variant_mut",A1+": Document::new",A2+": Document::new",A3+": Document::new"])
p("Nothing but brackets can get lost","When a document is converted to stage 3, every character is printed at most as often as in what is kept of the document: everything but the document environments, and the last of these (an empty one if there is none) with the blanks of \\begin at \\end. Only the five characters of \\( \\) \\[ \\] can be printed less often; every other character, the dollars included, is printed exactly as often as before, unless a document put together by hand gives a bracket command arguments, which no parsed document does. Without bracket commands the printed text is a permutation of the old one.",
  "every stage-2 document (line numbers in u32) whose conversion succeeds, every source under 2^31 newlines that parses; both build profiles; every character","Tests compare the printed text of a few documents; the claim is about every document and every character.",["src/ast3/mathsblock.rs: MathsBlock::from_chunks",A3+": TryFrom<ast2::Document>, Display","src/ast1/command.rs"])
p("What stage-3 errors point at","If the conversion to stage 3 fails, the error is of one of four kinds and its line is that of something of that kind in the document: UnexpectedMathsEnd of a \\) or \\], UnclosedMaths of a \\( or \\[ (for an unclosed dollar: line 0 or that of some \\( or \\[ ), DoubleDocumentClass of a \\documentclass after one that declares a class, TooManyArgsDocumentClass of a \\documentclass with several classes, both before the first document environment. Inside scopes, arguments and environments lines are counted anew, between dollars relative to the last text. With overflow checks no line beyond the last one of the source is reported; without them line 4294967295 can be.",
  "every stage-2 document with u32 line numbers whose conversion fails, every source under 2^31 newlines that stage 2 accepts; both build profiles","Tests look at the errors of a few sources; the claim is about every source that is rejected.",["src/ast3/mathsblock.rs: MathsBlock::from_chunks",A3+": TryFrom<ast2::Document>","src/error.rs"])
p("Stages 1 and 2 convert piece by piece","If a list of stage-1 chunks converts to stage 2, then whatever is appended to it converts as it does alone: the results are appended, and an error or a panic of the appended piece is returned unchanged. So pieces that convert on their own can be inserted, removed and reordered. If a list fails or panics, it still does so, with the same error, whatever is appended, with one exception: a \\begin that is not inside anything and is not closed, which the appended chunks may close. Back to stage 1, two lists convert to the concatenation of the results, where the two texts at the seam become one.",
  "every two lists of stage-1 chunks and of stage-2 chunks, hand-built ones with any line numbers included; both build profiles","Tests convert a few fixed documents; the claim is about every way to cut a document.",[A2+": TryFrom<ast1::Document>",A1+": From<ast2::Document>"])
p("Stage 3 converts piece by piece","Appending chunks without a document environment to a stage-2 document that has one leaves everything at stage 3 as it was and appends to the trailing part exactly what the chunks give alone (a \\documentclass there has no effect). Putting chunks without document environment and \\documentclass before a document puts what they give alone before the preamble and changes nothing else. Appending chunks to the content of the (last) document environment appends what they give alone to the body. If the maths recognition of appended chunks, or the conversion of the document other chunks are put before, fails, so does the whole, with the same kind of error; if it panics, the whole does.",
  "every stage-2 document and every list of stage-2 chunks, hand-built ones included; both build profiles","Tests convert a few fixed documents; the claim is about every document and every addition.",[A3+": TryFrom<ast2::Document>","src/ast3/mathsblock.rs: MathsBlock::from_chunks"])
p("What a longer source keeps","If a source and one that begins with it are both accepted, the tree of the longer one begins with the tree of the shorter one, except for its end: a last text may go on, a last command may get further arguments, a last label without arguments may go on if it is a word, and blanks after a last command may turn out to be the beginning of a text (then one that starts on another line) or of the blanks before an argument. All chunks but the last two stay as they are, with their line numbers. At stage 2 the same holds, and a last command may also turn out to be the beginning of \\begin.",
  "every string and every continuation of it, both build profiles in any combination","Tests parse a few fixed sources; incremental parsing relies on this for every place at which a source can be cut.",[A1+": FromStr",A2+": FromStr, TryFrom<ast1::Document>"])
p("What can be completed","A source rejected at stage 2 is the beginning of an accepted one only if the error says that a scope, an argument or an environment is unclosed, or that a \\begin or \\end has no label and the source ends with it. At stage 3 only if the error is one of these, or unclosed maths, or a second \\documentclass with which the source ends. So after any other error (misplaced closing bracket, unexpected \\end, too many arguments, unexpected end of maths, ...) no continuation is accepted.",
  "every rejected string and every continuation; stage 2 both build profiles in any combination, stage 3 every build profile","Tests reject a few fixed sources; an editor that waits for more input relies on it for every source.",[A2+": FromStr, TryFrom<ast1::Document>",A3+": TryFrom<ast2::Document>","src/ast3/mathsblock.rs: MathsBlock::from_chunks"])
p("What a longer source keeps at stage 3","If a source and one that begins with it are both accepted at stage 3, then the preamble and the chunks behind the document environment keep all but their last three chunks, with their line numbers; a document class that was read stays the class, and options are only added behind those read. Once a document environment has been read, the preamble, the class and the options are final, and so are the body and its arguments unless a second document environment follows.",
  "every string with fewer than 2^31 line breaks and every continuation of it (up to the size limit), every build profile","Tests parse a few fixed sources; what is shown while more of a file arrives relies on it at every place where the file can be cut.",[A3+": FromStr, TryFrom<ast2::Document>","src/ast3/mathsblock.rs: MathsBlock::from_chunks","src/ast3/paragraph.rs: Paragraph::from_chunks"])
p("No maths delimiter survives stage 3","In every stage-3 document that comes out of a conversion, at every place and at every depth, no text contains a dollar sign or is empty, no command is one of the brackets of maths, and a paragraph break is nothing but blanks. No command is made up either: every command name in it is that of a command of the stage-2 document, and in a document read from a string none of them is begin or end.",
  "every stage-2 document including hand-built ones, every string, every build profile","Tests look at the top level of a few documents; maths inside an argument inside maths, or a bracket at an unexpected place, is where a delimiter would be left as text or as a command.",["src/ast3/mathsblock.rs: MathsBlock::from_chunks","src/ast3/paragraph.rs: Paragraph::from_chunks",A3+": TryFrom<ast2::Document>"])
p("A source written into an environment","Write a source between a \\begin with its arguments and the matching \\end: the result is that environment with, as its content, exactly what the source is when read alone (same lines, counted from the environment). At stage 3 the content of a document environment becomes the body, that of any other the content; a source that is rejected alone at stage 3 is rejected there with the same error. Environments can be put around each other like this to any depth. This is for sources that have no open comment or escape at their end, do not begin like one more argument, do not end with a control word and blanks over several lines, and whose stage-2 conversion succeeds; each of these is needed.",
  "every string that can stand in an environment, every pair of strings that is an environment when put together, every build profile","Tests use one environment and one content; that neither the name, the arguments and their line breaks, nor the content can influence the other is a statement about all of them.",[A1+": from_chars",A2+": TryFrom<ast1::Document>","src/ast2/environment.rs","src/ast3/environment.rs",A3+": TryFrom<ast2::Document>"])
with open('/verif/properties.jsonl','w') as f:
    for x in P: f.write(json.dumps(x)+"\n")
print(len(P))
