{"id": "C01", "title": "Stage-1 parsing always returns", "statement": "ast1::Document::from_str terminates and returns Ok or Err; it never panics (no unwrap, unreachable!, or u32 overflow/underflow), with overflow checks on or off.", "quantifier": "every string of fewer than 2^32-1 characters, both build profiles", "why_tests_cant": "Totality over all strings, all nesting depths; a test suite only samples strings.", "anchors": ["src/ast1/document.rs: FromStr for Document, Buffer::{push,push_str,push_scope,no_scope}, flush"]}
{"id": "C02", "title": "Stage-1 Display reconstructs the source", "statement": "If from_str(s) succeeds, Display of the document is s, character for character (documented as 'one-to-one copy of the original document with no loss of information').", "quantifier": "every accepted string", "why_tests_cant": "Quantifies over all documents; the repo's tests check one document.", "anchors": ["src/ast1/document.rs: FromStr, Display", "src/ast1/mod.rs"]}
{"id": "C03", "title": "Stage-1 content conservation", "statement": "If from_str(s) succeeds then, once comments are deleted from s and brackets and backslashes are ignored on both sides, Display of the document is s: no other character is ever lost, duplicated, invented or reordered.", "quantifier": "every accepted string", "why_tests_cant": "Loss of a single character in a rare bracket/escape combination is invisible to sampled tests.", "anchors": ["src/ast1/document.rs: FromStr, Display"]}
{"id": "C04", "title": "Comments do not influence stage-1 parsing", "statement": "Deleting a comment (from an unescaped % up to but excluding the newline, body without backslash) from the source leaves the from_str result, Ok or Err with the same line, unchanged.", "quantifier": "every string, every set of comments in it", "why_tests_cant": "Comment position interacts with every parser state; all of them must be covered.", "anchors": ["src/ast1/document.rs: FromStr (comment, escaped flags)"]}
{"id": "C05", "title": "Parsed line count is the source line count", "statement": "If ast1::Document::from_str(s) succeeds, lines() of the document is the number of newline characters of s plus one.", "quantifier": "every accepted string under 2^32-1 characters", "why_tests_cant": "All inputs, including comments, escapes and nested arguments.", "anchors": ["src/ast1/document.rs: FromStr, Lines", "src/ast1/command.rs: Lines", "src/ast1/scope.rs: Lines"]}
{"id": "C06", "title": "Stage-1 chunk line numbers", "statement": "In a parsed document every chunk's line_no is one plus the number of newlines before the chunk's first character (relative to the enclosing scope).", "quantifier": "every accepted string, every chunk at every depth", "why_tests_cant": "Needs every combination of whitespace, escapes and chunk kinds.", "anchors": ["src/ast1/document.rs: FromStr (line_no, buffer_line_no)", "src/ast1/chunk.rs"]}
{"id": "C07", "title": "Stage-1 error reports are in range", "statement": "If from_str(s) fails, the reported line is between 1 and the number of lines of s and the error is one of UnexpectedClosing, UnclosedArgument, UnclosedScope.", "quantifier": "every rejected string under 2^32-1 characters", "why_tests_cant": "Error offsets are summed over an unbounded recursion.", "anchors": ["src/ast1/document.rs: FromStr flush! map_err", "src/error.rs"]}
{"id": "C08", "title": "Parsed documents are in normal form", "statement": "A parsed stage-1 document contains no empty Text chunk and no two adjacent Text chunks, at any depth; a Scope chunk never directly follows a command that could have taken it as argument.", "quantifier": "every accepted string, every depth", "why_tests_cant": "Must hold for every chunk sequence the parser can emit.", "anchors": ["src/ast1/document.rs: FromStr"]}
{"id": "C09", "title": "Parsing inverts Display on canonical documents", "statement": "For every canonical stage-1 document d (clean texts and labels, consistent line numbers, Curly scopes, whitespace-only argument separators, no ambiguous adjacency), from_str(d.to_string()) = Ok(d).", "quantifier": "every canonical document, any size and nesting depth", "why_tests_cant": "Round trip over an infinite family of trees.", "anchors": ["src/ast1/document.rs: FromStr, Display", "src/ast1/command.rs: Display", "src/ast1/scope.rs: Display"]}
{"id": "C10", "title": "What can make a parsed document invalid", "statement": "If from_str(s) = Ok(d), every label of d passes validation and the only characters that can make d.validate() fail with UnsanitisedCharInString are closing brackets ')', ']', '}' in Text.", "quantifier": "every accepted string", "why_tests_cant": "Quantifies over all chunks of all parse results.", "anchors": ["src/ast1/document.rs: Validate", "src/ast1/chunkvariant.rs: Validate", "src/ast1/command.rs: Validate"]}
{"id": "C11", "title": "lines() counts the newlines of Display", "statement": "For every stage 1, 2 or 3 chunk, scope, command, environment or maths block and for stage 1 and 2 documents, lines() is one plus the number of newlines in to_string() (when that fits u32).", "quantifier": "every value constructible through the public API", "why_tests_cant": "Recursive over unbounded trees.", "anchors": ["src/traits/lines.rs: Lines", "src/ast1/*.rs, src/ast2/*.rs, src/ast3/*.rs: Lines, Display"]}
{"id": "C12", "title": "push appends to Display", "statement": "Pushing a variant or a chunk that is accepted changes to_string() to exactly old text followed by the pushed text; adjacent texts are merged into one chunk.", "quantifier": "every document, every variant, every sequence of pushes (stage 1, 2 and each stage-3 section)", "why_tests_cant": "Histories of pushes of arbitrary length.", "anchors": ["src/ast1/document.rs: push*", "src/ast2/document.rs: push*", "src/ast3/document.rs: push_*"]}
{"id": "C13", "title": "push keeps documents valid", "statement": "Starting from a document that passes validate(), any sequence of push/push_chunk calls leaves a document that passes validate().", "quantifier": "every valid document and every finite sequence of push and push_chunk calls (stage 1 and 2)", "why_tests_cant": "Invariant over unbounded histories.", "anchors": ["src/ast1/document.rs: push, push_chunk, Validate", "src/ast2/document.rs: push, push_chunk, Validate"]}
{"id": "C14", "title": "push_chunk decision rule", "statement": "push_chunk succeeds iff the chunk validates and its line number is the line on which the document currently ends; otherwise the document is unchanged and the error carries exactly the expected and given lines.", "quantifier": "every document (stage 1, 2, stage-3 sections), every chunk", "why_tests_cant": "All documents and chunks.", "anchors": ["src/ast1/document.rs: push_chunk", "src/ast2/document.rs: push_chunk", "src/ast3/document.rs: push_chunk_vec"]}
{"id": "C15", "title": "validate decides well-formedness", "statement": "validate() returns Ok iff the document meets the declarative rules: line numbers accumulate from 1, texts and long labels contain none of \\ % ( ) [ ] { }, stages 2-3 have no begin/end command, paragraph breaks are whitespace with two newlines, texts contain no paragraph break.", "quantifier": "every document value of stage 1, 2 and 3", "why_tests_cant": "Exact equivalence over unbounded trees.", "anchors": ["src/ast1/*.rs, src/ast2/*.rs, src/ast3/*.rs: Validate"]}
{"id": "C16", "title": "Stage 2 preserves Display", "statement": "If ast2::Document::try_from(d1) succeeds with d2 then d2.to_string() = d1.to_string().", "quantifier": "every stage-1 document, including ones built with new_unchecked", "why_tests_cant": "All documents, all environment nestings.", "anchors": ["src/ast2/document.rs: TryFrom<ast1::Document>", "src/ast2/environment.rs: Display"]}
{"id": "C17", "title": "Stage 2 accepts exactly well-nested environments", "statement": "try_from(d1) succeeds iff at every depth the \\begin/\\end commands of d1 are properly nested with equal labels, each has a leading curly argument and each \\end has exactly one argument.", "quantifier": "every parsed stage-1 document", "why_tests_cant": "Dyck-language membership at every depth.", "anchors": ["src/ast2/document.rs: TryFrom<ast1::Document>", "src/ast2/scope.rs: TryFrom", "src/ast2/command.rs: TryFrom"]}
{"id": "C18", "title": "No begin/end command survives stage 2", "statement": "A document produced by try_from contains no Command labelled begin or end at any depth, so stage-2 validation never fails with BeginCommand/EndCommand on it.", "quantifier": "every successful conversion", "why_tests_cant": "All trees, all depths (arguments, scopes, environments).", "anchors": ["src/ast2/document.rs: TryFrom<ast1::Document>", "src/ast2/command.rs: Validate"]}
{"id": "C19", "title": "Stage-2 conversion never panics on parsed input", "statement": "ast2::Document::from_str returns Ok or Err for every string; line arithmetic (line_no - buffer_start + 1) never underflows.", "quantifier": "every string under 2^32-1 characters, both profiles", "why_tests_cant": "Depends on monotonicity of all line numbers of all parses.", "anchors": ["src/ast2/document.rs: FromStr, TryFrom<ast1::Document>"]}
{"id": "C20", "title": "Stage 2 back to stage 1 is the identity", "statement": "ast1::Document::from(ast2::Document::try_from(d1)) = d1 ('one-to-one copy of the stage 1 AST').", "quantifier": "every parsed stage-1 document that converts", "why_tests_cant": "Structural equality with line numbers over all trees.", "anchors": ["src/ast2/chunk.rs: ast1::IntoChunks", "src/ast1/document.rs: From<ast2::Document>", "src/ast2/document.rs: TryFrom<ast1::Document>"]}
{"id": "C21", "title": "Stage 2 back to stage 1 preserves Display", "statement": "ast1::Document::from(d2).to_string() = d2.to_string() whenever environment labels are plain text, and for every d2 obtained by parsing.", "quantifier": "every stage-2 document with plain labels", "why_tests_cant": "All trees; includes label re-parsing.", "anchors": ["src/ast2/chunk.rs: ast1::IntoChunks", "src/ast2/scope.rs: to_ast1_scope"]}
{"id": "C22", "title": "Stage 2 preserves line counts", "statement": "ast2::Document::from_str(s) = Ok(d2) implies d2.lines() = newlines(s) + 1.", "quantifier": "every accepted string under 2^32-1 characters", "why_tests_cant": "All inputs.", "anchors": ["src/ast2/document.rs: Lines, FromStr"]}
{"id": "C23", "title": "Environment line numbers", "statement": "The Environment chunk produced by stage 2 carries the line of its \\begin command.", "quantifier": "every environment of every converted document", "why_tests_cant": "All documents, including multi-line arguments.", "anchors": ["src/ast2/document.rs: TryFrom (buffer_start)"]}
{"id": "C24", "title": "Stage-2 error line numbers", "statement": "The line reported by a stage-2 error is the line of the offending command.", "quantifier": "every rejected document", "why_tests_cant": "Errors are re-based through an unbounded number of levels.", "anchors": ["src/ast2/document.rs: map_e!, map_env_e!, Error::new"]}
{"id": "C25", "title": "Paragraph splitting preserves text", "statement": "Paragraph::from_chunks never changes the concatenated Display of the chunks.", "quantifier": "every list of stage-3 chunks", "why_tests_cant": "All strings of whitespace/newline/other characters.", "anchors": ["src/ast3/paragraph.rs: from_chunks"]}
{"id": "C26", "title": "Paragraph splitting is exact", "statement": "After Paragraph::from_chunks every Text at that level is free of paragraph breaks (two newlines separated by whitespace only) and non-empty, and every break that comes from a Text is whitespace only with at least two newlines.", "quantifier": "every list of stage-3 chunks", "why_tests_cant": "All strings.", "anchors": ["src/ast3/paragraph.rs: from_chunks", "src/ast3/chunkvariant.rs: Validate"]}
{"id": "C27", "title": "Paragraph splitting is idempotent", "statement": "Paragraph::from_chunks(Paragraph::from_chunks(x)) = Paragraph::from_chunks(x), line numbers included (stage 3 applies it twice).", "quantifier": "every list of stage-3 chunks", "why_tests_cant": "All strings.", "anchors": ["src/ast3/paragraph.rs: from_chunks", "src/ast3/mathsblock.rs: from_chunks"]}
{"id": "C28", "title": "Paragraph line numbers", "statement": "Chunks produced by paragraph splitting carry the line of their first character.", "quantifier": "every text chunk", "why_tests_cant": "All newline/whitespace patterns.", "anchors": ["src/ast3/paragraph.rs: from_chunks (buffer_line, text_buffer_line)"]}
{"id": "C29", "title": "Maths recognition preserves Display", "statement": "MathsBlock::from_chunks never changes the concatenated Display.", "quantifier": "every list of stage-2 chunks that converts", "why_tests_cant": "All interleavings of dollars, brackets, commands and texts.", "anchors": ["src/ast3/mathsblock.rs: from_chunks, Display"]}
{"id": "C30", "title": "Bracket maths is recognised", "statement": "A sequence \\( body \\) (resp. \\[ body \\]) in text mode, with no nested bracket-maths command of the same kind in the body, becomes exactly one Inline (resp. Outline) Brackets block whose content is the conversion of body; an unmatched \\) or \\] outside maths is UnexpectedMathsEnd at its line and an unclosed one is UnclosedMaths at its opening line.", "quantifier": "every list of stage-2 chunks", "why_tests_cant": "All bodies, prefixes, suffixes.", "anchors": ["src/ast3/mathsblock.rs: from_chunks"]}
{"id": "C31", "title": "Stage-3 parsing never panics", "statement": "ast3::Document::from_str returns Ok or Err for every string.", "quantifier": "every string under 2^32-1 characters", "why_tests_cant": "All inputs.", "anchors": ["src/ast3/document.rs: FromStr, TryFrom<ast2::Document>", "src/ast3/mathsblock.rs: from_chunks"]}
{"id": "C32", "title": "Stage-3 Display reconstructs the source", "statement": "ast3::Document::from_str(s).to_string() = s ('one-to-one copy').", "quantifier": "every accepted string", "why_tests_cant": "All inputs.", "anchors": ["src/ast3/document.rs: Display, TryFrom<ast2::Document>"]}
{"id": "C33", "title": "Document class extraction", "statement": "After conversion documentclass is the text of the single curly argument of the preamble's \\documentclass; a second class is DoubleDocumentClass at its line, a second curly argument is TooManyArgsDocumentClass, and commands after the document environment are ignored.", "quantifier": "every stage-2 document", "why_tests_cant": "All documents.", "anchors": ["src/ast3/document.rs: TryFrom<ast2::Document>"]}
{"id": "C34", "title": "Document options extraction", "statement": "documentoptions lists, for every comma-separated option, its surrounding whitespace, key and optional value so that the option text can be rebuilt.", "quantifier": "every \\documentclass[...] argument", "why_tests_cant": "All option strings.", "anchors": ["src/ast3/document.rs: TryFrom<ast2::Document> (option parser)"]}
{"id": "C35", "title": "Stage 3 back to stage 2", "statement": "ast2::Document::from(d3) does not panic and preserves Display.", "quantifier": "every stage-3 document obtained by parsing", "why_tests_cant": "All documents.", "anchors": ["src/ast2/document.rs: From<ast3::Document>", "src/ast3/mathsblock.rs: into_chunks", "src/ast3/chunk.rs: into_chunks"]}
{"id": "C36", "title": "Stage-3 document line count", "statement": "ast3::Document::lines() is one plus the number of newlines of its Display.", "quantifier": "every stage-3 document", "why_tests_cant": "All documents.", "anchors": ["src/ast3/document.rs: Lines, Display"]}
{"id": "C37", "title": "Stage-3 pushes keep documents valid", "statement": "Pushing a valid variant to a section of a valid stage-3 document leaves it valid.", "quantifier": "every valid stage-3 document and every push sequence", "why_tests_cant": "Histories.", "anchors": ["src/ast3/document.rs: push_*"]}
{"id": "C38", "title": "Build profiles agree", "statement": "Whenever an operation does not panic with overflow checks on, it returns the same result with overflow checks off.", "quantifier": "every operation modelled, every input", "why_tests_cant": "All inputs and both profiles.", "anchors": ["all u32 arithmetic"]}
{"id": "C39", "title": "Quadratic parsing", "statement": "The total number of main-loop character steps of stage-1 parsing, over all recursive calls, is at most n^2 for a source of n characters (documented worst case O(n^2)).", "quantifier": "every string", "why_tests_cant": "Worst case over all inputs.", "anchors": ["src/ast1/document.rs: FromStr", "src/ast1/mod.rs"]}
{"id": "C40", "title": "Stage-2 and stage-3 conversions terminate", "statement": "try_from (ast1 to ast2), MathsBlock::from_chunks and try_from (ast2 to ast3) terminate on every input; recursion is on strictly smaller data.", "quantifier": "every stage-1 / stage-2 document, including hand-built ones", "why_tests_cant": "Termination is universally quantified.", "anchors": ["src/ast2/document.rs: TryFrom", "src/ast3/mathsblock.rs: from_chunks", "src/ast3/document.rs: TryFrom"]}
{"id": "C41", "title": "Stage-1 accepts exactly a declared grammar", "statement": "from_str(s) = Ok(d) iff the token sequence of s (escapes resolved, comments removed) derives d, with its line numbers, in a context-free-style declarative grammar of texts, control symbols, control words with blank-separated arguments and scopes; in particular the grammar is unambiguous.", "quantifier": "every string and every document", "why_tests_cant": "All inputs, both directions.", "anchors": ["src/ast1/document.rs: FromStr"]}
{"id": "C42", "title": "Stage-2 conversion is exactly the declared one", "statement": "For a stage-1 document obtained by parsing, the stage-2 form is determined by the declarative conversion: texts, scopes and commands keep their place and text, and every \\begin..matching \\end of equal label becomes one environment with the same label, arguments and converted content; conversion succeeds with d2 iff d2 is that declarative result.", "quantifier": "every stage-1 document obtained by parsing", "why_tests_cant": "All documents, both directions.", "anchors": ["src/ast2/document.rs: TryFrom<ast1::Document>"]}
{"id": "C43", "title": "Curly arguments are self-contained", "statement": "In a document obtained by parsing, the chunks of every argument written in curly brackets (environment labels among them) are what parsing the argument's own text returns, line numbers included; this is what lets stage 2 rebuild a label from its text.", "quantifier": "every accepted string, every command at every depth", "why_tests_cant": "All inputs, all depths.", "anchors": ["src/ast1/document.rs: FromStr", "src/ast2/document.rs: TryFrom<ast1::Document>", "src/ast2/chunk.rs: into_chunks"]}
{"id": "C44", "title": "Dollar maths is recognised", "statement": "In text mode, $m$ (m non-empty) or $$m$$ inside one text, where m has no dollar, becomes exactly one Inline resp. Outline Dollars block at the line where it begins, whose content is the conversion of m on its own; the text before is split into paragraphs, the rest is converted as if it began a new text; text without dollars is only split into paragraphs; a dollar without a partner is UnclosedMaths at its line.", "quantifier": "every text, every list of chunks around it", "why_tests_cant": "All texts, all contexts.", "anchors": ["src/ast3/mathsblock.rs: from_chunks"]}
{"id": "C45", "title": "Maths recognition is compositional", "statement": "If two lists of stage-2 chunks convert, their concatenation converts to the concatenation of the results; an error in the second list is reported with the same type. The same holds for paragraph splitting.", "quantifier": "every two lists of stage-2 chunks", "why_tests_cant": "All lists of all lengths.", "anchors": ["src/ast3/mathsblock.rs: from_chunks", "src/ast3/paragraph.rs: from_chunks"]}
{"id": "C46", "title": "Stage-1 errors are exactly the declared ones", "statement": "from_str(s) = Err(e) iff the token sequence of s is rejected with e by a declarative specification: an unclosed scope is reported on the line of its bracket, an unclosed argument on the line of its command, a closing bracket directly after a command or its arguments on its own line, an error inside a scope or an argument on its inner line shifted by the line of the enclosing chunk; the first fault in reading order wins, except that a command's own brackets are checked before the contents of its arguments. Every source is accepted or rejected with exactly one error.", "quantifier": "every string and every error", "why_tests_cant": "All inputs, both directions.", "anchors": ["src/ast1/document.rs: FromStr", "src/error.rs"]}
{"id": "C47", "title": "Brackets of a scope variant", "statement": "open/close give the documented brackets at every stage; a character is an opening (closing) bracket iff it opens (closes) a variant, from_opening/from_closing find exactly that variant and panic on every other character; no character is both; converting a variant between stages keeps its brackets and can be undone.", "quantifier": "every character, every variant, every stage", "why_tests_cant": "All characters.", "anchors": ["src/ast1/scopevariant.rs", "src/ast2/scopevariant.rs", "src/ast3/scopevariant.rs"]}
{"id": "C48", "title": "Equality is structural", "statement": "== between two chunks, commands, scopes, environments, maths blocks or documents of one stage holds exactly when they are the same value, line numbers and blanks between arguments included.", "quantifier": "every two values of every public type of stages 1 to 3", "why_tests_cant": "All pairs of trees of any depth.", "anchors": ["src/ast1/chunk.rs: derive(PartialEq)", "src/ast2/chunk.rs: derive(PartialEq)", "src/ast3/document.rs: derive(PartialEq)"]}
{"id": "C49", "title": "Checking constructors", "statement": "new returns exactly the value made of its arguments, each in its own field, when that value is well formed; otherwise it returns the error of the first fault.", "quantifier": "all arguments of every constructor of stages 1 to 3", "why_tests_cant": "All trees.", "anchors": ["src/ast1/document.rs: new", "src/ast2/document.rs: new", "src/ast3/document.rs: new, new_unchecked, decompose", "src/ast2/environment.rs: new", "src/ast3/mathsblock.rs: new"]}
{"id": "C50", "title": "Validation reports the first fault", "statement": "validate returns an error e exactly when e describes the first fault in depth-first order: a chunk's line number before its content, a label before the arguments, arguments before contents, the first special character of a text; sections in the order preamble, body, trailing.", "quantifier": "every document of stages 1 to 3 with fewer than 2^32-1 newlines, hand-built ones included", "why_tests_cant": "All trees, both directions.", "anchors": ["src/ast1/document.rs: Validate", "src/ast2/document.rs: Validate", "src/ast3/document.rs: Validate", "src/internal_error.rs"]}
{"id": "C51", "title": "Unchecked pushes", "statement": "push_unchecked and push_chunk_unchecked accept everything and do what the checked pushes do on success: a text is joined to a last text, anything else is appended, push_unchecked numbers it with the line on which the document ends; in a stage-3 document only the chosen section changes.", "quantifier": "every document, valid or not, every chunk", "why_tests_cant": "All documents and chunks.", "anchors": ["src/ast1/document.rs: push_unchecked, push_chunk_unchecked", "src/ast2/document.rs: push_unchecked, push_chunk_unchecked", "src/ast3/document.rs: push_*_unchecked"]}
{"id": "C52", "title": "Exactly what comes back at stage 1", "statement": "into_chunks of a stage-2 chunk, push_into_unchecked and the conversion of a stage-2 document give exactly: texts, scopes and commands in place, brackets and blanks kept; an environment on line l becomes \\begin with the label and the arguments on line l, its contents counted from l, and \\end with the same label as many lines below l as there are newlines printed between the two; the chunks are added one after the other, texts joined to a last text.", "quantifier": "every stage-2 chunk and document, hand-built ones included, whose environments are on line 1 or later with labels that parse and whose resulting line numbers fit u32; both profiles", "why_tests_cant": "All trees of any depth, every line number.", "anchors": ["src/ast2/chunk.rs: into_chunks", "src/ast1/document.rs: From<ast2::Document>, push_into_unchecked", "src/ast1/command.rs: From<ast2::Command>", "src/ast1/scope.rs"]}
{"id": "C53", "title": "Exactly what comes back at stage 2", "statement": "into_chunks of a stage-3 chunk and the conversion of a stage-3 document give exactly: paragraph breaks become texts; a bracketed maths block its two commands around its contents, on the lines where it begins and ends; a dollar block its contents with the dollars joined to the first and the last text, or as texts of their own; the document environment is on the line numbered by the newlines of the preamble, its contents moved by the newlines of its arguments, the trailing chunks follow it.", "quantifier": "every stage-3 chunk and document, hand-built ones included, whose maths blocks are on line 1 or later and whose resulting line numbers fit u32, with a newline up to the end of the document environment; both profiles", "why_tests_cant": "All trees of any depth, every line number.", "anchors": ["src/ast3/chunk.rs: into_chunks", "src/ast3/mathsblock.rs: into_chunks", "src/ast2/document.rs: From<ast3::Document>"]}
{"id": "C54", "title": "Maths recognition is exactly the declared reading", "statement": "For a list of stage-2 chunks, MathsBlock recognition returns out (resp. the error e, resp. an arithmetic overflow in a build with overflow checks) iff the list is declared to be read so: texts without a dollar are split into paragraphs; a bracket command takes everything up to its partner by depth, dropping the inner brackets of its kind; a dollar takes everything up to the next dollar that closes it, the texts before the last one falling out in front of the block and the rest renumbered from the line of the last text; other chunks are read inside; the first failure counts, with its line. Every list has exactly one reading.", "quantifier": "every list of stage-2 chunks with fewer than 2^32 commands, texts of fewer than 2^31 newlines ending below line 2^32, hand-built ones included; every parsed document is in that range", "why_tests_cant": "All trees of any depth, both directions.", "anchors": ["src/ast3/mathsblock.rs: from_chunks", "src/ast3/paragraph.rs: from_chunks", "src/ast3/scope.rs", "src/ast3/command.rs", "src/ast3/environment.rs"]}
{"id": "C55", "title": "Stage-3 conversion is exactly the declared one", "statement": "Converting a stage-2 document returns d3 (resp. the error e, resp. an arithmetic overflow with overflow checks) iff it is declared so: everything before the first document environment is the preamble, from whose \\documentclass commands class and options are taken; the arguments, contents and blanks of the last document environment are the body; everything else after the first one is the trailing part; each part is read as a list of chunks; a wrong \\documentclass is reported before a failure in a document environment, that before one in the preamble, that before one in the trailing part. Every document has exactly one reading.", "quantifier": "every stage-2 document in the range of C54, hand-built ones included", "why_tests_cant": "All documents, both directions.", "anchors": ["src/ast3/document.rs: TryFrom<ast2::Document>", "src/ast3/mathsblock.rs: from_chunks"]}
{"id": "C56", "title": "The whole pipeline", "statement": "ast2::Document::from_str and ast3::Document::from_str return d (resp. an error) iff the source is declared to denote it: its tokens derive a stage-1 document in the grammar, that converts to a stage-2 document, and that is read as d; and an error comes from the first of these that fails. Debug and release builds agree unless the debug build panics.", "quantifier": "every string with fewer than 2^32-1 characters, for stage 3 fewer than 2^31 newlines", "why_tests_cant": "All inputs, both directions.", "anchors": ["src/ast1/document.rs: FromStr", "src/ast2/document.rs: FromStr", "src/ast3/document.rs: FromStr"]}
{"id": "C57", "title": "Parsing the Display of a stage-2 document", "statement": "ast2::Document::from_str(d.to_string()) = Ok(d) exactly for the documents d that are the stage-2 form of a canonical stage-1 document (C09); for a document obtained by parsing, exactly when its source has, at stage 1, no raw closing curly bracket inside a scope and no scope inside a curly argument.", "quantifier": "every stage-2 document, hand-built ones included, printed with fewer than 2^32-1 characters", "why_tests_cant": "All documents of any depth, both directions.", "anchors": ["src/ast2/document.rs: FromStr, TryFrom<ast1::Document>, Display"]}
{"id": "C58", "title": "The stage-2 conversion is one-to-one", "statement": "Two stage-1 documents obtained by parsing that convert to the same stage-2 document are equal, line numbers and blanks included: the conversion loses nothing.", "quantifier": "every two accepted strings", "why_tests_cant": "All pairs of inputs.", "anchors": ["src/ast2/document.rs: TryFrom<ast1::Document>"]}
{"id": "C59", "title": "Parsing the Display of a stage-3 document", "statement": "If a source has exactly one document environment with the same blanks before both labels, its stage-1 form can be re-parsed (C09) and its maths is tidy (C29), then the Display of its stage-3 document is the Display of its stage-2 document and parses to the same stage-3 document.", "quantifier": "every string with fewer than 2^32-1 characters and 2^31 newlines, every such document", "why_tests_cant": "All inputs.", "anchors": ["src/ast3/document.rs: FromStr, TryFrom<ast2::Document>, Display"]}
{"id": "C60", "title": "Sources written one below the other", "statement": "If s parses to d, no comment or escape is open at its end, and d does not end with a control word (or one and blanks), then s followed by t parses to d followed by the chunks of t moved down by the newlines of s, a last text of d and a first text of t joined to one; a stage-1 error of t is reported moved down by as much. After a control word the same holds when t cannot continue it. At stage 2 likewise: an error keeps its type, and its line is the same or moved down.", "quantifier": "every two strings with together fewer than 2^32-1 characters", "why_tests_cant": "All pairs of inputs.", "anchors": ["src/ast1/document.rs: FromStr", "src/ast2/document.rs: FromStr"]}
{"id": "C61", "title": "After a misplaced closing bracket nothing helps", "statement": "If a source is rejected for an unexpected closing bracket, every source that begins with it is rejected; a rejected source can be completed to an accepted one only if the error says that something is unclosed.", "quantifier": "every rejected string and every continuation", "why_tests_cant": "All inputs and continuations.", "anchors": ["src/ast1/document.rs: FromStr", "src/error.rs"]}
{"id": "C62", "title": "Characters of one class are treated alike", "statement": "Replacing characters by others of the same class before parsing gives the same tree, or the same error, with the characters replaced. At stage 1 the classes are: blanks, letters, each of newline, percent, backslash and the six brackets, and all others. At stages 2 and 3 every exchange of characters outside ASCII that keeps blanks blank commutes with parsing and with the conversion of any document.", "quantifier": "every string of fewer than 2^32-1 characters and every such replacement of characters; for the conversion every document", "why_tests_cant": "All inputs in all alphabets.", "anchors": ["src/ast1/document.rs: FromStr", "src/ast2/document.rs: FromStr, TryFrom", "src/ast3/document.rs: FromStr, TryFrom"]}
{"id": "C63", "title": "Error messages tell everything", "statement": "The text of an error determines the error: two errors that differ in line, kind, bracket, name or number have different texts. The text is a single line whatever the names in the source contain, gives the line in decimal, and gives the name of an environment verbatim if none of its characters needs an escape.", "quantifier": "every error value, with names of any characters and numbers of any size", "why_tests_cant": "All error values and all names.", "anchors": ["src/error.rs: Display", "src/internal_error.rs: Display"]}
{"id": "C64", "title": "Sources whose brackets nest are accepted", "statement": "If the unescaped brackets of a source, of all three kinds, match and nest, comments left out, and no escaped opening bracket follows a control word (a new word has begun since the last control word or closing bracket), stage-1 parsing succeeds.", "quantifier": "every string of fewer than 2^32-1 characters", "why_tests_cant": "All inputs.", "anchors": ["src/ast1/document.rs: FromStr"]}
{"id": "C65", "title": "The Display of a validated document is accepted", "statement": "Every document that validate accepts is written by Display as a source that stage-1 parsing accepts.", "quantifier": "every validated document", "why_tests_cant": "All documents that can be built.", "anchors": ["src/ast1/document.rs: FromStr, Display, Validate", "src/ast1/command.rs: Validate"]}
{"id": "C66", "title": "The running time of the conversion to stage 2", "statement": "Converting a stage-1 document takes at most n*n iterations of the loop over chunks, recursive calls included, and at most n*(D+1) when the environments of the result are nested at most D deep; the documented worst case, k times \\begin{a} followed by k times \\end{a}, takes exactly k*(k+1).", "quantifier": "every stage-1 document, accepted or not, every k and D", "why_tests_cant": "A bound for all inputs, and a family of inputs of every size.", "anchors": ["src/ast2/mod.rs: Performance", "src/ast2/document.rs: TryFrom"]}
{"id": "C67", "title": "The running time of the conversion to stage 3", "statement": "Converting a stage-2 document takes at most 19 loop iterations for each chunk and each character of the document, recursive calls included: linear, although the documentation assumes O(n^2). Parsing a source of n characters to stage 3 takes at most 2*n*n+38*n.", "quantifier": "every stage-2 document, accepted or not; every source of fewer than 2^32-1 characters", "why_tests_cant": "A bound for all inputs.", "anchors": ["src/ast3/mod.rs: Performance", "src/ast3/mathsblock.rs: from_chunks", "src/ast3/paragraph.rs: from_chunks", "src/ast3/document.rs: TryFrom"]}
{"id": "C68", "title": "When parsed and converted documents are valid", "statement": "A parsed stage-2 or stage-3 document passes validate exactly when its top-level line numbers add up, no text contains a stray closing bracket and no environment name a special character; converting a valid stage-1 document gives a valid stage-2 document exactly when every top-level \\begin is written on one line and environment names are free of special characters; a stage-3 document with anything after its document environment is valid only if that environment ends on line 1, so an ordinary file with a final newline is parsed to an invalid document.", "quantifier": "every source of fewer than 2^32-1 characters and every valid stage-1 document; stage 3: fewer than 2^31 newlines, debug builds", "why_tests_cant": "An equivalence over all sources and all documents at every depth.", "anchors": ["src/ast2/document.rs: TryFrom, validate", "src/ast3/document.rs: TryFrom, validate"]}
{"id": "C69", "title": "Documents built by pushing", "statement": "Pushing the chunks of a document one by one with push_chunk succeeds exactly when the document is valid, and the result is the document with neighbouring texts joined; pushing variants with push succeeds exactly when each is valid, and the result is those variants, numbered, with neighbouring texts joined; otherwise the error is that of the first element that does not fit. At stages 1 and 2 text may be pushed in pieces.", "quantifier": "every document, every sequence of variants, every build profile; fewer than 2^32-2 newlines", "why_tests_cant": "Sequences of operations of any length.", "anchors": ["src/ast1/document.rs: push, push_chunk, validate", "src/ast2/document.rs: push, push_chunk, validate", "src/ast3/document.rs: push_*, validate"]}
{"id": "C70", "title": "Exact result of stage 3 without overflow checks", "statement": "In a build without overflow checks the conversion to stage 3 never panics, and what it yields is exactly the declared reading in which the content of a dollar block is renumbered modulo 2^32: the document with all its line numbers, or the error. Where a checked build does not panic, both builds yield the same.", "quantifier": "every list of chunks, every document, every source with fewer than 2^31 newlines; line numbers below 2^32, fewer than 2^32 commands in a list", "why_tests_cant": "All trees of any depth; the wrapped numbers appear only in rare shapes.", "anchors": ["src/ast3/document.rs: TryFrom<ast2::Document>, FromStr", "src/ast3/mathsblock.rs: from_chunks"]}
{"id": "C71", "title": "Maths blocks directly inside each other", "statement": "In a converted document a maths block contains, directly or through other maths blocks, no block of its own kind; there are three kinds (dollars, \\( \\), \\[ \\]), so maths blocks are at most three deep, however the source nests them. Inside a scope, an argument or an environment the count starts afresh.", "quantifier": "every source, every document and list of chunks in the range of C70, every list within the result, every build profile", "why_tests_cant": "Unbounded nesting in the source.", "anchors": ["src/ast3/document.rs: TryFrom<ast2::Document>", "src/ast3/mathsblock.rs: from_chunks"]}
{"id": "C72", "title": "Conversion to stage 3 further down in a file", "statement": "When a document is put below other text (a header without a document environment and without \\documentclass), it is converted exactly as alone: same class, options, body, maths blocks and paragraphs; the header becomes the beginning of the preamble and every top-level line number moves by the number of lines above. If it is rejected alone it is rejected there, with the same kind of error.", "quantifier": "every list of chunks and every document in the range of C70, every pair of sources whose seam is neutral (C60; no text on both sides), every build profile", "why_tests_cant": "Unbounded sources and shifts; every interaction of the header with what follows.", "anchors": ["src/ast3/document.rs: TryFrom<ast2::Document>, FromStr", "src/ast3/mathsblock.rs: from_chunks", "src/ast3/paragraph.rs: from_chunks"]}
{"id": "C73", "title": "Recursion depth", "statement": "Each of the three recursive passes (parsing, recognising environments, recognising maths) has, for an accepted input, exactly one activation per level of nesting of its result plus one: with fewer it cannot complete, with that many it completes with the same result. For any input, rejected ones included, the number of opening brackets of the source plus one suffices for the first two. A stage-3 document is at most 4 times the number of opening brackets plus 3 deep. There is no limit in the code: k brackets around nothing need k+1 activations.", "quantifier": "every source, every document, every list of chunks, every number of activations, every build profile", "why_tests_cant": "Stack use is a function of nesting, which is unbounded; a test only shows some depths to be fine.", "anchors": ["src/ast1/document.rs: FromStr", "src/ast2/document.rs: TryFrom<ast1::Document>", "src/ast3/mathsblock.rs: from_chunks"]}
{"id": "C74", "title": "Documents are not larger than their sources", "statement": "The number of chunks and arguments of a parsed document, at any depth, is at most the number of characters its Display prints, and Display prints at most as many characters as were read: for stage 1, for stage 2, and for the parts of a stage-3 document together. Recognising environments never increases the number of nodes; recognising maths may, but never beyond the number of characters. No text and no paragraph break of a stage-3 document is empty.", "quantifier": "every source (at most 2^31 line breaks for stage 3), every document, every list of chunks, every build profile", "why_tests_cant": "Memory use is bounded for every input or not at all; tests measure some inputs.", "anchors": ["src/ast1/document.rs: FromStr", "src/ast2/document.rs: TryFrom<ast1::Document>", "src/ast3/document.rs: TryFrom<ast2::Document>", "src/ast3/mathsblock.rs: from_chunks"]}
{"id": "C75", "title": "Line numbers influence nothing but line numbers", "statement": "If two stage-1 documents differ only in line numbers (those inside the labels of \\begin and \\end aside, which stage 2 compares), converting them to stage 2 gives documents that differ only in line numbers, or errors of the same type. The same holds for the maths pass, for the paragraph pass, for the conversion of stage-2 documents to stage 3, and for the conversions back from stage 3 to stage 2 and from stage 2 to stage 1. The one difference: with overflow checks either of the two may panic.", "quantifier": "every pair of documents or lists of chunks that differ in line numbers only, parsed or built by hand, every build profile", "why_tests_cant": "Pairs of documents built by hand are not enumerable; a test compares a few.", "anchors": ["src/ast2/document.rs: TryFrom<ast1::Document>", "src/ast3/document.rs: TryFrom<ast2::Document>", "src/ast3/mathsblock.rs: from_chunks", "src/ast3/paragraph.rs"]}
{"id": "C76", "title": "Down to stage 1 and up again", "statement": "Converting a stage-2 document read from a source down to stage 1 and up to stage 2 again gives, without overflow checks, the same document except that every environment is moved down by the newlines between its \\begin and its body and what is directly in that body is moved up by as many (modulo 2^32). It is the same document, line numbers included, exactly when no environment has a newline there. With overflow checks the conversion succeeds exactly when every chunk of such a body is on a later line of the body than there are newlines, and panics otherwise.", "quantifier": "every source of fewer than 2^31 - 1 characters, every profile, and every stage-2 document built by hand with lines from 1 on, labels that print as they are and no \\begin or \\end commands", "why_tests_cant": "The panic needs nested line arithmetic; tests of the round trip use environments whose arguments are on one line.", "anchors": ["src/ast1/document.rs: From<ast2::Document>", "src/ast2/document.rs: TryFrom<ast1::Document>", "src/ast2/chunk.rs: IntoChunks"]}
{"id": "C77", "title": "A push that does not succeed changes nothing", "statement": "If a push, push_chunk, push_unchecked or push_into_unchecked call returns an error or panics (and the panic is caught), the document object is exactly as before. So after any history of calls the document is the one made by the successful calls alone, which all succeed when made without the others; its Display is the original one followed by what they pushed, in order (at stage 3 section by section, everything else untouched); and checked pushes leave a valid document valid at every point of the history, and do not panic.", "quantifier": "every document, every finite sequence of the calls with any arguments, every point of it, every build profile; for validity fewer than 2^32 - 2 newlines in all, at stage 3 texts without a newline", "why_tests_cant": "Unit tests stop at the first error; whether a failing call has already written to the object, at any of its exits, shows only in later calls.", "anchors": ["src/ast1/document.rs: push, push_unchecked, push_chunk, push_chunk_unchecked, push_into_unchecked", "src/ast2/document.rs: push, push_unchecked, push_chunk, push_chunk_unchecked", "src/ast3/document.rs: push_vec, push_chunk_vec, push_body, push_preamable, push_trailing and their _chunk and _unchecked forms"]}
{"id": "C78", "title": "Down to stage 2 and up again", "statement": "A stage-3 document that is converted to stage 2 and converted to stage 3 again comes out, up to line numbers, with the same chunks in the same places, except that of the texts and paragraph breaks directly in a dollar block only the last stays, at the end of the block, while the others move in front of it; class and options are read again from the preamble. So it comes out the same exactly if every dollar block, at any depth, has at most one text or break directly in it (and class and options are those the preamble declares); no character of the stage-2 text is lost in any case; after one round nothing moves any more. Every document parsed or converted from a stage-2 document has the required shape.", "quantifier": "every document of the shape that conversion produces, of any depth, whose text has fewer than 2^32 characters and 2^31 newlines and in whose trailing part no two texts, breaks and dollar blocks touch; release builds; in debug builds the same or a panic", "why_tests_cant": "Tests on a few documents show neither that the only thing that can change is the order of texts in dollar blocks nor that the process settles.", "anchors": ["src/ast3/document.rs: TryFrom<ast2::Document>", "src/ast2/document.rs: From<ast3::Document>", "src/ast3/mathsblock.rs: MathsBlock::from_chunks, IntoChunks for MathsBlock", "src/ast3/paragraph.rs: Paragraph::from_chunks"]}
{"id": "C79", "title": "Up to stage 3 and down again", "statement": "A stage-2 document with exactly one document environment that is converted to stage 3 and back to stage 2 comes out the same to a reader (the same tree of commands, arguments, scopes and environments with the same blanks, and the same characters in between; line numbers and the places where one text chunk ends and the next begins are not looked at) exactly if it is tidy: every maths block has one of the forms recognition keeps. It is also enough that the printed text is the same. Without dollars and bracket commands a document always comes back. With several document environments, or none, the document put together from the preamble, the last environment (or an empty one) and the rest comes out, exactly if that one is tidy. Hence conversion is one-to-one: tidy documents that look different become different stage-3 documents, even if line numbers are not compared.", "quantifier": "every stage-2 document, parsed or built by hand, of any depth, in the range of the counters (every parsed one is); release builds; in debug builds the same or a panic", "why_tests_cant": "Tests on a few documents cannot show that nothing but untidy maths is changed by the round trip, nor that no two documents are confused.", "anchors": ["src/ast3/document.rs: TryFrom<ast2::Document>", "src/ast2/document.rs: From<ast3::Document>", "src/ast3/mathsblock.rs: MathsBlock", "src/ast3/paragraph.rs"]}
{"id": "C80", "title": "Editing a chunk", "statement": "Replacing, through variant_mut or by rebuilding, the contents of one chunk at any depth of a document that passes validation changes the printed text exactly where the old contents were printed. The chunks form a document again (Document::new) exactly if the new contents are acceptable on their own (Chunk::new) and, unless the edited top-level chunk is the last, print as many newlines as the old ones; otherwise the error is that of the new contents, or names the line of the next chunk. Line numbers of nested chunks do not matter. A top-level line number set through line_no_mut is accepted exactly if it is the old one, and an edit that changes the number of newlines is repaired by moving the line numbers of the chunks that follow.", "quantifier": "every stage-1, stage-2 document and section of a stage-3 document that passes validation, every place in it, every new contents; both build profiles; as long as line numbers fit u32", "why_tests_cant": "Tests edit a few documents in a few places; the claim is about every place at every depth and every replacement.", "anchors": ["src/ast1/chunk.rs: variant_mut", "src/ast2/chunk.rs: variant_mut, line_no_mut", "src/ast3/chunk.rs: variant_mut", "src/ast1/document.rs: Document::new", "src/ast2/document.rs: Document::new", "src/ast3/document.rs: Document::new"]}
{"id": "C81", "title": "Nothing but brackets can get lost", "statement": "When a document is converted to stage 3, every character is printed at most as often as in what is kept of the document: everything but the document environments, and the last of these (an empty one if there is none) with the blanks of \\begin at \\end. Only the five characters of \\( \\) \\[ \\] can be printed less often; every other character, the dollars included, is printed exactly as often as before, unless a document put together by hand gives a bracket command arguments, which no parsed document does. Without bracket commands the printed text is a permutation of the old one.", "quantifier": "every stage-2 document (line numbers in u32) whose conversion succeeds, every source under 2^31 newlines that parses; both build profiles; every character", "why_tests_cant": "Tests compare the printed text of a few documents; the claim is about every document and every character.", "anchors": ["src/ast3/mathsblock.rs: MathsBlock::from_chunks", "src/ast3/document.rs: TryFrom<ast2::Document>, Display", "src/ast1/command.rs"]}
{"id": "C82", "title": "What stage-3 errors point at", "statement": "If the conversion to stage 3 fails, the error is of one of four kinds and its line is that of something of that kind in the document: UnexpectedMathsEnd of a \\) or \\], UnclosedMaths of a \\( or \\[ (for an unclosed dollar: line 0 or that of some \\( or \\[ ), DoubleDocumentClass of a \\documentclass after one that declares a class, TooManyArgsDocumentClass of a \\documentclass with several classes, both before the first document environment. Inside scopes, arguments and environments lines are counted anew, between dollars relative to the last text. With overflow checks no line beyond the last one of the source is reported; without them line 4294967295 can be.", "quantifier": "every stage-2 document with u32 line numbers whose conversion fails, every source under 2^31 newlines that stage 2 accepts; both build profiles", "why_tests_cant": "Tests look at the errors of a few sources; the claim is about every source that is rejected.", "anchors": ["src/ast3/mathsblock.rs: MathsBlock::from_chunks", "src/ast3/document.rs: TryFrom<ast2::Document>", "src/error.rs"]}
{"id": "C83", "title": "Stages 1 and 2 convert piece by piece", "statement": "If a list of stage-1 chunks converts to stage 2, then whatever is appended to it converts as it does alone: the results are appended, and an error or a panic of the appended piece is returned unchanged. So pieces that convert on their own can be inserted, removed and reordered. If a list fails or panics, it still does so, with the same error, whatever is appended, with one exception: a \\begin that is not inside anything and is not closed, which the appended chunks may close. Back to stage 1, two lists convert to the concatenation of the results, where the two texts at the seam become one.", "quantifier": "every two lists of stage-1 chunks and of stage-2 chunks, hand-built ones with any line numbers included; both build profiles", "why_tests_cant": "Tests convert a few fixed documents; the claim is about every way to cut a document.", "anchors": ["src/ast2/document.rs: TryFrom<ast1::Document>", "src/ast1/document.rs: From<ast2::Document>"]}
{"id": "C84", "title": "Stage 3 converts piece by piece", "statement": "Appending chunks without a document environment to a stage-2 document that has one leaves everything at stage 3 as it was and appends to the trailing part exactly what the chunks give alone (a \\documentclass there has no effect). Putting chunks without document environment and \\documentclass before a document puts what they give alone before the preamble and changes nothing else. Appending chunks to the content of the (last) document environment appends what they give alone to the body. If the maths recognition of appended chunks, or the conversion of the document other chunks are put before, fails, so does the whole, with the same kind of error; if it panics, the whole does.", "quantifier": "every stage-2 document and every list of stage-2 chunks, hand-built ones included; both build profiles", "why_tests_cant": "Tests convert a few fixed documents; the claim is about every document and every addition.", "anchors": ["src/ast3/document.rs: TryFrom<ast2::Document>", "src/ast3/mathsblock.rs: MathsBlock::from_chunks"]}
{"id": "C85", "title": "What a longer source keeps", "statement": "If a source and one that begins with it are both accepted, the tree of the longer one begins with the tree of the shorter one, except for its end: a last text may go on, a last command may get further arguments, a last label without arguments may go on if it is a word, and blanks after a last command may turn out to be the beginning of a text (then one that starts on another line) or of the blanks before an argument. All chunks but the last two stay as they are, with their line numbers. At stage 2 the same holds, and a last command may also turn out to be the beginning of \\begin.", "quantifier": "every string and every continuation of it, both build profiles in any combination", "why_tests_cant": "Tests parse a few fixed sources; incremental parsing relies on this for every place at which a source can be cut.", "anchors": ["src/ast1/document.rs: FromStr", "src/ast2/document.rs: FromStr, TryFrom<ast1::Document>"]}
{"id": "C86", "title": "What can be completed", "statement": "A source rejected at stage 2 is the beginning of an accepted one only if the error says that a scope, an argument or an environment is unclosed, or that a \\begin or \\end has no label and the source ends with it. At stage 3 only if the error is one of these, or unclosed maths, or a second \\documentclass with which the source ends. So after any other error (misplaced closing bracket, unexpected \\end, too many arguments, unexpected end of maths, ...) no continuation is accepted.", "quantifier": "every rejected string and every continuation; stage 2 both build profiles in any combination, stage 3 every build profile", "why_tests_cant": "Tests reject a few fixed sources; an editor that waits for more input relies on it for every source.", "anchors": ["src/ast2/document.rs: FromStr, TryFrom<ast1::Document>", "src/ast3/document.rs: TryFrom<ast2::Document>", "src/ast3/mathsblock.rs: MathsBlock::from_chunks"]}
{"id": "C87", "title": "What a longer source keeps at stage 3", "statement": "If a source and one that begins with it are both accepted at stage 3, then the preamble and the chunks behind the document environment keep all but their last three chunks, with their line numbers; a document class that was read stays the class, and options are only added behind those read. Once a document environment has been read, the preamble, the class and the options are final, and so are the body and its arguments unless a second document environment follows.", "quantifier": "every string with fewer than 2^31 line breaks and every continuation of it (up to the size limit), every build profile", "why_tests_cant": "Tests parse a few fixed sources; what is shown while more of a file arrives relies on it at every place where the file can be cut.", "anchors": ["src/ast3/document.rs: FromStr, TryFrom<ast2::Document>", "src/ast3/mathsblock.rs: MathsBlock::from_chunks", "src/ast3/paragraph.rs: Paragraph::from_chunks"]}
{"id": "C88", "title": "No maths delimiter survives stage 3", "statement": "In every stage-3 document that comes out of a conversion, at every place and at every depth, no text contains a dollar sign or is empty, no command is one of the brackets of maths, and a paragraph break is nothing but blanks. No command is made up either: every command name in it is that of a command of the stage-2 document, and in a document read from a string none of them is begin or end.", "quantifier": "every stage-2 document including hand-built ones, every string, every build profile", "why_tests_cant": "Tests look at the top level of a few documents; maths inside an argument inside maths, or a bracket at an unexpected place, is where a delimiter would be left as text or as a command.", "anchors": ["src/ast3/mathsblock.rs: MathsBlock::from_chunks", "src/ast3/paragraph.rs: Paragraph::from_chunks", "src/ast3/document.rs: TryFrom<ast2::Document>"]}
{"id": "C89", "title": "A source written into an environment", "statement": "Write a source between a \\begin with its arguments and the matching \\end: the result is that environment with, as its content, exactly what the source is when read alone (same lines, counted from the environment). At stage 3 the content of a document environment becomes the body, that of any other the content; a source that is rejected alone at stage 3 is rejected there with the same error. Environments can be put around each other like this to any depth. This is for sources that have no open comment or escape at their end, do not begin like one more argument, do not end with a control word and blanks over several lines, and whose stage-2 conversion succeeds; each of these is needed.", "quantifier": "every string that can stand in an environment, every pair of strings that is an environment when put together, every build profile", "why_tests_cant": "Tests use one environment and one content; that neither the name, the arguments and their line breaks, nor the content can influence the other is a statement about all of them.", "anchors": ["src/ast1/document.rs: from_chars", "src/ast2/document.rs: TryFrom<ast1::Document>", "src/ast2/environment.rs", "src/ast3/environment.rs", "src/ast3/document.rs: TryFrom<ast2::Document>"]}
