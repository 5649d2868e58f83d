{
 "C01": [
  "proved",
  "For every string below the program's own u32 limit, both profiles; also both profiles agree."
 ],
 "C02": [
  "partial",
  "The documented claim is false of the code (five independent witnesses in the _refuted theorems). Proved instead: Display is always a degradation of the source (deletions, brackets turned curly), hence equal to it when nothing is missing. C02_sources_partial: the sources that are reproduced are exactly the texts of canonical documents (C09)."
 ],
 "C03": [
  "proved",
  "Exact equation on content characters."
 ],
 "C04": [
  "proved",
  "One comment or all comments at once, if no comment contains a backslash; the backslash guard is shown necessary by a _refuted theorem."
 ],
 "C05": [
  "proved",
  ""
 ],
 "C06": [
  "partial",
  "False in exactly two corner cases (refuted by witness); the partial theorem gives the exact line number of every chunk at every depth, with the two corner cases as an explicit extra_line term."
 ],
 "C07": [
  "proved",
  ""
 ],
 "C08": [
  "proved",
  ""
 ],
 "C10": [
  "proved",
  "Also an exact characterisation of when validate() accepts a parsed document."
 ],
 "C11": [
  "proved",
  "All chunk kinds, scopes, commands, environments and maths blocks of stages 1-3, documents of stages 1 and 2 (the stage-3 document is C36)."
 ],
 "C12": [
  "proved",
  "Stages 1, 2, 3; stage 3 with the frame condition on the other sections."
 ],
 "C13": [
  "proved",
  "Stages 1 and 2 (stage 3 is C37)."
 ],
 "C14": [
  "proved",
  "Exact result of push and push_chunk for every document (valid or not) and every chunk, stages 1, 2, 3."
 ],
 "C15": [
  "proved",
  "Stages 1, 2, 3."
 ],
 "C41": [
  "proved",
  ""
 ],
 "C37": [
  "partial",
  "The claim is false (C37_push_refuted: two texts joined into one with a paragraph break). The partial theorems state exactly when a single push keeps validity (iff) and that any history of pushes whose texts have no newline does."
 ],
 "C16": [
  "proved",
  "Every stage-1 document, hand-built ones included."
 ],
 "C17": [
  "proved",
  "Acceptance iff well nested, for parsed documents in both profiles and for every document in Release; well nestedness is also shown to be stack matching."
 ],
 "C18": [
  "proved",
  "At every depth of every converted document, hand-built sources included."
 ],
 "C19": [
  "proved",
  "All strings, both profiles. The _refuted theorem shows the extra fact that a hand-built document can panic in Debug."
 ],
 "C22": [
  "proved",
  ""
 ],
 "C23": [
  "partial",
  "False of the code for multi-line \\begin arguments (refuted by witness); the partial theorems give the exact line of every environment and chunk."
 ],
 "C24": [
  "partial",
  "Line claim false of the code inside scopes/arguments (refuted by witnesses). Proved: exact top-level line when nested parts are fine, and an exact iff description of every error the code returns on a parsed document."
 ],
 "C40": [
  "proved",
  "Every input including hand-built documents; both profiles."
 ],
 "C42": [
  "proved",
  "iff, both profiles."
 ],
 "C09": [
  "proved",
  "Both directions: the canonical documents are exactly the fixed points of Display followed by parsing; plus the exact condition under which re-parsing the Display of a parsed document returns it."
 ],
 "C20": [
  "partial",
  "False of the code: line numbers of a multi-line \\begin and of its \\end come back too large (refuted). Proved: the exact document that comes back (restored), and that it is the original iff every \\begin has its arguments on one line. Bound 2*(length+1) < 2^32 because the code adds the argument newlines twice."
 ],
 "C21": [
  "proved",
  "For all hand-built documents with plain labels, and for every parsed document (there also: no panic in either profile, under the bound 2*(length+1) < 2^32)."
 ],
 "C43": [
  "proved",
  "Also refuted for round and square arguments."
 ],
 "C25": [
  "proved",
  "Every list of chunks whose newline counts and line numbers are within the code's i32/u32 range (text_in_range); also totality."
 ],
 "C26": [
  "proved",
  "The result is exactly the declared split (iff), and that split is unique."
 ],
 "C27": [
  "proved",
  "Line numbers included."
 ],
 "C28": [
  "partial",
  "False of the code for breaks of three or more newlines (refuted); the partial theorem gives the exact line of every piece."
 ],
 "C29": [
  "partial",
  "The documented claim is false of the code (three witnesses). Proved: exact iff description (tidy) of the chunk lists whose Display is kept, and the output is never longer."
 ],
 "C31": [
  "partial",
  "False with overflow checks (two witnesses). Proved without overflow checks for every string and every hand-built stage-2 document; with them, the exact set of sources that panic (iff)."
 ],
 "C30": [
  "proved",
  "Also nested brackets of the same kind (matched by depth, their commands dropped) and propagation of body errors."
 ],
 "C44": [
  "partial",
  "All recognition claims proved in full; the line of an unclosed dollar is wrong in the code (refuted by witness), and C44_unclosed_line_exact_partial gives the line it does report: that of the last bracketed maths block before it in the same list, or 0."
 ],
 "C45": [
  "proved",
  "The line of a propagated UnclosedMaths error is not claimed (see C44)."
 ],
 "C38": [
  "proved",
  "Every modelled operation of the three stages; the C01/C19-style theorems say when no panic happens."
 ],
 "C33": [
  "proved",
  "Exact: declared_class (SpecClass3.v) decides class and errors; the claim's clauses are corollaries. A \\documentclass without curly argument declares nothing, so another may follow."
 ],
 "C34": [
  "partial",
  "The claim is false of the code (C34_*_refuted: the first non-blank character of every option is lost, and the recorded value is the key). Proved instead: exactly what is recorded for every option; an option can be rebuilt iff it is blank."
 ],
 "C32": [
  "partial",
  "The claim is false of the code (C32_*_refuted). Proved instead, for every source: it prints at stage 3 as at stage 2 if and only if it has exactly one document environment, with equal blanks at begin and end, and is tidy (C32_sources_exact_partial); also what is printed with different blanks or without a document environment."
 ],
 "C35": [
  "partial",
  "The claim is false of the code (C35_*_refuted: overflow panic on one-line documents, loss of the blanks of \\end). Proved for every stage-3 document: never panics without overflow checks, Display kept iff the blanks agree; with overflow checks, an exact condition for documents whose maths blocks are numbered from 1 and whose line numbers stay in range."
 ],
 "C36": [
  "partial",
  "The claim is false of the code (C36_lines_refuted). Proved: the exact count, and that it is right iff there is no newline in the blanks and arguments of \\begin{document}."
 ],
 "C39": [
  "proved",
  "The counted parser (Cost1.v) erases to the parser; bound n^2, tight family, and (depth+1)*n for shallow documents."
 ],
 "C46": [
  "proved",
  "SpecFail1.v is the specification; every token list is accepted or rejected, with one error."
 ],
 "C47": [
  "proved",
  "Literal table, inverse functions for every character, conversions."
 ],
 "C48": [
  "proved",
  "Derived equality modelled function by function (Ast1.v, Api.v); all types of the three stages."
 ],
 "C49": [
  "proved",
  "All constructors; stage-3 ones under the newline bound of the u32 counter."
 ],
 "C50": [
  "proved",
  "SpecFault.v is the specification of the first fault; both directions."
 ],
 "C51": [
  "proved",
  "All unchecked pushes except push_into_unchecked (see C52)."
 ],
 "C52": [
  "proved",
  "Existence and uniqueness of the declared result are proved too. Outside the guards (line 0, u32 overflow, label that does not parse) the code panics or wraps: see C21, C38."
 ],
 "C53": [
  "proved",
  "Existence and uniqueness of the declared result are proved too. The off-by-one line of the document environment is part of the specification (a finding). Panics outside the guards: C35."
 ],
 "C54": [
  "proved",
  "Both directions for Ok, Err and Panic in debug builds; Ok and Err carry over to release. The surprising parts of the reading (leaking texts, stale line of an unclosed dollar) are in the specification because the code does them (findings)."
 ],
 "C55": [
  "proved",
  "Both directions for Ok, Err and Panic in debug builds; Ok and Err carry over to release."
 ],
 "C56": [
  "proved",
  "Composes C41, C46, C42, C24 and C55 into iff theorems about from_str of stages 2 and 3 whose right-hand sides mention no function of the model."
 ],
 "C57": [
  "proved",
  "Composes C09, C42 and the Display lemma of C18; the parsed direction needs that the conversion is one-to-one (C58)."
 ],
 "C58": [
  "proved",
  "Rule induction over the declarative conversion, with the line-number invariant of parsed documents; false for hand-built documents (example)."
 ],
 "C59": [
  "proved",
  "From C57 and C32; beside it a source for which the second parse differs because a condition fails."
 ],
 "C60": [
  "proved",
  "Rule induction over the grammar (C41), the failures (C46) and the conversion (C42); beside it examples that each condition is needed. The two possible lines of a stage-2 error are C24's finding."
 ],
 "C61": [
  "proved",
  "From the declarative failures of C46: the token list can be extended."
 ],
 "C62": [
  "proved",
  "A simulation, function by function, of the run on the renamed source; no bound on the characters used."
 ],
 "C63": [
  "proved",
  "Display writes the derived Debug form; the Debug of u32, char and str is modelled, and the standard library's table of printable characters is an arbitrary parameter of the theorems."
 ],
 "C64": [
  "proved",
  "By rule induction over the declarative failures of C46: none of them can occur. Examples that both conditions are needed: the code rejects $\\alpha=\\{1\\}$."
 ],
 "C65": [
  "partial",
  "False of the code: validate does not look at what stands before an argument, and accepts empty labels and bracket labels (three _refuted witnesses). Proved when those three are as they should be."
 ],
 "C66": [
  "proved",
  "A copy of the conversion with a step counter, equal to the model once the counter is forgotten (C66_counter_erased). Steps are iterations of the loop over chunks; comparing labels and writing labels and arguments of \\begin to count lines is not counted."
 ],
 "C67": [
  "proved",
  "As C66; every loop over chunks, characters and options of this stage is counted. The invariant: in the buffer of an open maths block no delimiter of its own kind is left, so the recursion is at most three deep on the same chunks."
 ],
 "C68": [
  "proved",
  "Both directions, all build profiles. The _refuted theorems show that the conditions cannot be dropped, and that the result of parsing is not always valid."
 ],
 "C69": [
  "proved",
  "All three stages, at stage 3 for each section and for the whole document. That text cannot be pushed in pieces at stage 3 is C37_push_refuted."
 ],
 "C70": [
  "proved",
  "Companion of C54 and C55, which are the same for builds with overflow checks. The specification SpecWrap.v differs from SpecReads.v/SpecRead3.v only in moved32 and in having no overflow case."
 ],
 "C71": [
  "proved",
  "Consumers of the stage-3 tree can rely on it; it is also what makes the conversion linear (C67). The price is that the inner delimiters of a nested block of the same kind are dropped (C29)."
 ],
 "C72": [
  "proved",
  "The content of a bracketed maths block has the numbering of the enclosing list and moves with it; every other content is numbered on its own and stays. The line of an error moves, stays (errors inside contents, C24) or, for an unclosed dollar, is the line of the last bracket (C32)."
 ],
 "C73": [
  "proved",
  "Activations are counted by the fuel of the model's recursive functions, one unit per nested call. Stack frames themselves (their size, the stack limit) are not modelled."
 ],
 "C74": [
  "proved",
  "Counts nodes and characters of the model's documents, not bytes of the heap."
 ],
 "C75": [
  "proved",
  "Labels of \\begin and \\end: compared with their line numbers by the code (src/ast2/document.rs:304), shown by C75_example_label."
 ],
 "C76": [
  "proved",
  "Exact behaviour, the panic included; see Findings."
 ],
 "C77": [
  "proved",
  "About a second model of the pushes, statement by statement with explicit state (Stateful.v), proved to agree with the functions used elsewhere (C77_returns*)."
 ],
 "C78": [
  "proved",
  "Hypotheses on a document are decidable and are met by every parsed document (C78_converted), apart from the size and the condition on the trailing part."
 ],
 "C79": [
  "proved",
  "tidy is defined in SpecMaths3.v; untidy documents that do not come back are shown in C79_refuted."
 ],
 "C80": [
  "proved",
  "changedN of SpecEdit.v says what an edit is; references are modelled as assignment (Api.v)."
 ],
 "C81": [
  "proved",
  "bare, bracketless, reprinted are in SpecLost.v. The two _refuted theorems show that the exceptions (the bracket characters; arguments given to bracket commands by hand) do occur."
 ],
 "C82": [
  "proved",
  "blames and blames_class of SpecBlame3.v say what an error may point at. The _refuted theorems show the stated exceptions: wrapped line numbers without overflow checks, lines relative to a scope, line 0 for a dollar."
 ],
 "C83": [
  "proved",
  "Stated with the conversions themselves. join1 (SpecBuild.v) joins adjacent texts. The exception is shown real by C83_example_cured."
 ],
 "C84": [
  "proved",
  "Stated with the conversions themselves; the added piece is converted alone with the same function. C84_two_classes shows that the condition on class commands is needed. Panics of an appended piece are covered for the maths recognition (C84_after_panic)."
 ],
 "C85": [
  "proved",
  "continues and continues2 (SpecPrefix.v) list the ways of going on; the examples show that they occur."
 ],
 "C86": [
  "proved",
  "Necessary conditions; the examples show that each of the kinds is completed for some source. The part for stage 1 is C61."
 ],
 "C87": [
  "proved",
  "Three is the best bound (C87_example_three). C87_body needs that there is one document environment only: a second one replaces the body (C87_example_second)."
 ],
 "C88": [
  "proved",
  "No hypothesis besides the conversion being successful. Stage 2 keeps all the delimiters (C88_example_stage2)."
 ],
 "C89": [
  "proved",
  "C89_named_frame gives the frames \\begin{name}, \\end{name} for every plain name. Counterexamples for each condition: C89_argument, C89_blanks, C89_rejected."
 ]
}