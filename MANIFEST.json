{
 "claims": [
  {
   "property": "C01",
   "status": "proved",
   "theorems": [
    "C01_parse_total",
    "C01_profiles_agree"
   ],
   "note": "For every string below the program's own u32 limit, both profiles; also both profiles agree."
  },
  {
   "property": "C02",
   "status": "partial",
   "theorems": [
    "C02_display_refuted",
    "C02_display_refuted_more",
    "C02_display_degrades_partial",
    "C02_display_exact_partial",
    "C02_sources_partial"
   ],
   "note": "The documented claim is false of the code (five independent witnesses in the _refuted theorems). Proved instead: Display is always a degradation of the source (deletions, brackets turned curly), hence equal to it when nothing is missing. C02_sources_partial: the sources that are reproduced are exactly the texts of canonical documents (C09)."
  },
  {
   "property": "C03",
   "status": "proved",
   "theorems": [
    "C03_content"
   ],
   "note": "Exact equation on content characters."
  },
  {
   "property": "C04",
   "status": "proved",
   "theorems": [
    "C04_comment_irrelevant",
    "C04_all_comments",
    "C04_backslash_in_comment_refuted"
   ],
   "note": "One comment or all comments at once, if no comment contains a backslash; the backslash guard is shown necessary by a _refuted theorem."
  },
  {
   "property": "C05",
   "status": "proved",
   "theorems": [
    "C05_line_count"
   ],
   "note": ""
  },
  {
   "property": "C06",
   "status": "partial",
   "theorems": [
    "C06_lines_refuted",
    "C06_lines_partial"
   ],
   "note": "False in exactly two corner cases (refuted by witness); the partial theorem gives the exact line number of every chunk at every depth, with the two corner cases as an explicit extra_line term."
  },
  {
   "property": "C07",
   "status": "proved",
   "theorems": [
    "C07_errors"
   ],
   "note": ""
  },
  {
   "property": "C08",
   "status": "proved",
   "theorems": [
    "C08_no_empty_text",
    "C08_no_adjacent"
   ],
   "note": ""
  },
  {
   "property": "C09",
   "status": "proved",
   "theorems": [
    "C09_inverse_iff",
    "C09_parsed_iff"
   ],
   "note": "Both directions: the canonical documents are exactly the fixed points of Display followed by parsing; plus the exact condition under which re-parsing the Display of a parsed document returns it."
  },
  {
   "property": "C10",
   "status": "proved",
   "theorems": [
    "C10_labels_valid",
    "C10_only_closing",
    "C10_validate_iff"
   ],
   "note": "Also an exact characterisation of when validate() accepts a parsed document."
  },
  {
   "property": "C11",
   "status": "proved",
   "theorems": [
    "C11_lines_chunk1",
    "C11_lines_scope1",
    "C11_lines_command1",
    "C11_lines_document1",
    "C11_lines_chunk2",
    "C11_lines_scope2",
    "C11_lines_command2",
    "C11_lines_env2",
    "C11_lines_document2",
    "C11_lines_chunk3",
    "C11_lines_scope3",
    "C11_lines_command3",
    "C11_lines_env3",
    "C11_lines_maths3"
   ],
   "note": "All chunk kinds, scopes, commands, environments and maths blocks of stages 1-3, documents of stages 1 and 2 (the stage-3 document is C36)."
  },
  {
   "property": "C12",
   "status": "proved",
   "theorems": [
    "C12_push1",
    "C12_push_chunk1",
    "C12_push_chunk1_list",
    "C12_push2",
    "C12_push_chunk2",
    "C12_push3",
    "C12_push_chunk3"
   ],
   "note": "Stages 1, 2, 3; stage 3 with the frame condition on the other sections."
  },
  {
   "property": "C13",
   "status": "proved",
   "theorems": [
    "C13_history1",
    "C13_history2"
   ],
   "note": "Stages 1 and 2 (stage 3 is C37)."
  },
  {
   "property": "C14",
   "status": "proved",
   "theorems": [
    "C14_push_chunk1",
    "C14_push_chunk1_any",
    "C14_push1_any",
    "C14_push_chunk2_any",
    "C14_push2_any",
    "C14_ends_at2",
    "C14_push_chunk3_any",
    "C14_push3_any",
    "C14_ends_at3"
   ],
   "note": "Exact result of push and push_chunk for every document (valid or not) and every chunk, stages 1, 2, 3."
  },
  {
   "property": "C15",
   "status": "proved",
   "theorems": [
    "C15_validate1",
    "C15_validate2",
    "C15_validate3"
   ],
   "note": "Stages 1, 2, 3."
  },
  {
   "property": "C16",
   "status": "proved",
   "theorems": [
    "C16_display"
   ],
   "note": "Every stage-1 document, hand-built ones included."
  },
  {
   "property": "C17",
   "status": "proved",
   "theorems": [
    "C17_accepts",
    "C17_accepts_any_release",
    "C17_accepts_any",
    "C17_nesting_is_matching"
   ],
   "note": "Acceptance iff well nested, for parsed documents in both profiles and for every document in Release; well nestedness is also shown to be stack matching."
  },
  {
   "property": "C18",
   "status": "proved",
   "theorems": [
    "C18_no_begin_end"
   ],
   "note": "At every depth of every converted document, hand-built sources included."
  },
  {
   "property": "C19",
   "status": "proved",
   "theorems": [
    "C19_parse_total",
    "C19_profiles_agree",
    "C19_hand_built_refuted"
   ],
   "note": "All strings, both profiles. The _refuted theorem shows the extra fact that a hand-built document can panic in Debug."
  },
  {
   "property": "C20",
   "status": "partial",
   "theorems": [
    "C20_identity_refuted",
    "C20_exact_partial",
    "C20_identity_partial",
    "C20_identity_iff_partial"
   ],
   "note": "False of the code: line numbers of a multi-line \\begin and of its \\end come back too large (refuted). Proved: the exact document that comes back (restored), and that it is the original iff every \\begin has its arguments on one line. Bound 2*(length+1) < 2^32 because the code adds the argument newlines twice."
  },
  {
   "property": "C21",
   "status": "proved",
   "theorems": [
    "C21_display",
    "C21_release_total",
    "C21_parsed"
   ],
   "note": "For all hand-built documents with plain labels, and for every parsed document (there also: no panic in either profile, under the bound 2*(length+1) < 2^32)."
  },
  {
   "property": "C22",
   "status": "proved",
   "theorems": [
    "C22_line_count"
   ],
   "note": ""
  },
  {
   "property": "C23",
   "status": "partial",
   "theorems": [
    "C23_env_line_refuted",
    "C23_env_line_partial",
    "C23_chunk_line_partial"
   ],
   "note": "False of the code for multi-line \\begin arguments (refuted by witness); the partial theorems give the exact line of every environment and chunk."
  },
  {
   "property": "C24",
   "status": "partial",
   "theorems": [
    "C24_error_line_refuted",
    "C24_error_line_arg_refuted",
    "C24_error_line_partial",
    "C24_errors_exact_partial",
    "C24_error_kinds"
   ],
   "note": "Line claim false of the code inside scopes/arguments (refuted by witnesses). Proved: exact top-level line when nested parts are fine, and an exact iff description of every error the code returns on a parsed document."
  },
  {
   "property": "C25",
   "status": "proved",
   "theorems": [
    "C25_display"
   ],
   "note": "Every list of chunks whose newline counts and line numbers are within the code's i32/u32 range (text_in_range); also totality."
  },
  {
   "property": "C26",
   "status": "proved",
   "theorems": [
    "C26_exact",
    "C26_unique",
    "C26_pieces"
   ],
   "note": "The result is exactly the declared split (iff), and that split is unique."
  },
  {
   "property": "C27",
   "status": "proved",
   "theorems": [
    "C27_idempotent"
   ],
   "note": "Line numbers included."
  },
  {
   "property": "C28",
   "status": "partial",
   "theorems": [
    "C28_break_line_refuted",
    "C28_lines_partial"
   ],
   "note": "False of the code for breaks of three or more newlines (refuted); the partial theorem gives the exact line of every piece."
  },
  {
   "property": "C29",
   "status": "partial",
   "theorems": [
    "C29_display_refuted",
    "C29_nested_refuted",
    "C29_dollar_refuted",
    "C29_display_exact_partial",
    "C29_never_longer"
   ],
   "note": "The documented claim is false of the code (three witnesses). Proved: exact iff description (tidy) of the chunk lists whose Display is kept, and the output is never longer."
  },
  {
   "property": "C30",
   "status": "proved",
   "theorems": [
    "C30_block",
    "C30_body_error",
    "C30_unexpected_end",
    "C30_unclosed",
    "C30_nested",
    "C30_nested_unclosed"
   ],
   "note": "Also nested brackets of the same kind (matched by depth, their commands dropped) and propagation of body errors."
  },
  {
   "property": "C31",
   "status": "partial",
   "theorems": [
    "C31_debug_exact_partial",
    "C31_release",
    "C31_hand_built_release",
    "C31_debug_refuted",
    "C31_debug_one_command_refuted"
   ],
   "note": "False with overflow checks (two witnesses). Proved without overflow checks for every string and every hand-built stage-2 document; with them, the exact set of sources that panic (iff)."
  },
  {
   "property": "C32",
   "status": "partial",
   "theorems": [
    "C32_sources_exact_partial",
    "C32_no_environment_refuted",
    "C32_blanks_refuted",
    "C32_two_environments_refuted",
    "C32_maths_refuted",
    "C32_display_exact_partial",
    "C32_display_blanks_partial",
    "C32_display_no_environment_partial"
   ],
   "note": "The claim is false of the code (C32_*_refuted). Proved instead, for every source: it prints at stage 3 as at stage 2 if and only if it has exactly one document environment, with equal blanks at begin and end, and is tidy (C32_sources_exact_partial); also what is printed with different blanks or without a document environment."
  },
  {
   "property": "C33",
   "status": "proved",
   "theorems": [
    "C33_class_exact",
    "C33_preamble_exists",
    "C33_single",
    "C33_absent",
    "C33_double",
    "C33_too_many",
    "C33_no_class_argument",
    "C33_after_ignored"
   ],
   "note": "Exact: declared_class (SpecClass3.v) decides class and errors; the claim's clauses are corollaries. A \\documentclass without curly argument declares nothing, so another may follow."
  },
  {
   "property": "C34",
   "status": "partial",
   "theorems": [
    "C34_first_char_refuted",
    "C34_rebuild_refuted",
    "C34_options_exact_partial",
    "C34_pieces_unique",
    "C34_read_unique",
    "C34_rebuilt_iff_blank_partial"
   ],
   "note": "The claim is false of the code (C34_*_refuted: the first non-blank character of every option is lost, and the recorded value is the key). Proved instead: exactly what is recorded for every option; an option can be rebuilt iff it is blank."
  },
  {
   "property": "C35",
   "status": "partial",
   "theorems": [
    "C35_panic_refuted",
    "C35_maths_panic_refuted",
    "C35_display_refuted",
    "C35_display_exact_partial",
    "C35_release",
    "C35_debug_exact_partial"
   ],
   "note": "The claim is false of the code (C35_*_refuted: overflow panic on one-line documents, loss of the blanks of \\end). Proved for every stage-3 document: never panics without overflow checks, Display kept iff the blanks agree; with overflow checks, an exact condition for documents whose maths blocks are numbered from 1 and whose line numbers stay in range."
  },
  {
   "property": "C36",
   "status": "partial",
   "theorems": [
    "C36_lines_refuted",
    "C36_lines_exact_partial"
   ],
   "note": "The claim is false of the code (C36_lines_refuted). Proved: the exact count, and that it is right iff there is no newline in the blanks and arguments of \\begin{document}."
  },
  {
   "property": "C37",
   "status": "partial",
   "theorems": [
    "C37_push_refuted",
    "C37_push_iff_partial",
    "C37_push_chunk_iff_partial",
    "C37_history_partial"
   ],
   "note": "The claim is false (C37_push_refuted: two texts joined into one with a paragraph break). The partial theorems state exactly when a single push keeps validity (iff) and that any history of pushes whose texts have no newline does."
  },
  {
   "property": "C38",
   "status": "proved",
   "theorems": [
    "C38_from_str",
    "C38_try_from",
    "C38_paragraph",
    "C38_from",
    "C38_lines",
    "C38_validate",
    "C38_push",
    "C38_push_chunk"
   ],
   "note": "Every modelled operation of the three stages; the C01/C19-style theorems say when no panic happens."
  },
  {
   "property": "C39",
   "status": "proved",
   "theorems": [
    "C39_counter_erased",
    "C39_quadratic",
    "C39_worst_case",
    "C39_linear_in_depth"
   ],
   "note": "The counted parser (Cost1.v) erases to the parser; bound n^2, tight family, and (depth+1)*n for shallow documents."
  },
  {
   "property": "C40",
   "status": "proved",
   "theorems": [
    "C40_try_from2_terminates",
    "C40_maths_terminates",
    "C40_try_from3_terminates",
    "C40_from_str3_terminates"
   ],
   "note": "Every input including hand-built documents; both profiles."
  },
  {
   "property": "C41",
   "status": "proved",
   "theorems": [
    "C41_grammar"
   ],
   "note": ""
  },
  {
   "property": "C42",
   "status": "proved",
   "theorems": [
    "C42_conversion"
   ],
   "note": "iff, both profiles."
  },
  {
   "property": "C43",
   "status": "proved",
   "theorems": [
    "C43_curly_argument",
    "C43_other_brackets_refuted"
   ],
   "note": "Also refuted for round and square arguments."
  },
  {
   "property": "C44",
   "status": "partial",
   "theorems": [
    "C44_inline",
    "C44_display",
    "C44_no_dollar",
    "C44_unclosed",
    "C44_unclosed_line_refuted",
    "C44_unclosed_line_exact_partial"
   ],
   "note": "All recognition claims proved in full; the line of an unclosed dollar is wrong in the code (refuted by witness), and C44_unclosed_line_exact_partial gives the line it does report: that of the last bracketed maths block before it in the same list, or 0."
  },
  {
   "property": "C45",
   "status": "proved",
   "theorems": [
    "C45_compose",
    "C45_compose_error",
    "C45_paragraphs_compose"
   ],
   "note": "The line of a propagated UnclosedMaths error is not claimed (see C44)."
  },
  {
   "property": "C46",
   "status": "proved",
   "theorems": [
    "C46_errors_exact",
    "C46_dichotomy"
   ],
   "note": "SpecFail1.v is the specification; every token list is accepted or rejected, with one error."
  },
  {
   "property": "C47",
   "status": "proved",
   "theorems": [
    "C47_brackets",
    "C47_inverse",
    "C47_conversions"
   ],
   "note": "Literal table, inverse functions for every character, conversions."
  },
  {
   "property": "C48",
   "status": "proved",
   "theorems": [
    "C48_stage1",
    "C48_stage2",
    "C48_stage3"
   ],
   "note": "Derived equality modelled function by function (Ast1.v, Api.v); all types of the three stages."
  },
  {
   "property": "C49",
   "status": "proved",
   "theorems": [
    "C49_stage1",
    "C49_stage2",
    "C49_stage3",
    "C49_document3"
   ],
   "note": "All constructors; stage-3 ones under the newline bound of the u32 counter."
  },
  {
   "property": "C50",
   "status": "proved",
   "theorems": [
    "C50_stage1",
    "C50_stage2",
    "C50_stage3",
    "C50_chunks"
   ],
   "note": "SpecFault.v is the specification of the first fault; both directions."
  },
  {
   "property": "C51",
   "status": "proved",
   "theorems": [
    "C51_unchecked1",
    "C51_unchecked2",
    "C51_unchecked3"
   ],
   "note": "All unchecked pushes except push_into_unchecked (see C52)."
  },
  {
   "property": "C52",
   "status": "proved",
   "theorems": [
    "C52_chunk",
    "C52_push_into",
    "C52_document",
    "C52_unique",
    "C52_exists"
   ],
   "note": "Existence and uniqueness of the declared result are proved too. Outside the guards (line 0, u32 overflow, label that does not parse) the code panics or wraps: see C21, C38."
  },
  {
   "property": "C53",
   "status": "proved",
   "theorems": [
    "C53_chunk",
    "C53_document",
    "C53_unique",
    "C53_exists"
   ],
   "note": "Existence and uniqueness of the declared result are proved too. The off-by-one line of the document environment is part of the specification (a finding). Panics outside the guards: C35."
  },
  {
   "property": "C54",
   "status": "proved",
   "theorems": [
    "C54_ok",
    "C54_error",
    "C54_panic",
    "C54_exists",
    "C54_unique",
    "C54_release_ok",
    "C54_release_error",
    "C54_parsed"
   ],
   "note": "Both directions for Ok, Err and Panic in debug builds; Ok and Err carry over to release. The surprising parts of the reading (leaking texts, stale line of an unclosed dollar) are in the specification because the code does them (findings)."
  },
  {
   "property": "C55",
   "status": "proved",
   "theorems": [
    "C55_ok",
    "C55_error",
    "C55_panic",
    "C55_exists",
    "C55_unique",
    "C55_release_ok",
    "C55_release_error"
   ],
   "note": "Both directions for Ok, Err and Panic in debug builds; Ok and Err carry over to release."
  },
  {
   "property": "C56",
   "status": "proved",
   "theorems": [
    "C56_stage2_ok",
    "C56_stage2_error",
    "C56_stage3_ok",
    "C56_stage3_error",
    "C56_profiles"
   ],
   "note": "Composes C41, C46, C42, C24 and C55 into iff theorems about from_str of stages 2 and 3 whose right-hand sides mention no function of the model."
  },
  {
   "property": "C57",
   "status": "proved",
   "theorems": [
    "C57_inverse_iff",
    "C57_parsed_iff"
   ],
   "note": "Composes C09, C42 and the Display lemma of C18; the parsed direction needs that the conversion is one-to-one (C58)."
  },
  {
   "property": "C58",
   "status": "proved",
   "theorems": [
    "C58_one_to_one"
   ],
   "note": "Rule induction over the declarative conversion, with the line-number invariant of parsed documents; false for hand-built documents (example)."
  },
  {
   "property": "C59",
   "status": "proved",
   "theorems": [
    "C59_round_trip"
   ],
   "note": "From C57 and C32; beside it a source for which the second parse differs because a condition fails."
  },
  {
   "property": "C60",
   "status": "proved",
   "theorems": [
    "C60_ok",
    "C60_error",
    "C60_word",
    "C60_stage2_ok",
    "C60_stage2_error"
   ],
   "note": "Rule induction over the grammar (C41), the failures (C46) and the conversion (C42); beside it examples that each condition is needed. The two possible lines of a stage-2 error are C24's finding."
  },
  {
   "property": "C61",
   "status": "proved",
   "theorems": [
    "C61_closing_stays",
    "C61_completed"
   ],
   "note": "From the declarative failures of C46: the token list can be extended."
  },
  {
   "property": "C62",
   "status": "proved",
   "theorems": [
    "C62_stage1",
    "C62_stage2",
    "C62_stage3",
    "C62_convert3",
    "C62_blanks",
    "C62_letters"
   ],
   "note": "A simulation, function by function, of the run on the renamed source; no bound on the characters used."
  },
  {
   "property": "C63",
   "status": "proved",
   "theorems": [
    "C63_distinct",
    "C63_internal_distinct",
    "C63_one_line",
    "C63_line",
    "C63_name",
    "C63_expected_got"
   ],
   "note": "Display writes the derived Debug form; the Debug of u32, char and str is modelled, and the standard library's table of printable characters is an arbitrary parameter of the theorems."
  },
  {
   "property": "C64",
   "status": "proved",
   "theorems": [
    "C64_accepted",
    "C64_no_escapes"
   ],
   "note": "By rule induction over the declarative failures of C46: none of them can occur. Examples that both conditions are needed: the code rejects $\\alpha=\\{1\\}$."
  },
  {
   "property": "C65",
   "status": "partial",
   "theorems": [
    "C65_display_partial",
    "C65_prec_refuted",
    "C65_label_refuted",
    "C65_symbol_refuted"
   ],
   "note": "False of the code: validate does not look at what stands before an argument, and accepts empty labels and bracket labels (three _refuted witnesses). Proved when those three are as they should be."
  },
  {
   "property": "C66",
   "status": "proved",
   "theorems": [
    "C66_counter_erased",
    "C66_quadratic",
    "C66_linear_in_depth",
    "C66_exact",
    "C66_worst_case",
    "C66_source",
    "C66_source_shallow"
   ],
   "note": "A copy of the conversion with a step counter, equal to the model once the counter is forgotten (C66_counter_erased). Steps are iterations of the loop over chunks; comparing labels and writing labels and arguments of \\begin to count lines is not counted."
  },
  {
   "property": "C67",
   "status": "proved",
   "theorems": [
    "C67_counter_erased",
    "C67_linear",
    "C67_source"
   ],
   "note": "As C66; every loop over chunks, characters and options of this stage is counted. The invariant: in the buffer of an open maths block no delimiter of its own kind is left, so the recursion is at most three deep on the same chunks."
  },
  {
   "property": "C68",
   "status": "proved",
   "theorems": [
    "C68_stage2",
    "C68_convert2",
    "C68_begin_refuted",
    "C68_name_refuted",
    "C68_stage3",
    "C68_convert3",
    "C68_convert3_release",
    "C68_trailing",
    "C68_final_newline_refuted"
   ],
   "note": "Both directions, all build profiles. The _refuted theorems show that the conditions cannot be dropped, and that the result of parsing is not always valid."
  },
  {
   "property": "C69",
   "status": "proved",
   "theorems": [
    "C69_rebuild1",
    "C69_rebuild1_error",
    "C69_push1",
    "C69_push1_error",
    "C69_pieces1",
    "C69_join1",
    "C69_parsed1",
    "C69_rebuild2",
    "C69_rebuild2_error",
    "C69_push2",
    "C69_push2_error",
    "C69_pieces2",
    "C69_join2",
    "C69_push3",
    "C69_push3_error",
    "C69_section3_error",
    "C69_rebuild3",
    "C69_join3"
   ],
   "note": "All three stages, at stage 3 for each section and for the whole document. That text cannot be pushed in pieces at stage 3 is C37_push_refuted."
  },
  {
   "property": "C70",
   "status": "proved",
   "theorems": [
    "C70_ok",
    "C70_error",
    "C70_total",
    "C70_unique",
    "C70_document_ok",
    "C70_document_error",
    "C70_document_total",
    "C70_agree",
    "C70_source_ok",
    "C70_source_error",
    "C70_source_total"
   ],
   "note": "Companion of C54 and C55, which are the same for builds with overflow checks. The specification SpecWrap.v differs from SpecReads.v/SpecRead3.v only in moved32 and in having no overflow case."
  },
  {
   "property": "C71",
   "status": "proved",
   "theorems": [
    "C71_kinds",
    "C71_depth",
    "C71_convert",
    "C71_lists"
   ],
   "note": "Consumers of the stage-3 tree can rely on it; it is also what makes the conversion linear (C67). The price is that the inner delimiters of a nested block of the same kind are dropped (C29)."
  },
  {
   "property": "C72",
   "status": "proved",
   "theorems": [
    "C72_lists",
    "C72_document",
    "C72_source",
    "C72_after_command"
   ],
   "note": "The content of a bracketed maths block has the numbering of the enclosing list and moves with it; every other content is numbered on its own and stays. The line of an error moves, stays (errors inside contents, C24) or, for an unclosed dollar, is the line of the last bracket (C32)."
  },
  {
   "property": "C73",
   "status": "proved",
   "theorems": [
    "C73_parse",
    "C73_convert",
    "C73_maths",
    "C73_parse_always",
    "C73_convert_always",
    "C73_source_always",
    "C73_openings",
    "C73_document",
    "C73_unbounded"
   ],
   "note": "Activations are counted by the fuel of the model's recursive functions, one unit per nested call. Stack frames themselves (their size, the stack limit) are not modelled."
  },
  {
   "property": "C74",
   "status": "proved",
   "theorems": [
    "C74_stage1",
    "C74_convert",
    "C74_stage2",
    "C74_maths",
    "C74_maths_no_empty",
    "C74_stage3",
    "C74_stage3_no_empty"
   ],
   "note": "Counts nodes and characters of the model's documents, not bytes of the heap."
  },
  {
   "property": "C75",
   "status": "proved",
   "theorems": [
    "C75_to_stage2",
    "C75_maths",
    "C75_paragraphs",
    "C75_to_stage3",
    "C75_back_to_stage1",
    "C75_back_to_stage2"
   ],
   "note": "Labels of \\begin and \\end: compared with their line numbers by the code (src/ast2/document.rs:304), shown by C75_example_label."
  },
  {
   "property": "C76",
   "status": "proved",
   "theorems": [
    "C76_release",
    "C76_only_lines",
    "C76_debug",
    "C76_identity",
    "C76_built"
   ],
   "note": "Exact behaviour, the panic included; see Findings."
  },
  {
   "property": "C77",
   "status": "proved",
   "theorems": [
    "C77_unchanged",
    "C77_returns1",
    "C77_returns2",
    "C77_returns3",
    "C77_failed_skipped",
    "C77_text1",
    "C77_text2",
    "C77_text3",
    "C77_valid1",
    "C77_valid2",
    "C77_valid3"
   ],
   "note": "About a second model of the pushes, statement by statement with explicit state (Stateful.v), proved to agree with the functions used elsewhere (C77_returns*)."
  },
  {
   "property": "C78",
   "status": "proved",
   "theorems": [
    "C78_comes_out",
    "C78_debug",
    "C78_converted",
    "C78_own_class",
    "C78_restored",
    "C78_characters",
    "C78_settles"
   ],
   "note": "Hypotheses on a document are decidable and are met by every parsed document (C78_converted), apart from the size and the condition on the trailing part."
  },
  {
   "property": "C79",
   "status": "proved",
   "theorems": [
    "C79_restored",
    "C79_text_tells",
    "C79_any_number",
    "C79_no_maths",
    "C79_one_to_one",
    "C79_sources",
    "C79_debug"
   ],
   "note": "tidy is defined in SpecMaths3.v; untidy documents that do not come back are shown in C79_refuted."
  },
  {
   "property": "C80",
   "status": "proved",
   "theorems": [
    "C80_display1",
    "C80_new1",
    "C80_display2",
    "C80_new2",
    "C80_display3",
    "C80_new3",
    "C80_line2",
    "C80_moved2"
   ],
   "note": "changedN of SpecEdit.v says what an edit is; references are modelled as assignment (Api.v)."
  },
  {
   "property": "C81",
   "status": "proved",
   "theorems": [
    "C81_chunks",
    "C81_chunks_kept",
    "C81_chunks_dollars",
    "C81_document",
    "C81_document_kept",
    "C81_document_dollars",
    "C81_parsed",
    "C81_sources",
    "C81_one_environment",
    "C81_brackets_refuted",
    "C81_arguments_refuted"
   ],
   "note": "bare, bracketless, reprinted are in SpecLost.v. The two _refuted theorems show that the exceptions (the bracket characters; arguments given to bracket commands by hand) do occur."
  },
  {
   "property": "C82",
   "status": "proved",
   "theorems": [
    "C82_chunks",
    "C82_document",
    "C82_chunks_release",
    "C82_document_release",
    "C82_kinds",
    "C82_lines",
    "C82_lines_release_refuted",
    "C82_inside_refuted",
    "C82_dollar_refuted"
   ],
   "note": "blames and blames_class of SpecBlame3.v say what an error may point at. The _refuted theorems show the stated exceptions: wrapped line numbers without overflow checks, lines relative to a scope, line 0 for a dollar."
  },
  {
   "property": "C83",
   "status": "proved",
   "theorems": [
    "C83_append",
    "C83_rest",
    "C83_middle",
    "C83_error_stays",
    "C83_panic_stays",
    "C83_down"
   ],
   "note": "Stated with the conversions themselves. join1 (SpecBuild.v) joins adjacent texts. The exception is shown real by C83_example_cured."
  },
  {
   "property": "C84",
   "status": "proved",
   "theorems": [
    "C84_after",
    "C84_after_error",
    "C84_after_panic",
    "C84_before",
    "C84_inside"
   ],
   "note": "Stated with the conversions themselves; the added piece is converted alone with the same function. C84_two_classes shows that the condition on class commands is needed. Panics of an appended piece are covered for the maths recognition (C84_after_panic)."
  },
  {
   "property": "C85",
   "status": "proved",
   "theorems": [
    "C85_kept",
    "C85_all_but_two",
    "C85_kept2"
   ],
   "note": "continues and continues2 (SpecPrefix.v) list the ways of going on; the examples show that they occur."
  },
  {
   "property": "C86",
   "status": "proved",
   "theorems": [
    "C86_completed2",
    "C86_stays2",
    "C86_completed3",
    "C86_stays3"
   ],
   "note": "Necessary conditions; the examples show that each of the kinds is completed for some source. The part for stage 1 is C61."
  },
  {
   "property": "C87",
   "status": "proved",
   "theorems": [
    "C87_sections",
    "C87_class",
    "C87_options",
    "C87_document",
    "C87_body"
   ],
   "note": "Three is the best bound (C87_example_three). C87_body needs that there is one document environment only: a second one replaces the body (C87_example_second)."
  },
  {
   "property": "C88",
   "status": "proved",
   "theorems": [
    "C88_no_delimiters",
    "C88_sources",
    "C88_labels",
    "C88_no_begin_end"
   ],
   "note": "No hypothesis besides the conversion being successful. Stage 2 keeps all the delimiters (C88_example_stage2)."
  },
  {
   "property": "C89",
   "status": "proved",
   "theorems": [
    "C89_stage2",
    "C89_document",
    "C89_other",
    "C89_error",
    "C89_named_frame",
    "C89_named",
    "C89_plain_document",
    "C89_again",
    "C89_nested",
    "C89_nested3"
   ],
   "note": "C89_named_frame gives the frames \\begin{name}, \\end{name} for every plain name. Counterexamples for each condition: C89_argument, C89_blanks, C89_rejected."
  }
 ]
}