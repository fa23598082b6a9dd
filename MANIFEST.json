{
 "claims": [
  {
   "property": "C01",
   "status": "proved",
   "theorems": [
    "C01_source_embedding",
    "C01_source_embedding_injective"
   ],
   "note": ""
  },
  {
   "property": "C02",
   "status": "proved",
   "theorems": [
    "C02_error_html"
   ],
   "note": ""
  },
  {
   "property": "C03",
   "status": "proved",
   "theorems": [
    "C03_text_escape"
   ],
   "note": ""
  },
  {
   "property": "C04",
   "status": "proved",
   "theorems": [
    "C04_label_encoding",
    "C04_label_encoding_injective"
   ],
   "note": ""
  },
  {
   "property": "C05",
   "status": "proved",
   "theorems": [
    "C05_well_formed",
    "C05_conversion"
   ],
   "note": "For every list of trees whose verbatim strings are markup free, and (C05_conversion) for every successful conversion after any calls of a converter with any macros, unless an operator name (\\operatorname) or unknown command with a markup character occurs."
  },
  {
   "property": "C06",
   "status": "partial",
   "theorems": [
    "C06_tags_independent_of_text_partial",
    "C06_conversion_partial",
    "C06_refuted"
   ],
   "note": "Proved for every conversion without an operator name or unknown command containing a markup character: no text changes the tags of the output. Refuted for \\operatorname{<img...>} and \\< , which are copied verbatim (C06_refuted, finding)."
  },
  {
   "property": "C07",
   "status": "proved",
   "theorems": [
    "C07_pretty_only_inserts",
    "C07_compact_is_compact"
   ],
   "note": ""
  },
  {
   "property": "C08",
   "status": "proved",
   "theorems": [
    "C08_terminates_in_order",
    "C08_moves_forward"
   ],
   "note": ""
  },
  {
   "property": "C09",
   "status": "proved",
   "theorems": [
    "C09_one_whitespace_token",
    "C09_no_two_whitespace_tokens",
    "C09_none_after_command",
    "C09_comment_skipped",
    "C09_comment_at_end"
   ],
   "note": ""
  },
  {
   "property": "C10",
   "status": "proved",
   "theorems": [
    "C10_maximal_name",
    "C10_unique",
    "C10_command_token"
   ],
   "note": ""
  },
  {
   "property": "C11",
   "status": "proved",
   "theorems": [
    "C11_atom",
    "C11_atom_only",
    "C11_longest",
    "C11_conversion",
    "C11_typed",
    "C11_converted"
   ],
   "note": ""
  },
  {
   "property": "C12",
   "status": "partial",
   "theorems": [
    "C12_consecutive",
    "C12_each_row_partial",
    "C12_parsed",
    "C12_seen",
    "C12_converted",
    "C12_document",
    "C12_shown",
    "C12_braces_refuted"
   ],
   "note": "For all rows and environments: the automatic numbers are consecutive and the counter grows by as many. For all documents of formulas of C52 whose rows do not end within braces: the tags in the trees are those of the rows. Each row separately: for rows without both \\tag and \\notag (see C13). Refuted for rows that end within braces (finding 15)."
  },
  {
   "property": "C13",
   "status": "partial",
   "theorems": [
    "C13_refuted",
    "C13_own_row_only_partial",
    "C13_document_partial"
   ],
   "note": "Proved when no row has both \\tag and \\notag, for rows and for documents. Refuted otherwise: such a row takes away the number of the next one (finding 3)."
  },
  {
   "property": "C14",
   "status": "proved",
   "theorems": [
    "C14_multline",
    "C14_starred",
    "C14_multline_shown",
    "C14_starred_shown"
   ],
   "note": ""
  },
  {
   "property": "C15",
   "status": "proved",
   "theorems": [
    "C15_overflow",
    "C15_no_wrap"
   ],
   "note": ""
  },
  {
   "property": "C16",
   "status": "partial",
   "theorems": [
    "C16_reference_text",
    "C16_warnings",
    "C16_labels_recorded",
    "C16_row_labels",
    "C16_multline_label_refuted",
    "C16_document"
   ],
   "note": "A reference shows what the label stands for, which is the newest tag with this label in the trees of the document; outside multline a tag has the label typed in its row. Refuted for a label in a row of multline other than the last (finding 4)."
  },
  {
   "property": "C17",
   "status": "proved",
   "theorems": [
    "C17_final_labels",
    "C17_labels_of_all_snippets"
   ],
   "note": ""
  },
  {
   "property": "C18",
   "status": "proved",
   "theorems": [
    "C18_same_result",
    "C18_no_influence"
   ],
   "note": ""
  },
  {
   "property": "C19",
   "status": "proved",
   "theorems": [
    "C19_reset"
   ],
   "note": ""
  },
  {
   "property": "C20",
   "status": "proved",
   "theorems": [
    "C20_batch_is_sequence"
   ],
   "note": ""
  },
  {
   "property": "C21",
   "status": "partial",
   "theorems": [
    "C21_refuted",
    "C21_numbers_refuted",
    "C21_only_global_partial"
   ],
   "note": "An error leaves everything as it was but for the definitions, numbers and labels made in front of it, which remain (finding 5)."
  },
  {
   "property": "C22",
   "status": "proved",
   "theorems": [
    "C22_accepts",
    "C22_reports",
    "C22_meanings",
    "C22_order"
   ],
   "note": ""
  },
  {
   "property": "C23",
   "status": "proved",
   "theorems": [
    "C23_use",
    "C23_unique"
   ],
   "note": ""
  },
  {
   "property": "C24",
   "status": "proved",
   "theorems": [
    "C24_conversion",
    "C24_precedence",
    "C24_history",
    "C24_unknown"
   ],
   "note": ""
  },
  {
   "property": "C25",
   "status": "partial",
   "theorems": [
    "C25_define_partial",
    "C25_def_partial",
    "C25_conversion_partial",
    "C25_refuted"
   ],
   "note": "Proved for definitions of the text and of macro bodies. Refuted for definition commands that reach a macro body as an argument (finding 8)."
  },
  {
   "property": "C26",
   "status": "proved",
   "theorems": [
    "C26_session",
    "C26_global_prefix",
    "C26_total",
    "C26_in_snippet",
    "C26_global",
    "C26_local_ends",
    "C26_begin",
    "C26_reset"
   ],
   "note": ""
  },
  {
   "property": "C27",
   "status": "proved",
   "theorems": [
    "C27_copy",
    "C27_meaning"
   ],
   "note": ""
  },
  {
   "property": "C28",
   "status": "proved",
   "theorems": [
    "C28_limit",
    "C28_error"
   ],
   "note": ""
  },
  {
   "property": "C29",
   "status": "proved",
   "theorems": [
    "C29_snippet",
    "C29_session"
   ],
   "note": ""
  },
  {
   "property": "C30",
   "status": "proved",
   "theorems": [
    "C30_accepted_iff",
    "C30_result",
    "C30_round_trip"
   ],
   "note": ""
  },
  {
   "property": "C31",
   "status": "proved",
   "theorems": [
    "C31_number_iff",
    "C31_divisor_exact",
    "C31_length_iff"
   ],
   "note": ""
  },
  {
   "property": "C32",
   "status": "proved",
   "theorems": [
    "C32_pack_unpack",
    "C32_refines_record",
    "C32_injective"
   ],
   "note": ""
  },
  {
   "property": "C33",
   "status": "proved",
   "theorems": [
    "C33_search_is_lookup",
    "C33_negation",
    "C33_idempotent",
    "C33_overlays_commute"
   ],
   "note": ""
  },
  {
   "property": "C34",
   "status": "partial",
   "theorems": [
    "C34_valid",
    "C34_outside_unchanged_partial",
    "C34_outside_unchanged_refuted",
    "C34_injective",
    "C34_follows_unicode_partial",
    "C34_follows_unicode_refuted",
    "C34_combined_unchanged"
   ],
   "note": "Validity holds everywhere; injectivity and 'outside unchanged' fail for two code points of the real tables (refuted theorems, findings in DESIGN.md)."
  },
  {
   "property": "C35",
   "status": "partial",
   "theorems": [
    "C35_html",
    "C35_bytes",
    "C35_units",
    "C35_channels",
    "C35_selected",
    "C35_named",
    "C35_invalid_refuted",
    "C35_color_written"
   ],
   "note": "Output for all byte triples; parsing: HTML for all hexadecimal strings, RGB for numbers below 256 with at most two decimals, rgb for numbers up to 1 with at most four, with any blanks and leading zeros; every color selected in front of any formula of C52 is the color of its row. C35_invalid_refuted: descriptions that are no color of the model (other characters, further parts, numbers out of range) are read as one."
  },
  {
   "property": "C36",
   "status": "partial",
   "theorems": [
    "C36_tex_spacing",
    "C36_refuted",
    "C36_mathbin_refuted",
    "C36_explicit_when_needed",
    "C36_binary_or_ordinary",
    "C36_parser"
   ],
   "note": "All entries of TeX's table but for three situations, and \\mathbin without a neighbour (finding 9)."
  },
  {
   "property": "C37",
   "status": "proved",
   "theorems": [
    "C37_names",
    "C37_end_matches",
    "C37_construct_defined"
   ],
   "note": ""
  },
  {
   "property": "C38",
   "status": "proved",
   "theorems": [
    "C38_slices_on_char_boundaries",
    "C38_document_processing",
    "C38_text_preserved",
    "C38_formula"
   ],
   "note": ""
  },
  {
   "property": "C39",
   "status": "proved",
   "theorems": [
    "C39_windowed_search_open",
    "C39_windowed_search_close"
   ],
   "note": ""
  },
  {
   "property": "C40",
   "status": "proved",
   "theorems": [
    "C40_entities_decoded",
    "C40_inverts_own_escaping",
    "C40_no_ampersand_untouched",
    "C40_every_entity_decoded_refuted"
   ],
   "note": "The stronger claim that every entity is decoded even after a bare ampersand is refuted (C40_every_entity_decoded_refuted); the stated property (inverse of escaping) is proved."
  },
  {
   "property": "C41",
   "status": "partial",
   "theorems": [
    "C41_no_panic_partial",
    "C41_continue",
    "C41_refuted"
   ],
   "note": "Proved for every document, delimiters and configuration when errors are shown in the document (C41_continue), and otherwise for every converter whose failures are repeatable (C41_no_panic_partial). Refuted for the real converter without --continue-on-error: the second conversion may succeed (C41_refuted, finding 6)."
  },
  {
   "property": "C42",
   "status": "proved",
   "theorems": [
    "C42_terminates"
   ],
   "note": ""
  },
  {
   "property": "C43",
   "status": "proved",
   "theorems": [
    "C43_message_position",
    "C43_message_position_rounds_down",
    "C43_decimal_injective",
    "C43_utf16_offset",
    "C43_line_and_col"
   ],
   "note": ""
  },
  {
   "property": "C44",
   "status": "proved",
   "theorems": [
    "C44_argument",
    "C44_group",
    "C44_unique",
    "C44_unclosed",
    "C44_macro_args",
    "C44_macro_args_unique"
   ],
   "note": ""
  },
  {
   "property": "C45",
   "status": "proved",
   "theorems": [
    "C45_faithful",
    "C45_new",
    "C45_view",
    "C45_read_all"
   ],
   "note": ""
  },
  {
   "property": "C46",
   "status": "partial",
   "theorems": [
    "C46_scoped",
    "C46_typed",
    "C46_conversion",
    "C46_refuted"
   ],
   "note": "Proved: the snippets of every accepted text argument show exactly the characters, with the looks, that a stack-free reading with scoped styles and sizes gives (both directions, and for every text of a conversion), and without accents and \\raisebox the snippet texts are together the text of the tokens read. Refuted for accents (an accent before a group goes to a later character or is lost) and for a style command that is an unbraced argument."
  },
  {
   "property": "C47",
   "status": "proved",
   "theorems": [
    "C47_accepts",
    "C47_rejects",
    "C47_empty",
    "C47_primes",
    "C47_atom",
    "C47_scripted"
   ],
   "note": ""
  },
  {
   "property": "C48",
   "status": "proved",
   "theorems": [
    "C48_let_command",
    "C48_let_name",
    "C48_let",
    "C48_late"
   ],
   "note": ""
  },
  {
   "property": "C49",
   "status": "proved",
   "theorems": [
    "C49_row_structure",
    "C49_table_shape"
   ],
   "note": ""
  },
  {
   "property": "C50",
   "status": "proved",
   "theorems": [
    "C50_intern_get",
    "C50_slices_are_strings",
    "C50_split_join",
    "C50_split_non_ascii"
   ],
   "note": ""
  },
  {
   "property": "C51",
   "status": "partial",
   "theorems": [
    "C51_inside_the_input",
    "C51_reported_exactly",
    "C51_proper_range_partial",
    "C51_refuted",
    "C51_configuration"
   ],
   "note": "Both ends of every error lie on character boundaries of the input (proved); start <= end is proved for all errors but those about a piece of several tokens, and refuted for these: \\def\\a#1{\\kern#1pt}\\a{1.1.1} gives 22..0, on which the report generator asserts."
  },
  {
   "property": "C52",
   "status": "proved",
   "theorems": [
    "C52_parsed",
    "C52_converted",
    "C52_all",
    "C52_same_text"
   ],
   "note": ""
  },
  {
   "property": "C53",
   "status": "proved",
   "theorems": [
    "C53_read_back",
    "C53_pretty",
    "C53_conversion",
    "C53_formula"
   ],
   "note": ""
  },
  {
   "property": "C54",
   "status": "partial",
   "theorems": [
    "C54_trees",
    "C54_formula",
    "C54_conversion_partial",
    "C54_refuted"
   ],
   "note": "Proved for all trees whose separators are in tables only, for all formulas whose separators are direct content of an environment, and for all conversions giving such trees. Refuted for `\\begin{matrix} a_& b\\end{matrix}` and the like (finding 12)."
  },
  {
   "property": "C55",
   "status": "partial",
   "theorems": [
    "C55_conversion_partial",
    "C55_refuted"
   ],
   "note": "For all inputs: no attribute but stretchy occurs twice, and none if no operator is told both to stretch and not to stretch. Refuted for \\mathrel{\\big|} (finding 13)."
  },
  {
   "property": "C56",
   "status": "partial",
   "theorems": [
    "C56_parsed",
    "C56_same",
    "C56_converted",
    "C56_itself",
    "C56_blanks",
    "C56_macro",
    "C56_dots",
    "C56_argument_refuted",
    "C56_switch_refuted",
    "C56_script_refuted",
    "C56_class_refuted",
    "C56_digits_refuted",
    "C56_empty_refuted"
   ],
   "note": "Proved for every text that reads as a formula with a meaning, where a macro must show the spacing class of what it stands for and must not begin with a command that leaves nothing behind or with a script; blanks are proved irrelevant outside literal arguments and primes. Refuted in the excluded cases (finding 16)."
  },
  {
   "property": "C57",
   "status": "proved",
   "theorems": [
    "C57_choice"
   ],
   "note": ""
  },
  {
   "property": "C58",
   "status": "partial",
   "theorems": [
    "C58_order",
    "C58_files",
    "C58_success",
    "C58_names",
    "C58_status",
    "C58_dry_run",
    "C58_reads_only",
    "C58_ends",
    "C58_alone_refuted",
    "C58_missing_refuted"
   ],
   "note": "All parts of the statement are proved. Refuted: that a file is converted as if it were alone, and that a path without a file is reported (finding 17). C58_ends assumes --continue-on-error in the document mode because of finding 6."
  },
  {
   "property": "C59",
   "status": "proved",
   "theorems": [
    "C59_options",
    "C59_construct",
    "C59_javascript",
    "C59_python",
    "C59_alike",
    "C59_python_options"
   ],
   "note": ""
  },
  {
   "property": "C60",
   "status": "proved",
   "theorems": [
    "C60_rejected",
    "C60_converted",
    "C60_one_kind",
    "C60_no_formula"
   ],
   "note": ""
  },
  {
   "property": "C61",
   "status": "partial",
   "theorems": [
    "C61_entries",
    "C61_symbols",
    "C61_row",
    "C61_text",
    "C61_operators",
    "C61_fences",
    "C61_middle",
    "C61_sized",
    "C61_accents",
    "C61_braces",
    "C61_arrows",
    "C61_row_start_refuted",
    "C61_next_refuted",
    "C61_stretchy_refuted",
    "C61_limits_refuted",
    "C61_delimiter_spaces_refuted",
    "C61_centered_refuted"
   ],
   "note": "Proved for all symbols but smile, frown, U+2322, U+2323, U+2A1D, U+2A1E, for rows of atoms, operators with limits, delimiters, accents, braces and arrows; six refuted theorems for findings 18-22."
  },
  {
   "property": "C62",
   "status": "proved",
   "theorems": [
    "C62_message",
    "C62_label",
    "C62_printed",
    "C62_html"
   ],
   "note": ""
  },
  {
   "property": "C63",
   "status": "partial",
   "theorems": [
    "C63_unicode_math_partial",
    "C63_latex_partial",
    "C63_characters_partial",
    "C63_typed_partial",
    "C63_typed_refuted",
    "C63_latex_refuted",
    "C63_text"
   ],
   "note": "Proved for all names and characters of the tables but 20, 11 and 72 exceptions, which are exact; two refuted theorems for findings 23 and 24."
  },
  {
   "property": "C64",
   "status": "proved",
   "theorems": [
    "C64_parsed",
    "C64_converted",
    "C64_defined",
    "C64_kept",
    "C64_forgotten"
   ],
   "note": ""
  },
  {
   "property": "C65",
   "status": "proved",
   "theorems": [
    "C65_parsed",
    "C65_calls",
    "C65_new",
    "C65_expansions"
   ],
   "note": ""
  },
  {
   "property": "C66",
   "status": "partial",
   "theorems": [
    "C66_source_partial",
    "C66_same_partial",
    "C66_refuted",
    "C66_define_refuted"
   ],
   "note": "Refuted in two ways (finding 25). Proved: there are no other ways. The error comes from a definition of a name that got its meaning after it was read, or from the end of the meaning of | in place of an atom; a parser with another error for that token is the same otherwise."
  }
 ]
}