{
 "claims": [
  {
   "property": "C01",
   "status": "proved",
   "theorems": [
    "C01_tokens_tile",
    "C01_offsets_are_bytes"
   ],
   "note": ""
  },
  {
   "property": "C02",
   "status": "partial",
   "theorems": [
    "C02_uncovered_category_refuted",
    "C02_kept_partial",
    "C02_found_partial"
   ],
   "note": "False of the code: C01 is the covered case; the refuting theorem parses a char.def with a category FOO that unk.def does not list, and the sentence containing it disappears while later byte offsets shift. The partial theorems say what holds: sentences the search can finish are tiled, the others are dropped."
  },
  {
   "property": "C03",
   "status": "proved",
   "theorems": [
    "C03_no_panic"
   ],
   "note": ""
  },
  {
   "property": "C04",
   "status": "partial",
   "theorems": [
    "C04_minimum_cost",
    "C04_unbounded_penalty_refuted"
   ],
   "note": "Proved for sentences satisfying fits_i32 (32,000 characters in normal mode, 30,000 in default decompose mode). Without the bound it is false: a configured penalty near i32::MAX wraps and a short text gets a dearer segmentation (refuting theorem)."
  },
  {
   "property": "C05",
   "status": "proved",
   "theorems": [
    "C05_no_addition_wraps",
    "C05_costs_in_range",
    "C05_bound_normal",
    "C05_bound_default_decompose",
    "C05_long_sentence_refuted"
   ],
   "note": "The bound is proved for 32,000 bytes in normal mode and default decompose mode; the last theorem shows that a sentence of 40,000 bytes wraps, so the unbounded claim is false. The property as stated (bounded) is proved."
  },
  {
   "property": "C06",
   "status": "proved",
   "theorems": [
    "C06_sentences",
    "C06_cut_after_delimiter",
    "C06_used_lattice"
   ],
   "note": ""
  },
  {
   "property": "C07",
   "status": "proved",
   "theorems": [
    "C07_delimiter_last"
   ],
   "note": ""
  },
  {
   "property": "C08",
   "status": "proved",
   "theorems": [
    "C08_unknown_details",
    "C08_token_source"
   ],
   "note": ""
  },
  {
   "property": "C09",
   "status": "proved",
   "theorems": [
    "C09_exactly",
    "C09_candidates_sound",
    "C09_unknown_complete",
    "C09_dictionary_complete"
   ],
   "note": ""
  },
  {
   "property": "C10",
   "status": "proved",
   "theorems": [
    "C10_all_dictionary_words_compete"
   ],
   "note": ""
  },
  {
   "property": "C11",
   "status": "proved",
   "theorems": [
    "C11_penalty",
    "C11_lattice",
    "C11_normal_free",
    "C11_three_byte_length"
   ],
   "note": ""
  },
  {
   "property": "C12",
   "status": "proved",
   "theorems": [
    "C12_word_entry_round_trip",
    "C12_serialized_length"
   ],
   "note": ""
  },
  {
   "property": "C13",
   "status": "proved",
   "theorems": [
    "C13_built_rows_found",
    "C13_build_succeeds"
   ],
   "note": "For rows within sys_limits (valid UTF-8, at least five fields, surfaces non-empty, no NUL, fewer than 2^26 rows, at most 31 usable rows per surface, details below 2^32 bytes). yada's double array is represented by its key/value list; the theorem also shows that the builder hands it sorted, distinct, NUL-free keys with 31-bit values."
  },
  {
   "property": "C14",
   "status": "proved",
   "theorems": [
    "C14_built_rows_found",
    "C14_simple_numbers",
    "C14_own_numbers"
   ],
   "note": "For rows within user_limits; yada as in C13."
  },
  {
   "property": "C15",
   "status": "partial",
   "theorems": [
    "C15_system_homographs_refuted",
    "C15_user_homographs_refuted",
    "C15_system_found_partial",
    "C15_user_found_partial",
    "C15_count_partial",
    "C15_user_count_partial"
   ],
   "note": "False of the code: the number of homographs is stored in 5 bits. C13 and C14 cover up to 31 rows per surface; 32 rows are all lost. The partial theorems say exactly what is found for any number n of rows of a surface: n mod 32 of them, in order and in one piece, starting at most n/32 rows in, and never a panic or a row of another surface."
  },
  {
   "property": "C16",
   "status": "proved",
   "theorems": [
    "C16_details_by_id",
    "C16_four_fields"
   ],
   "note": "Rows with exactly four fields get one empty detail instead of none (C16_four_fields), outside the property's hypothesis."
  },
  {
   "property": "C17",
   "status": "proved",
   "theorems": [
    "C17_details_by_id",
    "C17_simple_rows",
    "C17_detailed_rows",
    "C17_short_rows"
   ],
   "note": ""
  },
  {
   "property": "C18",
   "status": "partial",
   "theorems": [
    "C18_build_outcome_partial",
    "C18_short_rows_refuted",
    "C18_exact_partial"
   ],
   "note": "False of the code: a row of one or two fields makes every kind's builder panic at row[3]. C18_exact_partial gives the outcome for all rows: the first row without readable numbers, in the order of the surfaces, decides between panic and parse error; then too few fields are a content error; otherwise the build succeeds."
  },
  {
   "property": "C19",
   "status": "proved",
   "theorems": [
    "C19_matrix_round_trip",
    "C19_large_backward_refuted"
   ],
   "note": "Proved for both sizes at most 32767 and entries in range. The second theorem shows why the bound is needed: a backward size of 32768 to 65535 is read back with its sign extended and lookups panic. An out-of-range line is not rejected and overwrites another pair (example)."
  },
  {
   "property": "C20",
   "status": "proved",
   "theorems": [
    "C20_categories",
    "C20_search",
    "C20_rejected"
   ],
   "note": "directives is a separate line-by-line reading of char.def; it shares only the string functions (splitting, trimming, number parsing) with the model."
  },
  {
   "property": "C21",
   "status": "proved",
   "theorems": [
    "C21_definitions",
    "C21_mention_first_refuted"
   ],
   "note": "Proved under the stated condition; the last theorem shows that it is needed: a category mentioned in a range before its line takes the definition of another category."
  },
  {
   "property": "C22",
   "status": "proved",
   "theorems": [
    "C22_unknown_entries"
   ],
   "note": ""
  },
  {
   "property": "C23",
   "status": "proved",
   "theorems": [
    "C23_unknown_dictionary",
    "C23_character_definitions",
    "C23_user_dictionary"
   ],
   "note": ""
  },
  {
   "property": "C24",
   "status": "proved",
   "theorems": [
    "C24_leftmost_longest",
    "C24_one_answer"
   ],
   "note": "yada's double array is represented by its key/value list; the theorem also shows that the filter hands it sorted, distinct, NUL-free keys. Keys are non-empty and without NUL."
  },
  {
   "property": "C25",
   "status": "proved",
   "theorems": [
    "C25_mapping",
    "C25_normalization",
    "C25_binary_search"
   ],
   "note": "For texts below 2^63 bytes. The grapheme segmentation and the normalization forms are arbitrary functions; graphemes are assumed non-empty with the text as their concatenation. Holds for every binary search that meets the standard library's contract."
  },
  {
   "property": "C26",
   "status": "proved",
   "theorems": [
    "C26_any_match",
    "C26_any_end",
    "C26_exactly",
    "C26_regex",
    "C26_empty_match_refuted",
    "C26_expansion_refuted"
   ],
   "note": "Proved for non-empty matches (or an empty replacement) and replacements without $, as the property says. C26_exactly: these are exactly the cases where the offsets point back. C26_any_match says where every position goes for any matches and any replacement, $ and empty matches included: text put in for an empty match goes to the byte before it (2^64-1 at the start), and with $ the lengths of the configured replacement count, not of what is inserted. C26_any_end: the end of the output goes to the end of the text exactly when these lengths sum up to the output. The two refuting theorems are the small witnesses."
  },
  {
   "property": "C27",
   "status": "proved",
   "theorems": [
    "C27_marks_expanded",
    "C27_one_answer"
   ],
   "note": ""
  },
  {
   "property": "C28",
   "status": "proved",
   "theorems": [
    "C28_offsets_kept",
    "C28_exactly",
    "C28_short_refuted",
    "C28_long_refuted"
   ],
   "note": "Proved when the repeated characters are three bytes long, as the property says; the refuting theorems give the end of ?ゝ inside a character and the end of 𠮷々 beyond the text."
  },
  {
   "property": "C29",
   "status": "proved",
   "theorems": [
    "C29_hiragana",
    "C29_katakana",
    "C29_laws",
    "C29_shift"
   ],
   "note": ""
  },
  {
   "property": "C30",
   "status": "proved",
   "theorems": [
    "C30_offsets_undone",
    "C30_boundaries",
    "C30_side_by_side",
    "C30_mapping_records",
    "C30_normalization_records",
    "C30_regex_records"
   ],
   "note": "Character filters, tokenizer and token filters are arbitrary; the last three theorems show that the mapping, normalization and regex filters satisfy the hypothesis."
  },
  {
   "property": "C31",
   "status": "proved",
   "theorems": [
    "C31_length",
    "C31_keep_words",
    "C31_stop_words",
    "C31_partition",
    "C31_idempotent",
    "C31_one_selection"
   ],
   "note": ""
  },
  {
   "property": "C32",
   "status": "proved",
   "theorems": [
    "C32_japanese_keep",
    "C32_japanese_stop",
    "C32_korean",
    "C32_partition",
    "C32_five_parts_panic"
   ],
   "note": "A tag of more than four parts makes the constructor panic (C32_five_parts_panic), outside the property's hypothesis."
  },
  {
   "property": "C33",
   "status": "proved",
   "theorems": [
    "C33_maximal_runs",
    "C33_totals",
    "C33_one_answer",
    "C33_parts"
   ],
   "note": ""
  },
  {
   "property": "C34",
   "status": "proved",
   "theorems": [
    "C34_numeral_value",
    "C34_every_number",
    "C34_digits",
    "C34_other_text",
    "C34_tokens"
   ],
   "note": ""
  },
  {
   "property": "C35",
   "status": "partial",
   "theorems": [
    "C35_exactly",
    "C35_filter",
    "C35_panics_refuted",
    "C35_no_panic"
   ],
   "note": "False of the code: adjust_digits subtracts the length of the digits so far from the number of zeros, which is below zero for 十二指腸, 十百 and 十100. Proved for texts without unit characters and for well-formed numerals. C35_exactly says on which texts it panics (see C74)."
  },
  {
   "property": "C36",
   "status": "proved",
   "theorems": [
    "C36_exactly",
    "C36_stem",
    "C36_no_block_panics"
   ],
   "note": "unicode_blocks is an arbitrary table with blocks_ok. A character without a block (for instance U+2FE0) makes the filter panic (C36_no_block_panics), outside the property's hypothesis."
  },
  {
   "property": "C37",
   "status": "proved",
   "theorems": [
    "C37_reading_form",
    "C37_base_form",
    "C37_korean_reading_form",
    "C37_user_rows",
    "C37_unidic_simple_row"
   ],
   "note": "A simple UniDic user row has no base form: the filter replaces the text by * (C37_unidic_simple_row)."
  },
  {
   "property": "C38",
   "status": "proved",
   "theorems": [
    "C38_only_text",
    "C38_offsets",
    "C38_mapping",
    "C38_convert"
   ],
   "note": "to_uppercase, to_lowercase and kanaria's conversions are an arbitrary function."
  },
  {
   "property": "C39",
   "status": "proved",
   "theorems": [
    "C39_dictionary_path",
    "C39_kind",
    "C39_kind_error",
    "C39_kind_inverse",
    "C39_mode",
    "C39_mode_error",
    "C39_format",
    "C39_format_error",
    "C39_dictionary_kind_first",
    "C39_dictionary_neither",
    "C39_user_csv",
    "C39_user_bin",
    "C39_user_other"
   ],
   "note": "Paths are Unix paths of valid Unicode. What a kind's embedded dictionary is and what files contain are arbitrary."
  },
  {
   "property": "C40",
   "status": "proved",
   "theorems": [
    "C40_round_trip",
    "C40_raw",
    "C40_embedded"
   ],
   "note": "flate2 is assumed: each decoder inverts its encoder and encoders produce bytes. bincode is modelled."
  },
  {
   "property": "C41",
   "status": "proved",
   "theorems": [
    "C41_unknown",
    "C41_system",
    "C41_user",
    "C41_again",
    "C41_set",
    "C41_no_user"
   ],
   "note": ""
  },
  {
   "property": "C42",
   "status": "proved",
   "theorems": [
    "C42_no_colon_error",
    "C42_first_colon",
    "C42_no_colon"
   ],
   "note": "The JSON parser is an arbitrary function; a flag without a colon is the parse of the empty text, which serde_json refuses."
  },
  {
   "property": "C43",
   "status": "partial",
   "theorems": [
    "C43_wakati_partial",
    "C43_wakati_refuted",
    "C43_mecab",
    "C43_mecab_injective",
    "C43_lines",
    "C43_lines_until_error"
   ],
   "note": "wakati output is proved for one or more tokens and false for none: nothing is printed, not even the newline. The other theorems cover mecab output, its injectivity and the loop over the lines."
  },
  {
   "property": "C44",
   "status": "proved",
   "theorems": [
    "C44_no_unknown_inside"
   ],
   "note": ""
  },
  {
   "property": "C45",
   "status": "proved",
   "theorems": [
    "C45_utf8_prefix",
    "C45_decoding",
    "C45_slices"
   ],
   "note": ""
  },
  {
   "property": "C46",
   "status": "partial",
   "theorems": [
    "C46_suffix_never",
    "C46_suffix_size",
    "C46_prefix_plain",
    "C46_prefix_unit",
    "C46_suffix_refuted",
    "C46_prefix_refuted",
    "C46_digits",
    "C46_prefix_partial"
   ],
   "note": "False of the code: the bytes of the following text count as digits, so 千円 becomes 1円 and 万円 becomes 10円; a bare unit after other text gets no leading 1, so 第十 becomes 第0. Proved for texts with digits but without units, and for numerals that start with a digit after other text. Text behind a unit is never kept behind the right number (C46_suffix_never), and text in front costs exactly the leading 1 of a bare unit (C46_prefix_unit)."
  },
  {
   "property": "C47",
   "status": "partial",
   "theorems": [
    "C47_described",
    "C47_no_arguments",
    "C47_unknown_name",
    "C47_errors_partial",
    "C47_errors_refuted",
    "C47_arrays",
    "C47_scalars"
   ],
   "note": "The only panics are tags of five or more comma-separated parts (refuting theorem). Objects have distinct keys, as serde_json guarantees. A mapping is accepted when mapping_new succeeds on it."
  },
  {
   "property": "C48",
   "status": "proved",
   "theorems": [
    "C48_described",
    "C48_unknown_name",
    "C48_errors",
    "C48_arrays",
    "C48_scalars"
   ],
   "note": "Regex::new is an arbitrary function."
  },
  {
   "property": "C49",
   "status": "proved",
   "theorems": [
    "C49_analyzer",
    "C49_tokenizer",
    "C49_arrays"
   ],
   "note": "The tokenizer theorem is for structs written as objects; derived serde code also accepts arrays, which the model has and the statement excludes."
  },
  {
   "property": "C50",
   "status": "partial",
   "theorems": [
    "C50_token_filters",
    "C50_char_filters",
    "C50_tokenizer_partial",
    "C50_tokenizer_refuted"
   ],
   "note": "Token filters and character filters: proved for all. TokenizerConfig: proved with a user dictionary; false without, since null is written and refused on reading."
  },
  {
   "property": "C51",
   "status": "proved",
   "theorems": [
    "C51_command_line"
   ],
   "note": ""
  },
  {
   "property": "C52",
   "status": "partial",
   "theorems": [
    "C52_normal",
    "C52_decompose_refuted",
    "C52_decompose_object",
    "C52_decompose_array"
   ],
   "note": "False of the code for decompose: in JSON it must be an object with the four penalty numbers."
  },
  {
   "property": "C53",
   "status": "proved",
   "theorems": [
    "C53_token_filters"
   ],
   "note": "Token lists suit a kind when the filter does not panic on them (C31-C38 and C74 say when). to_uppercase, to_lowercase and kanaria are arbitrary functions."
  },
  {
   "property": "C54",
   "status": "proved",
   "theorems": [
    "C54_char_filters"
   ],
   "note": "Texts suit a kind under the hypotheses of C24-C27; the regex engine and the normalizer are arbitrary functions."
  },
  {
   "property": "C55",
   "status": "proved",
   "theorems": [
    "C55_analyzer",
    "C55_stops"
   ],
   "note": "The texts and tokens between the filters have to suit the filters."
  },
  {
   "property": "C56",
   "status": "proved",
   "theorems": [
    "C56_meaning",
    "C56_tokenizes"
   ],
   "note": "Reading files, decoding character sets, the CSV reader and yada are arbitrary functions; yada has to accept the words and give them back. Without the feature compress (C58 has it). With more than 31 rows per surface the words are those that C15 says are left."
  },
  {
   "property": "C57",
   "status": "proved",
   "theorems": [
    "C57_same"
   ],
   "note": "yada has to accept the words and give them back, and to write bytes."
  },
  {
   "property": "C58",
   "status": "partial",
   "theorems": [
    "C58_embedded",
    "C58_by_path_refuted"
   ],
   "note": "Embedded dictionaries: proved with and without compression. Files of a compressed build cannot be loaded from a directory: load_dictionary does not decompress and char_def.bin is refused (refuting theorem)."
  },
  {
   "property": "C59",
   "status": "partial",
   "theorems": [
    "C59_rows_partial",
    "C59_reported_partial",
    "C59_panic_refuted"
   ],
   "note": "Proved for IPADIC, IPADIC NEologd and UniDic. False for ko-dic and CC-CEDICT, whose builders unwrap and panic. C59_rows_partial gives the outcome of the word part for all rows; short rows panic for every kind."
  },
  {
   "property": "C60",
   "status": "proved",
   "theorems": [
    "C60_cli_user",
    "C60_output"
   ],
   "note": "Unix paths of valid Unicode; creating directories and writing files succeeds."
  },
  {
   "property": "C61",
   "status": "partial",
   "theorems": [
    "C61_local",
    "C61_missing_partial",
    "C61_short_matrix_refuted",
    "C61_errors"
   ],
   "note": "Locality is proved for all files, errors for directories whose matrix.mtx is missing or has at least four bytes. A shorter matrix.mtx makes it panic (refuting theorem)."
  },
  {
   "property": "C62",
   "status": "partial",
   "theorems": [
    "C62_mixed_refuted",
    "C62_ipadic_partial"
   ],
   "note": "True for the two IPADICs; the CSV readers of the other three kinds are not flexible and refuse rows of different lengths."
  },
  {
   "property": "C63",
   "status": "proved",
   "theorems": [
    "C63_meaning",
    "C63_tokens"
   ],
   "note": "Context ids of user rows outside the matrix are excluded. Any number of rows per surface, as in C15."
  },
  {
   "property": "C64",
   "status": "proved",
   "theorems": [
    "C64_ties"
   ],
   "note": ""
  },
  {
   "property": "C65",
   "status": "proved",
   "theorems": [
    "C65_exact",
    "C65_one_search",
    "C65_complete"
   ],
   "note": "Uniqueness needs distinct entries: two equal entries cannot be told apart."
  },
  {
   "property": "C66",
   "status": "proved",
   "theorems": [
    "C66_in_order",
    "C66_nothing_lost"
   ],
   "note": "The first part holds for every Ok result; the filters' panics are the subject of C35 - C38."
  },
  {
   "property": "C67",
   "status": "proved",
   "theorems": [
    "C67_i16",
    "C67_i32",
    "C67_u16",
    "C67_u32",
    "C67_hex",
    "C67_every_number",
    "C67_one_number"
   ],
   "note": "from_str of the integer types is part of the standard library; the model of it is what the theorems pin down."
  },
  {
   "property": "C68",
   "status": "proved",
   "theorems": [
    "C68_lines",
    "C68_fields",
    "C68_ascii_fields",
    "C68_parts",
    "C68_pieces",
    "C68_trim",
    "C68_prefix",
    "C68_stripped"
   ],
   "note": "These are standard library functions; the model of them is what the theorems pin down."
  },
  {
   "property": "C69",
   "status": "proved",
   "theorems": [
    "C69_char",
    "C69_matrix",
    "C69_unk",
    "C69_char_back",
    "C69_matrix_back",
    "C69_unk_back"
   ],
   "note": "The CSV files of words are read by the csv crate, which is not modelled."
  },
  {
   "property": "C70",
   "status": "proved",
   "theorems": [
    "C70_only",
    "C70_builds",
    "C70_user_only",
    "C70_user_builds",
    "C70_matrix",
    "C70_numbers"
   ],
   "note": "The csv crate, yada, globbing, transcoding and compression are arbitrary functions. Success is stated for yada and compression that do not fail on their proper inputs."
  },
  {
   "property": "C71",
   "status": "partial",
   "theorems": [
    "C71_unk_refuted",
    "C71_unk_partial",
    "C71_matrix_refuted",
    "C71_matrix_partial",
    "C71_rows_partial"
   ],
   "note": "Refuted for unk.def and matrix.def; the partial theorems give the exact values stored. For matrix.def the lines are assumed to name cells of the table (otherwise the build fails, C70)."
  },
  {
   "property": "C72",
   "status": "partial",
   "theorems": [
    "C72_new_start_refuted",
    "C72_normal_refuted",
    "C72_search_partial",
    "C72_known_partial"
   ],
   "note": "Refuted in general; the two partial theorems give the conditions under which it holds."
  },
  {
   "property": "C73",
   "status": "proved",
   "theorems": [
    "C73_words",
    "C73_cost"
   ],
   "note": ""
  },
  {
   "property": "C74",
   "status": "proved",
   "theorems": [
    "C74_exact",
    "C74_one_result",
    "C74_panics",
    "C74_else"
   ],
   "note": ""
  },
  {
   "property": "C75",
   "status": "proved",
   "theorems": [
    "C75_system",
    "C75_user",
    "C75_distinct",
    "C75_user_distinct",
    "C75_files"
   ],
   "note": "C75_homographs (Example) shows that exchanging two homographs does change the files."
  },
  {
   "property": "C76",
   "status": "proved",
   "theorems": [
    "C76_never_fails",
    "C76_built",
    "C76_built_alone"
   ],
   "note": "C76_compound_then_base_form (Example): an ipadic compound word followed by the unidic base form panics. The number and stem filters are left out because they do panic (C35, C36). Offsets wrap as in a release build; in range offsets are C30 and C55."
  },
  {
   "property": "C77",
   "status": "proved",
   "theorems": [
    "C77_token_filter",
    "C77_char_filter",
    "C77_analyzer"
   ],
   "note": "The map case asks for distinct keys, as any JSON object read by serde_json has. C77_ex loads two different analyzers and compares them."
  },
  {
   "property": "C78",
   "status": "proved",
   "theorems": [
    "C78_keeping_commutes",
    "C78_keeping_again",
    "C78_keep_and_stop",
    "C78_merged",
    "C78_tags_first",
    "C78_forms_again",
    "C78_last_form"
   ],
   "note": "C78_order_matters (Example): stop words and upper case do not commute, unknown words keep the earlier text, the number filter panics at a token that a tag filter in front of it would have dropped, the katakana stem filter can cut twice."
  },
  {
   "property": "C79",
   "status": "proved",
   "theorems": [
    "C79_edges",
    "C79_linear",
    "C79_tokens"
   ],
   "note": "Edges and comparisons of costs are counted, not the looking at characters: in search mode the run of a grouping category is read again from each of its characters (counted in C108)."
  },
  {
   "property": "C80",
   "status": "proved",
   "theorems": [
    "C80_configuration",
    "C80_command_line"
   ],
   "note": "Harmless excludes the number and stem filters (C35, C36 and C74 say when these fail) and details that the dictionary's rows do not have. The environment is assumed sound: other crates give valid texts, yada and the codecs are inverse to reading."
  },
  {
   "property": "C81",
   "status": "proved",
   "theorems": [
    "C81_file",
    "C81_outcome",
    "C81_order",
    "C81_no_object",
    "C81_extension"
   ],
   "note": "A filter that cannot be made is given by the loading function's error; C47 and C48 say exactly which settings those are. When the matrix is too short and another file is missing too, either outcome is allowed by the statement."
  },
  {
   "property": "C82",
   "status": "proved",
   "theorems": [
    "C82_outcome",
    "C82_user",
    "C82_char",
    "C82_unk",
    "C82_rows",
    "C82_matrix"
   ],
   "note": "Several faults may be present in the rows; C59 says which row decides. The trie builder is yada, outside the model: its failure is allowed for keys taken from the words of the rows."
  },
  {
   "property": "C83",
   "status": "proved",
   "theorems": [
    "C83_ends",
    "C83_pieces"
   ],
   "note": "Says nothing about whether a panic occurs: that is C84."
  },
  {
   "property": "C84",
   "status": "proved",
   "theorems": [
    "C84_panics",
    "C84_answer",
    "C84_user"
   ],
   "note": "The 32-bit cell number wraps, as in a release build; in a debug build ids so large would panic in the multiplication."
  },
  {
   "property": "C85",
   "status": "proved",
   "theorems": [
    "C85_output",
    "C85_text",
    "C85_session",
    "C85_command",
    "C85_list"
   ],
   "note": "The printer of JSON text (serde_json) is an arbitrary function of the values. Writing to the standard output does not fail."
  },
  {
   "property": "C86",
   "status": "partial",
   "theorems": [
    "C86_result",
    "C86_success",
    "C86_elsewhere",
    "C86_fresh",
    "C86_mixture",
    "C86_atomic_refuted",
    "C86_user"
   ],
   "note": "C86_atomic_refuted gives the witness for the false part; C86_mixture says exactly what is loaded when the rows cannot be read. Failures of the writes themselves (a full disk) are the subject of C97."
  },
  {
   "property": "C87",
   "status": "partial",
   "theorems": [
    "C87_tokens_again",
    "C87_numbers_again",
    "C87_stem_again",
    "C87_marks_again",
    "C87_mapping_free",
    "C87_mapping_again",
    "C87_marks_always_refuted",
    "C87_mapping_always_refuted"
   ],
   "note": "C87_marks_always_refuted (時々々) and C87_mapping_always_refuted (ab deleted from aabb) give the witnesses for the two conditions. The conditions are part of the statement."
  },
  {
   "property": "C88",
   "status": "proved",
   "theorems": [
    "C88_system_found",
    "C88_system_none",
    "C88_system_panics",
    "C88_user_found",
    "C88_user_none",
    "C88_user_panics",
    "C88_no_error",
    "C88_token_panics"
   ],
   "note": "The positions, lengths and UTF-8 condition are stated on the bytes (SDetails), without the decoder."
  },
  {
   "property": "C89",
   "status": "proved",
   "theorems": [
    "C89_unknown_words",
    "C89_categories",
    "C89_user_file",
    "C89_matrix",
    "C89_cut_unknown_words",
    "C89_cut_categories",
    "C89_cut_user_file",
    "C89_written",
    "C89_saved_back",
    "C89_dictionary",
    "C89_dictionary_panics",
    "C89_words_unchecked",
    "C89_user_dictionary",
    "C89_embedded",
    "C89_embedded_no_error",
    "C89_writing"
   ],
   "note": "The formats in SLoad do not use the encoder or decoder. bincode itself is an external crate whose documented format is modelled."
  },
  {
   "property": "C90",
   "status": "proved",
   "theorems": [
    "C90_words",
    "C90_sources",
    "C90_extra_rows",
    "C90_no_user_word",
    "C90_filters",
    "C90_analyze",
    "C90_command",
    "C90_limit_matters"
   ],
   "note": "The limit of 31 rows per surface comes from the five bit count (C15); C90_limit_matters shows that it cannot be dropped."
  },
  {
   "property": "C91",
   "status": "proved",
   "theorems": [
    "C91_modes",
    "C91_decompose",
    "C91_short",
    "C91_zero",
    "C91_analyze",
    "C91_grouping_matters"
   ],
   "note": "No hypothesis on the dictionary. The penalties are those of the independent specification in unbounded integers (STok)."
  },
  {
   "property": "C92",
   "status": "proved",
   "theorems": [
    "C92_options",
    "C92_setup",
    "C92_run",
    "C92_tokenize",
    "C92_build",
    "C92_first"
   ],
   "note": "clap's search for the options in the arguments is not modelled; the values it hands over are."
  },
  {
   "property": "C94",
   "status": "proved",
   "theorems": [
    "C94_words",
    "C94_connections",
    "C94_penalties",
    "C94_one_penalty",
    "C94_unused",
    "C94_scaled"
   ],
   "note": "Costs must stay i16 values (hypothesis that both tokenizers stand for their dictionaries)."
  },
  {
   "property": "C93",
   "status": "proved",
   "theorems": [
    "C93_files",
    "C93_embedded"
   ],
   "note": "Download and unpacking of the real dictionaries are not modelled."
  },
  {
   "property": "C95",
   "status": "proved",
   "theorems": [
    "C95_before",
    "C95_after",
    "C95_apart"
   ],
   "note": "The place is described by the meaning of the dictionary; which places of a given text are such places is not computed."
  },
  {
   "property": "C96",
   "status": "proved",
   "theorems": [
    "C96_clear",
    "C96_often"
   ],
   "note": "The margin is stated over the segmentations that the search considers (C65)."
  },
  {
   "property": "C97",
   "status": "partial",
   "theorems": [
    "C97_success",
    "C97_loads",
    "C97_outcome",
    "C97_elsewhere",
    "C97_prefix",
    "C97_user_prefix",
    "C97_faultless",
    "C97_user",
    "C97_complete_refuted",
    "C97_fresh_refuted"
   ],
   "note": "False as first read (a success does not imply that dict.da is complete: C97_complete_refuted; a failed build in an empty directory can leave something that loads: C97_fresh_refuted); C97_success says exactly what is complete. BufWriter is modelled after std's write_all, flush_buf and drop."
  },
  {
   "property": "C98",
   "status": "proved",
   "theorems": [
    "C98_analyze",
    "C98_same",
    "C98_length",
    "C98_limit",
    "C98_fields"
   ],
   "note": "usize is taken to have 64 bits. The limit on edge numbers is sufficient; only the limit on bytes is shown to matter."
  },
  {
   "property": "C99",
   "status": "proved",
   "theorems": [
    "C99_analyze_panics_or_agrees",
    "C99_analyze",
    "C99_panics_or_agrees",
    "C99_same",
    "C99_built",
    "C99_limit",
    "C99_built_user"
   ],
   "note": "Only 32-bit arithmetic of the search is checked here; the 64-bit offsets of the character filters are the subject of C109, other usize arithmetic is not part of this model."
  },
  {
   "property": "C100",
   "status": "proved",
   "theorems": [
    "C100_built",
    "C100_user"
   ],
   "note": ""
  },
  {
   "property": "C101",
   "status": "proved",
   "theorems": [
    "C101_user_rows",
    "C101_written_out_means_same",
    "C101_written_out",
    "C101_written_out_file",
    "C101_system_rows",
    "C101_system_files"
   ],
   "note": ""
  },
  {
   "property": "C102",
   "status": "proved",
   "theorems": [
    "C102_prints",
    "C102_wakati",
    "C102_wakati_ink",
    "C102_mecab"
   ],
   "note": ""
  },
  {
   "property": "C103",
   "status": "proved",
   "theorems": [
    "C103_offsets",
    "C103_one_more",
    "C103_fails"
   ],
   "note": ""
  },
  {
   "property": "C104",
   "status": "partial",
   "theorems": [
    "C104_loads",
    "C104_outcome",
    "C104_example",
    "C104_sources",
    "C104_total_refuted"
   ],
   "note": "The exact outcome is proved for all texts; the claim that the shipped configuration never panics is refuted (C104_total_refuted: two number words 十百)."
  },
  {
   "property": "C105",
   "status": "proved",
   "theorems": [
    "C105_cut",
    "C105_within_sentence",
    "C105_document",
    "C105_filters",
    "C105_no_compound",
    "C105_delimiter",
    "C105_condition_matters"
   ],
   "note": "The tokenizer stands for a dictionary (represents), as in C06."
  },
  {
   "property": "C106",
   "status": "proved",
   "theorems": [
    "C106_cut",
    "C106_mapping",
    "C106_normalize",
    "C106_lengths",
    "C106_marks",
    "C106_regex",
    "C106_chain",
    "C106_across_matters"
   ],
   "note": "The tokenizer stands for a dictionary (represents) that covers the filtered text, as in C01."
  },
  {
   "property": "C107",
   "status": "partial",
   "theorems": [
    "C107_places",
    "C107_line",
    "C107_offsets_refuted"
   ],
   "note": "False as first read for lines that begin with white space (C107_offsets_refuted, the line \"  ab\"); C107_places and C107_line say exactly where the words stand."
  },
  {
   "property": "C108",
   "status": "partial",
   "theorems": [
    "C108_same",
    "C108_any",
    "C108_normal",
    "C108_decompose_refuted",
    "C108_two_categories_refuted"
   ],
   "note": "False as first read (C108_decompose_refuted for decompose mode, C108_two_categories_refuted for normal mode with two categories for a character; both families have every length); C108_any and C108_normal are the bounds that hold. With one category C108_any is attained, and C108_normal nearly (C108_normal_ex)."
  },
  {
   "property": "C109",
   "status": "proved",
   "theorems": [
    "C109_analyze",
    "C109_any_chain",
    "C109_numbers",
    "C109_numbers_release",
    "C109_mapping",
    "C109_normalization",
    "C109_regex",
    "C109_regex_expanding",
    "C109_record_panics_or_agrees",
    "C109_correct_panics_or_agrees",
    "C109_position_lengths",
    "C109_token_filter",
    "C109_join_panics",
    "C109_token_mapping"
   ],
   "note": "The statements are about MOffset64.v, MAnalyzer64.v, MPosition64.v and MTokenMap64.v (and MNumber64.v for the release build), in which the operations are checked; they also justify that MCharFilter.v does the i64 arithmetic in Z. The mapping token filter is treated by itself (C109_token_mapping), since the texts of its tokens may come from other filters."
  },
  {
   "property": "C110",
   "status": "proved",
   "theorems": [
    "C110_agrees",
    "C110_matrix",
    "C110_matrix_usual",
    "C110_words",
    "C110_matrix_differs",
    "C110_build_agrees",
    "C110_build",
    "C110_build_readable",
    "C110_user",
    "C110_from_sources"
   ],
   "note": "Reading and writing of files has no checked arithmetic. usize arithmetic is not checked."
  }
 ]
}