{"id": "C01", "title": "Tokens tile the input text", "statement": "Tokenizer::tokenize(text) returns tokens whose texts, concatenated, are exactly text; byte_start of the first is 0, each byte_end equals the next byte_start, the last byte_end is text.len(), text[byte_start..byte_end] is the token's text, no token is empty, and position counts 0,1,2,... in both modes.", "quantifier": "For every text, both modes, every penalty, with or without a user dictionary, for every dictionary in which each character has at least one category and each category has at least one unknown-word entry.", "why_tests_cant": "Tests check a handful of sentences against one dictionary; reachability of the end of the sentence depends on the interaction of greedy unknown-word spans with dictionary words at every position.", "anchors": ["lindera-tokenizer/src/tokenizer.rs:223-281", "lindera-core/src/viterbi.rs:86-174", "lindera-core/src/viterbi.rs:177-225", "lindera-core/src/viterbi.rs:274-290"]}
{"id": "C02", "title": "No text is lost for any dictionary the builders accept", "statement": "The tiling of C01 also holds when a category of char.def has no line in unk.def, or no category is assigned to a character.", "quantifier": "For every dictionary that the builders produce without an error.", "why_tests_cant": "The bundled dictionaries all have unk.def lines for every category, so no shipped test reaches the case.", "anchors": ["lindera-core/src/viterbi.rs:196-225", "lindera-core/src/viterbi.rs:274-290", "lindera-tokenizer/src/tokenizer.rs:235-276", "lindera-core/src/unknown_dictionary.rs:86-94"]}
{"id": "C03", "title": "Tokenization does not panic on a well-formed dictionary", "statement": "tokenize returns Ok and every slice and array index it performs is in range: all edges start and end on character boundaries of the sentence, every matrix index is inside the matrix and every character category is defined.", "quantifier": "For every text and every dictionary whose keys are valid UTF-8, whose context ids are below the matrix sizes and whose categories are covered.", "why_tests_cant": "Slicing at a non-boundary only panics for particular mixtures of 1-4 byte characters and key sets.", "anchors": ["lindera-core/src/viterbi.rs:86-233", "lindera-core/src/prefix_dict.rs:36-54", "lindera-tokenizer/src/tokenizer.rs:223-281", "lindera-core/src/connection.rs:29-32"]}
{"id": "C04", "title": "The returned segmentation has minimum cost", "statement": "The sum of word costs, connection costs (from BOS to EOS) and mode penalties along the returned tokens is no larger than that of any other chain of candidate words covering the sentence; candidates are the dictionary words and unknown words the lattice admits.", "quantifier": "For every sentence whose costs cannot overflow an i32, every dictionary, both modes.", "why_tests_cant": "The number of chains is exponential in the sentence length; a test only compares with one expected answer.", "anchors": ["lindera-core/src/viterbi.rs:86-174", "lindera-core/src/viterbi.rs:246-272", "lindera-core/src/viterbi.rs:274-290", "lindera-core/src/connection.rs:29-32", "lindera-core/src/mode.rs:29-44"]}
{"id": "C05", "title": "Path costs stay inside i32 for sentences up to a stated length", "statement": "For sentences of at most 32,000 characters in normal mode, or 30,000 characters in decompose mode with the default penalties, every path cost lies strictly between i32::MIN and i32::MAX and no addition wraps; for long enough sentences the sum does wrap.", "quantifier": "For every sentence within the bound and all i16 word and connection costs.", "why_tests_cant": "Needs a sentence of tens of thousands of characters with extreme costs at every edge.", "anchors": ["lindera-core/src/viterbi.rs:246-272", "lindera-core/src/mode.rs:29-44"]}
{"id": "C06", "title": "Sentences are tokenized independently", "statement": "The tokens of a text are the concatenation of the tokens of its sentences (pieces ending in 。、newline or tab) each tokenized alone, with byte offsets and positions shifted; reusing the lattice across sentences has no effect, and splitting the text after any delimiter gives the same tokens.", "quantifier": "For every text, every dictionary, both modes, and every previous content of the reused lattice.", "why_tests_cant": "State leaking through the reused lattice only shows for particular orders of long and short sentences.", "anchors": ["lindera-tokenizer/src/tokenizer.rs:223-281", "lindera-core/src/viterbi.rs:65-83", "lindera-core/src/viterbi.rs:86-174"]}
{"id": "C07", "title": "No token crosses a sentence delimiter", "statement": "A delimiter (。、newline, tab) can only be the last character of a token.", "quantifier": "For every text and dictionary, including dictionaries with words that contain delimiters.", "why_tests_cant": "Needs dictionary words that contain delimiters; the shipped ones are not known to.", "anchors": ["lindera-tokenizer/src/tokenizer.rs:233-241"]}
{"id": "C08", "title": "Every token is a dictionary word with that exact surface, or unknown", "statement": "A token whose word id is a system (user) id comes from a system (user) dictionary entry whose key is exactly the token's text; all other tokens are unknown and their details are [\"UNK\"].", "quantifier": "For every text and pair of dictionaries.", "why_tests_cant": "Needs comparing every token with its dictionary entry for all texts; byte_end is taken from the next token rather than from the word itself.", "anchors": ["lindera-core/src/viterbi.rs:86-174", "lindera-tokenizer/src/tokenizer.rs:243-276", "lindera-tokenizer/src/token.rs:78-97"]}
{"id": "C09", "title": "Unknown-word candidates follow char.def", "statement": "An unknown candidate at a position exists only if the category of the first character has invoke set or no dictionary word starts there; it spans one character, or with group set the maximal run of characters having that category at the same rank; one candidate is made for each unk.def entry of the category.", "quantifier": "For every sentence, position, category list and dictionary.", "why_tests_cant": "Depends on rank-by-rank comparison of category lists for arbitrary characters.", "anchors": ["lindera-core/src/viterbi.rs:140-225", "lindera-core/src/character_definition.rs:246-262", "lindera-core/src/unknown_dictionary.rs:25-31"]}
{"id": "C10", "title": "All dictionary words at reachable positions compete", "statement": "The chosen segmentation costs no more than any segmentation made of user and system dictionary words only; in decompose (search) mode also no more than any segmentation mixing in unknown words allowed by char.def.", "quantifier": "For every sentence within the cost bound and every dictionary.", "why_tests_cant": "A missed candidate only shows when it would have been the unique optimum.", "anchors": ["lindera-core/src/viterbi.rs:86-174", "lindera-core/src/prefix_dict.rs:36-54"]}
{"id": "C11", "title": "Decompose penalty", "statement": "Penalty is 0 up to kanji_penalty_length_threshold; above it kanji-only words pay (n - kanji threshold) * kanji penalty and other words pay (n - other threshold) * other penalty above the other threshold and 0 below; with n the byte length div 3. For words of three-byte characters n is the character count; normal mode never pays.", "quantifier": "For all penalties whose product fits in i32 and all edges.", "why_tests_cant": "Threshold comparisons and the byte/3 estimate differ only on specific lengths and scripts.", "anchors": ["lindera-core/src/mode.rs:29-60", "lindera-core/src/viterbi.rs:40-62"]}
{"id": "C12", "title": "Word entries survive serialization", "statement": "WordEntry::deserialize(serialize(e), is_system) gives back id, cost, left id and right id, and the serialized form has exactly SERIALIZED_LEN bytes.", "quantifier": "For every u32 id, i16 cost, u16 ids.", "why_tests_cant": "Tests use one or two values; sign and byte order errors only show on particular bit patterns.", "anchors": ["lindera-core/src/word_entry.rs:1-90"]}
{"id": "C13", "title": "System dictionary lookup returns exactly the built rows", "statement": "After building a dictionary from CSV rows, prefix(text) yields, by increasing length, exactly the rows whose (normalized) surface is a non-empty prefix of text, each with its own cost, context ids and word id, in row order; find_surface(s) yields those with surface s.", "quantifier": "For every non-empty list of well-formed rows with fewer than 32 rows per surface and fewer than 2^26 rows, with and without normalization and invalid-row skipping.", "why_tests_cant": "Quantifies over all dictionaries and texts; the packing of id and length into one u32 only fails at particular sizes.", "anchors": ["lindera-dictionary-builder/src/dict.rs:44-262", "lindera-core/src/prefix_dict.rs:23-75"]}
{"id": "C14", "title": "User dictionary lookup returns exactly the built rows", "statement": "After building a user dictionary from CSV rows, prefix(text) yields exactly the rows whose surface is a non-empty prefix of text, marked as user entries, with simple rows given the simple cost and context id and detailed rows their own.", "quantifier": "For every non-empty list of acceptable rows with fewer than 32 rows per surface.", "why_tests_cant": "As C13.", "anchors": ["lindera-dictionary-builder/src/user_dict.rs:41-161", "lindera-core/src/prefix_dict.rs:23-75"]}
{"id": "C15", "title": "Any number of homographs is looked up", "statement": "The lookups of C13 and C14 return all rows of a surface however many rows share it.", "quantifier": "For every number of rows with the same surface.", "why_tests_cant": "Shipped test dictionaries have at most a few rows per surface; the length is packed into 5 bits.", "anchors": ["lindera-dictionary-builder/src/dict.rs:200-257", "lindera-dictionary-builder/src/user_dict.rs:110-161", "lindera-core/src/prefix_dict.rs:36-75"]}
{"id": "C16", "title": "System word details round trip", "statement": "word_details(id) of the built dictionary returns the fields of the row with that id from the fifth on (normalized if asked), also when rows are skipped; ids past the end give None.", "quantifier": "For every non-empty list of rows with at least five fields without NUL and total size below 2^32.", "why_tests_cant": "Offsets are accumulated over all rows; off-by-one errors show only for particular sizes.", "anchors": ["lindera-dictionary-builder/src/dict.rs:150-257", "lindera-core/src/dictionary.rs:24-41"]}
{"id": "C17", "title": "User word details round trip", "statement": "word_details(id) of the built user dictionary returns the row's details: all fields from the fourth/fifth for detailed rows, the dictionary kind's expansion for simple rows (surface, part of speech and reading at the kind's indices); ids past the end give None.", "quantifier": "For every non-empty list of acceptable rows.", "why_tests_cant": "As C16, and there are five kinds of expansions.", "anchors": ["lindera-dictionary-builder/src/user_dict.rs:41-161", "lindera-core/src/dictionary.rs:57-67", "lindera-ipadic-builder/src/ipadic_builder.rs:1-125"]}
{"id": "C18", "title": "Malformed user dictionary rows are reported as errors", "statement": "A row with too few fields or an unparsable number makes build return an error; it never panics and never yields a dictionary.", "quantifier": "For every list of rows.", "why_tests_cant": "Tests try two malformed files; the panic needs a row with fewer than four fields that is not a simple row.", "anchors": ["lindera-dictionary-builder/src/user_dict.rs:60-125"]}
{"id": "C19", "title": "Connection costs round trip", "statement": "After building matrix.def and loading it, cost(forward, backward) is the cost on the last line naming that pair, or i16::MAX if none does.", "quantifier": "For every matrix with both sizes at most 32767 and every pair in range; fails for larger backward sizes.", "why_tests_cant": "Index arithmetic errors show only off the diagonal; the sizes are stored as i16.", "anchors": ["lindera-dictionary-builder/src/cost_matrix.rs:28-82", "lindera-core/src/connection.rs:1-33"]}
{"id": "C20", "title": "Character categories match char.def", "statement": "lookup_categories(c) of the built definitions returns the categories of all ranges containing c, in file order without repeats, or DEFAULT if none does and DEFAULT is defined.", "quantifier": "For every char.def content and every code point.", "why_tests_cant": "The boundary table and binary search must be right at every range boundary of every range list.", "anchors": ["lindera-core/src/character_definition.rs:49-76", "lindera-core/src/character_definition.rs:102-144", "lindera-core/src/character_definition.rs:231-262"]}
{"id": "C21", "title": "Category definitions belong to their category", "statement": "lookup_definition(id of category X) is the invoke/group/length line of X in char.def.", "quantifier": "For every char.def in which each category mentioned has exactly one category line and that line is its first mention; not for others.", "why_tests_cant": "Shipped char.def files list each category once, before the ranges.", "anchors": ["lindera-core/src/character_definition.rs:110-116", "lindera-core/src/character_definition.rs:167-244"]}
{"id": "C22", "title": "Unknown dictionary entries belong to their category", "statement": "lookup_word_ids(category) lists exactly the unk.def lines whose surface is the category's name, in order, and word_entry of such an id has that line's cost and context ids and is marked unknown.", "quantifier": "For every unk.def and category list whose numbers fit the target types.", "why_tests_cant": "Quantifies over all files; the casts truncate silently.", "anchors": ["lindera-core/src/unknown_dictionary.rs:20-133"]}
{"id": "C23", "title": "Saved dictionaries load back unchanged", "statement": "bincode deserialization of the serialized user dictionary, character definitions and unknown dictionary gives back equal values, and consumes nothing else.", "quantifier": "For every value whose integers fit their types and strings are valid UTF-8.", "why_tests_cant": "Only a few shipped files are tested.", "anchors": ["lindera-core/src/dictionary.rs:44-67", "lindera-core/src/character_definition.rs:38-100", "lindera-core/src/unknown_dictionary.rs:10-31", "lindera-dictionary-builder/src/user_dict.rs:150-161"]}
{"id": "C24", "title": "Mapping character filter is leftmost-longest replacement", "statement": "The filtered text is the concatenation, from left to right, of the replacement of the longest key that is a prefix of the remaining text, or of one unchanged character if there is none.", "quantifier": "For every non-empty mapping with non-empty keys and every text.", "why_tests_cant": "Overlapping keys of different lengths need particular texts.", "anchors": ["lindera-filter/src/character_filter/mapping.rs:75-137"]}
{"id": "C25", "title": "Mapping and normalization offsets point back into the source", "statement": "With the offsets and diffs returned by the mapping filter or the unicode_normalize filter, correct_offset maps every boundary between replaced segments in the filtered text to the source position of that boundary (the last one if segments were deleted there), never underflows, is monotone and stays within the source text.", "quantifier": "For every text, mapping and offset.", "why_tests_cant": "Accumulated diffs of mixed growing, shrinking and deleting replacements are only right if every earlier one was.", "anchors": ["lindera-filter/src/character_filter.rs:59-104", "lindera-filter/src/character_filter/mapping.rs:75-137", "lindera-filter/src/character_filter/unicode_normalize.rs:70-115"]}
{"id": "C26", "title": "Regex filter offsets point back into the source", "statement": "The same as C25 for the regex filter.", "quantifier": "For every pattern, text and replacement without $, if no match is empty or the replacement is empty. Counterexamples are given for an empty match and for a replacement with $.", "why_tests_cant": "Tests use literal patterns only; empty matches and $-expansions are not tried.", "anchors": ["lindera-filter/src/character_filter/regex.rs:63-102", "lindera-filter/src/character_filter.rs:59-104"]}
{"id": "C27", "title": "Iteration marks are expanded from the preceding characters", "statement": "The filter keeps the number of characters and all characters that are not enabled iteration marks; the k-th mark of a run of n marks becomes the character min(n, start of run) places before it, with voicing added or removed as the mark says.", "quantifier": "For every text and both switches.", "why_tests_cant": "Runs longer than the text before them, mixed kana and kanji marks and adjacent runs are rarely tested.", "anchors": ["lindera-filter/src/character_filter/japanese_iteration_mark.rs:19-190"]}
{"id": "C28", "title": "Iteration mark filter keeps offsets right", "statement": "The byte offsets of tokens after the iteration mark filter refer to the same characters in the source.", "quantifier": "For every text; holds when the repeated characters are as long as the mark, fails otherwise.", "why_tests_cant": "Tests only repeat three-byte characters.", "anchors": ["lindera-filter/src/character_filter/japanese_iteration_mark.rs:157-190", "lindera-filter/src/character_filter.rs:79-104"]}
{"id": "C29", "title": "Voicing functions", "statement": "add_dakuon maps exactly the voiceable kana to their voiced forms and fixes everything else, remove_dakuon maps exactly the voiced kana back; they are idempotent, mutually inverse on pairs, always give valid characters, and the katakana versions are the hiragana ones shifted by 0x60.", "quantifier": "For every character.", "why_tests_cant": "A parity slip only affects a few kana.", "anchors": ["lindera-filter/src/character_filter/japanese_iteration_mark.rs:19-59"]}
{"id": "C30", "title": "Offset correction through several character filters", "statement": "With any number of offset-recording filters, the analyzer's final byte_start and byte_end of a token are obtained by undoing the filters last to first; a token boundary that is a segment boundary of every filter is mapped to the right place of the original text.", "quantifier": "For every text and list of filters.", "why_tests_cant": "Order of the offset lists matters only when two filters both change lengths at different places.", "anchors": ["lindera-analyzer/src/analyzer.rs:102-171"]}
{"id": "C31", "title": "Word and length filters keep exactly the right tokens", "statement": "length, keep_words and stop_words return the tokens that satisfy the configured test, in order and unchanged; keep and stop words with the same set partition the tokens; all are idempotent.", "quantifier": "For every token list and configuration.", "why_tests_cant": "Boundary lengths and repeated tokens.", "anchors": ["lindera-filter/src/token_filter/length.rs:55-72", "lindera-filter/src/token_filter/keep_words.rs:56-60", "lindera-filter/src/token_filter/stop_words.rs:56-60"]}
{"id": "C32", "title": "Tag filters keep exactly the right tokens", "statement": "japanese_keep_tags/stop_tags compare the first four details (or the first one when there are fewer than four) with the configured tags padded with *; korean ones the first detail; keep and stop partition the tokens; tokens are unchanged and in order.", "quantifier": "For every token list with at least one detail each and every tag set of at most four parts.", "why_tests_cant": "Padding and short details lists interact.", "anchors": ["lindera-filter/src/token_filter/japanese_keep_tags.rs:20-99", "lindera-filter/src/token_filter/japanese_stop_tags.rs:20-99", "lindera-filter/src/token_filter/korean_keep_tags.rs:50-62", "lindera-filter/src/token_filter/korean_stop_tags.rs:50-62"]}
{"id": "C33", "title": "Compound words are the maximal runs of matching tokens", "statement": "The filter replaces each maximal run of at least two consecutive tokens whose tags match by one token with the concatenated text, the first start, the last end, the first position and the summed position_length; all other tokens are unchanged, and the total text and position length are preserved.", "quantifier": "For every token list and tag set.", "why_tests_cant": "Runs at the start, end and next to each other all need to be right at once.", "anchors": ["lindera-filter/src/token_filter/japanese_compound_word.rs:94-181"]}
{"id": "C34", "title": "Kanji numerals become the right decimal numbers", "statement": "to_arabic_numerals maps every well-formed Japanese numeral (sections of 千百十 digits with 万億兆京垓, omitted leading 一 allowed, with any of the digit glyphs) to its value in decimal; digit strings map digit by digit; text without numeral characters is unchanged.", "quantifier": "For every well-formed numeral up to 10^24.", "why_tests_cant": "There are 10^24 numerals; zero padding and implicit ones interact across units.", "anchors": ["lindera-filter/src/token_filter/japanese_number.rs:104-286"]}
{"id": "C35", "title": "The number filter never panics", "statement": "to_arabic_numerals returns for every string.", "quantifier": "For every string.", "why_tests_cant": "Needs a unit character followed by more characters than the unit has zeros, e.g. 十二指腸.", "anchors": ["lindera-filter/src/token_filter/japanese_number.rs:130-286"]}
{"id": "C36", "title": "Katakana stemming", "statement": "Exactly the tokens that consist of katakana-block characters, end in ー and have more than min characters lose exactly that final character; all other tokens are unchanged.", "quantifier": "For every token list and min, for characters that belong to a Unicode block.", "why_tests_cant": "Character count against byte count, and which characters count as katakana.", "anchors": ["lindera-filter/src/token_filter/japanese_katakana_stem.rs:69-101"]}
{"id": "C37", "title": "Reading and base form filters", "statement": "Known tokens get the detail at the dictionary kind's index as text, unknown tokens and all other fields stay; the details made for user dictionary rows of each kind are long enough for the kind's index.", "quantifier": "For every token list whose details are long enough.", "why_tests_cant": "Indices differ per dictionary kind; short details panic.", "anchors": ["lindera-filter/src/token_filter/japanese_reading_form.rs:58-84", "lindera-filter/src/token_filter/japanese_base_form.rs:59-85", "lindera-filter/src/token_filter/korean_reading_form.rs:30-38"]}
{"id": "C38", "title": "Text filters leave offsets, positions and details alone", "statement": "mapping, lowercase, uppercase, number, katakana stem, reading and base form token filters keep the number and order of tokens and change only their text.", "quantifier": "For every token list and configuration.", "why_tests_cant": "Tests compare a few fields of a few tokens.", "anchors": ["lindera-filter/src/token_filter/mapping.rs:72-113", "lindera-filter/src/token_filter/lowercase.rs:30-36", "lindera-filter/src/token_filter/uppercase.rs:30-36", "lindera-filter/src/token_filter/japanese_number.rs:104-127"]}
{"id": "C39", "title": "Names parse back to the value they name", "statement": "FromStr of Mode, DictionaryKind and the CLI's Format accepts exactly the documented names, inverts as_str, and rejects every other string with an error; the dictionary loaded is chosen by kind first, then path, and an empty configuration is an error.", "quantifier": "For every string and configuration.", "why_tests_cant": "All strings.", "anchors": ["lindera-core/src/mode.rs:46-80", "lindera-dictionary/src/lib.rs:40-80", "lindera-dictionary/src/lib.rs:210-264", "lindera-cli/src/main.rs:95-114"]}
{"id": "C40", "title": "Compression round trip", "statement": "decompress(compress(data, algorithm)) is data for each algorithm, and the bytes written with compress_write are recovered by decoding the stored record; Raw stores the data itself.", "quantifier": "For every byte string and algorithm, given that each flate2 decoder inverts its encoder.", "why_tests_cant": "All byte strings.", "anchors": ["lindera-compress/src/lib.rs:1-60", "lindera-decompress/src/lib.rs:1-48", "lindera-dictionary-builder/src/utils.rs:1-40"]}
{"id": "C41", "title": "Token details are looked up once and from the right dictionary", "statement": "get_details returns [\"UNK\"] for unknown ids, the system dictionary's details for system ids and the user dictionary's for others; repeated calls return the same value as the first.", "quantifier": "For every token and pair of dictionaries.", "why_tests_cant": "Caching bugs only show on repeated calls.", "anchors": ["lindera-tokenizer/src/token.rs:60-103"]}
{"id": "C42", "title": "Filter flags on the command line", "statement": "parse_cli_flag splits at the first colon into the kind and the JSON arguments; arguments may contain further colons; a flag without a colon is an error.", "quantifier": "For every flag string.", "why_tests_cant": "All strings.", "anchors": ["lindera-filter/src/lib.rs:10-17"]}
{"id": "C43", "title": "Command line output", "statement": "wakati output is the token texts separated by single spaces and ended by a newline, mecab output has one line per token followed by EOS.", "quantifier": "For every token list.", "why_tests_cant": "The empty token list is not tested.", "anchors": ["lindera-cli/src/main.rs:133-178"]}
{"id": "C44", "title": "Unknown words do not shadow longer analyses in normal mode", "statement": "In normal mode no unknown candidate starts strictly inside the most recently generated unknown span, and every position where the scan is not inside such a span gets unknown candidates; so a run of grouped unknown characters yields one candidate, not one per suffix.", "quantifier": "For every sentence and dictionary.", "why_tests_cant": "Depends on the whole scan history.", "anchors": ["lindera-core/src/viterbi.rs:140-174", "lindera-core/src/viterbi.rs:177-225"]}
{"id": "C45", "title": "UTF-8 prefix matching agrees with character prefixes", "statement": "A key that is valid UTF-8 and a byte prefix of a valid text is a character prefix of it, so every match of the byte-level trie ends on a character boundary.", "quantifier": "For all pairs of strings.", "why_tests_cant": "All strings.", "anchors": ["lindera-core/src/prefix_dict.rs:36-75", "lindera-filter/src/character_filter/mapping.rs:75-137"]}
{"id": "C46", "title": "Numerals next to other characters keep their value", "statement": "to_arabic_numerals of a numeral followed or preceded by text without digits and units is the value of the numeral followed or preceded by that text.", "quantifier": "For every numeral and every other text.", "why_tests_cant": "The tests only use whole tokens that are numerals.", "anchors": ["lindera-filter/src/token_filter/japanese_number.rs:130-138", "lindera-filter/src/token_filter/japanese_number.rs:140-286"]}
{"id": "C47", "title": "Token filters are made from their JSON arguments", "statement": "TokenFilterLoader::load_from_value succeeds exactly when the kind is one of the seventeen names and the arguments have the fields that the filter needs with values of the right type and range; the filter carries those values (tags padded to four parts); an absent argument works only for the four filters that need none; every other input is a Deserialize error and never a panic. An array stands for the fields in the order of their declaration and needs all of them, optional ones too, except that the stem filter takes its default from an empty array; a filter with derived arguments takes no other value.", "quantifier": "For every kind and JSON value.", "why_tests_cant": "The tests load one example of each kind.", "anchors": ["lindera-filter/src/token_filter.rs:115-194"]}
{"id": "C48", "title": "Character filters are made from their JSON arguments", "statement": "CharacterFilterLoader::load_from_value succeeds exactly when the kind is one of the four names and the arguments have the needed fields; an invalid pattern is an Args error, everything else a Deserialize error; it never panics. An array stands for the fields in order and needs all of them.", "quantifier": "For every kind, JSON value and regex engine.", "why_tests_cant": "The tests load one example of each kind.", "anchors": ["lindera-filter/src/character_filter.rs:106-146"]}
{"id": "C49", "title": "An analyzer is made from its JSON configuration", "statement": "Analyzer::from_config makes the filters in the order of the settings, skips settings without a string kind, treats missing lists as empty, requires an object under tokenizer whose only keys are dictionary, user_dictionary and mode with dictionary present, and takes mode normal by default. The dictionaries may be arrays of their two fields.", "quantifier": "For every JSON object with distinct keys.", "why_tests_cant": "The tests use two configurations.", "anchors": ["lindera-analyzer/src/analyzer.rs:44-100", "lindera-tokenizer/src/tokenizer.rs:42-153", "lindera-tokenizer/src/tokenizer.rs:177-188"]}
{"id": "C50", "title": "Configurations survive a JSON round trip", "statement": "Serializing the configuration of a loaded token filter and loading it again gives the same filter; loading the serialized configuration of a character filter is making the filter from the configuration; serializing a TokenizerConfig and deserializing it gives the same configuration.", "quantifier": "For every configuration.", "why_tests_cant": "The tests do not serialize configurations without a user dictionary.", "anchors": ["lindera-tokenizer/src/tokenizer.rs:14-153", "lindera-filter/src/token_filter.rs:115-194"]}
{"id": "C51", "title": "The command line makes the analyzer that its arguments describe", "statement": "The analyzer set up by the tokenize command is the one that Analyzer::from_config makes from the JSON object with the same dictionary, user dictionary, mode and filters; one succeeds exactly when the other does and the output format is known.", "quantifier": "For all arguments whose filter flags have a colon and valid JSON.", "why_tests_cant": "The command line has no tests.", "anchors": ["lindera-cli/src/main.rs:43-78", "lindera-cli/src/main.rs:180-237"]}
{"id": "C52", "title": "Mode names in JSON and on the command line agree", "statement": "A mode name accepted by Mode::from_str is accepted as a JSON string with the same meaning. A penalty may be an array of its four numbers.", "quantifier": "For every name.", "why_tests_cant": "No test deserializes the name decompose.", "anchors": ["lindera-core/src/mode.rs:46-80"]}
{"id": "C53", "title": "A loaded token filter does what its arguments say", "statement": "A token filter loaded from a kind and JSON arguments has exactly the effect that the kind and the arguments describe: length bounds, kept and stopped words and tags, stems, mapping, readings, base forms, compound words, numerals and case.", "quantifier": "For every kind, arguments with distinct keys that load, and token list that suits the kind.", "why_tests_cant": "The tests apply one configuration of each filter.", "anchors": ["lindera-filter/src/token_filter.rs:115-194"]}
{"id": "C54", "title": "A loaded character filter does what its arguments say", "statement": "A character filter loaded from a kind and JSON arguments has exactly the effect that the kind and the arguments describe, and the offsets it records are those of the replaced segments.", "quantifier": "For every kind, arguments with distinct keys that load, and text that suits the kind.", "why_tests_cant": "The tests apply one configuration of each filter.", "anchors": ["lindera-filter/src/character_filter.rs:106-146"]}
{"id": "C55", "title": "A configured analyzer is the composition of its parts", "statement": "The analyzer made of loaded filters applies the character filters in order, then the tokenizer, then the token filters in order, and reports offsets in the original text by undoing the character filters from the last to the first. The first of these parts that fails decides the error (or panic) of the whole.", "quantifier": "For all lists of loaded filters, every tokenizer that represents a dictionary and every suiting text.", "why_tests_cant": "The tests run two configurations on a few texts.", "anchors": ["lindera-analyzer/src/analyzer.rs:44-100", "lindera-analyzer/src/analyzer.rs:102-170"]}
{"id": "C56", "title": "A built dictionary means what its source files say", "statement": "Building a dictionary from char.def, unk.def, matrix.def and CSV files and loading the written files gives a dictionary with exactly the rows' words, numbers and details, the categories of every character, the unknown word entries of every category and the connection costs of the sources. If every category has an unknown word entry, every text can be tokenized in every mode and the tokens tile it.", "quantifier": "For all five dictionary kinds, all readable sources within the format limits, all output directories, modes and texts.", "why_tests_cant": "The tests do not build a dictionary from sources; the build scripts build five fixed ones.", "anchors": ["lindera-ipadic-builder/src/ipadic_builder.rs:36-98", "lindera-dictionary-builder/src/dict.rs:45-257", "lindera-dictionary-builder/src/chardef.rs:27-58", "lindera-dictionary-builder/src/unk.rs:29-59", "lindera-dictionary-builder/src/cost_matrix.rs:27-80", "lindera-dictionary/src/lib.rs:131-184"]}
{"id": "C57", "title": "A compiled user dictionary is the one in the CSV file", "statement": "Loading the file that build_user_dictionary writes gives the same user dictionary as loading the CSV file itself.", "quantifier": "For all dictionary kinds and acceptable rows within the format limits.", "why_tests_cant": "The tests compare a few tokens from one compiled file.", "anchors": ["lindera-dictionary-builder/src/user_dict.rs:40-186", "lindera-dictionary/src/lib.rs:231-249"]}
{"id": "C58", "title": "Embedded and loaded dictionaries are the same", "statement": "The dictionary embedded in the program, compressed or not, is the one that load_dictionary reads from uncompressed files of the same build. Files of a compressed build can be loaded from a directory too.", "quantifier": "For all kinds, sources, and codecs that are inverse.", "why_tests_cant": "The feature compress is tested with embedded dictionaries only.", "anchors": ["lindera-ipadic/src/lib.rs:26-94", "lindera-dictionary/src/lib.rs:131-184", "lindera-compress/src/lib.rs:1-60", "lindera-decompress/src/lib.rs:1-48"]}
{"id": "C59", "title": "Faulty sources are reported as errors", "statement": "A build from sources with a missing or malformed file returns an error of the kind that belongs to the fault.", "quantifier": "For all kinds and every fault: missing files, malformed lines of char.def and unk.def, CSV files with unequal rows or unreadable numbers.", "why_tests_cant": "No test builds from faulty sources.", "anchors": ["lindera-ipadic-builder/src/ipadic_builder.rs:36-47", "lindera-ko-dic-builder/src/ko_dic_builder.rs:35-46", "lindera-cc-cedict-builder/src/cc_cedict_builder.rs:35-46"]}
{"id": "C60", "title": "The build command compiles user dictionaries", "statement": "lindera build --build-user-dictionary on a file NAME.csv writes one file, NAME.bin in the destination directory, and loading it as a user dictionary gives what loading the CSV file gives. For any source path, the file is named after the last part of the path, with its extension replaced by bin (or bin added when there is none, a leading dot not counting); a path without a last name, such as one ending in .., gives an I/O error.", "quantifier": "For all kinds, directories, names without a slash, and acceptable rows.", "why_tests_cant": "The command line has no tests.", "anchors": ["lindera-cli/src/main.rs:84-93", "lindera-cli/src/main.rs:282-297", "lindera-dictionary/src/lib.rs:245-265"]}
{"id": "C61", "title": "A dictionary is loaded from its seven files and nothing else", "statement": "load_dictionary depends on the seven dictionary files only, and returns an error if one is missing. It never panics.", "quantifier": "For all environments and directories.", "why_tests_cant": "No test loads from an incomplete or damaged directory.", "anchors": ["lindera-dictionary/src/lib.rs:127-184", "lindera-core/src/connection.rs:12-28"]}
{"id": "C62", "title": "A user dictionary may mix simple and detailed rows", "statement": "A CSV file of acceptable rows, simple and detailed ones mixed, loads as a user dictionary.", "quantifier": "For all kinds and rows.", "why_tests_cant": "The tests have one file per format and kind.", "anchors": ["lindera-dictionary-builder/src/user_dict.rs:44-56", "lindera-unidic-builder/src/unidic_builder.rs:90-125", "lindera-ipadic-builder/src/ipadic_builder.rs:95-125"]}
{"id": "C63", "title": "Every token and its details come from a source row", "statement": "With a dictionary built from its source files and a user dictionary, tokenizing any text gives tokens that cover it. Each token's text and details are those of a row of the user dictionary, of a row of the dictionary's CSV files, or it is an unknown word (details UNK) whose first character has a category with a line in unk.def.", "quantifier": "For all source files within the format's limits, all acceptable user rows with context ids inside the matrix, both modes and all texts.", "why_tests_cant": "The tests tokenize a few phrases with one user word each.", "anchors": ["lindera-core/src/dictionary.rs:1-60", "lindera-tokenizer/src/tokenizer.rs:215-420", "lindera-dictionary-builder/src/dict.rs:25-262", "lindera-dictionary-builder/src/user_dict.rs:25-186"]}
{"id": "C64", "title": "Ties between segmentations are broken in a fixed way", "statement": "Among the considered segmentations of a sentence with the lowest cost, the answer is fixed by the dictionary: compared word by word from the end of the sentence with any other cheapest one, it has the longer word at the first difference, or the same word with an entry that comes earlier (user entries, then system entries in dictionary order, then unknown words by category rank and line order).", "quantifier": "For all tokenizers that represent a dictionary, all covered texts, all sentences whose costs fit 32 bits, both modes.", "why_tests_cant": "Ties are rare in example texts, and the tests do not look at which of two equal paths was chosen.", "anchors": ["lindera-core/src/viterbi.rs:86-175", "lindera-core/src/viterbi.rs:177-240", "lindera-core/src/viterbi.rs:246-272"]}
{"id": "C65", "title": "The answer of the search is determined by the dictionary", "statement": "Which words the search looks at is fixed by the dictionary, the mode and the sentence: all dictionary words at reachable positions, and unknown words there unless (in normal mode) the last unknown-word span made before still runs over the position. A sentence whose end these words cannot reach gives no tokens. Otherwise the tokens are the preferred cheapest path of these words, and no other answer satisfies this specification.", "quantifier": "For all tokenizers that represent a dictionary, all texts (covered or not), both modes; uniqueness for sentences whose costs fit 32 bits and dictionaries without repeated entries.", "why_tests_cant": "The tests compare a few outputs; they cannot show that a complete rule predicts every output, or what happens with characters that unk.def does not cover.", "anchors": ["lindera-core/src/viterbi.rs:86-226", "lindera-core/src/viterbi.rs:246-290", "lindera-tokenizer/src/tokenizer.rs:215-420"]}
{"id": "C66", "title": "The tokens of an analyzer stay in order", "statement": "Whatever character filters (that record their offsets) and token filters an analyzer has, its tokens come in text order and do not overlap: each starts at or after the end of the one before, ends at or after its start, and none ends after the original text. Their positions do not overlap either: each is at least the position of the one before plus its position length, and position lengths are not zero. If no filter removes tokens, there are no gaps: the byte ranges lie side by side up to the end of the text and the positions run from 0 to the number of the tokenizer's tokens.", "quantifier": "For all tokenizers that represent a dictionary, all character filters that record their replaced segments, all lists of the seventeen token filters with any settings, all texts; the first part needs no coverage by unk.def.", "why_tests_cant": "The tests look at a few analyzers with fixed filters; combinations of filters, offsets through several filters and merged or removed tokens are not covered.", "anchors": ["lindera-analyzer/src/analyzer.rs:102-171", "lindera-filter/src/token_filter/japanese_compound_word.rs:94-181", "lindera-filter/src/character_filter.rs:79-110"]}
{"id": "C67", "title": "Numbers in the source files are read exactly", "statement": "A field is read as a 16 or 32 bit number exactly when it is a sign (a plus, or a minus for the signed types) or no sign, followed by one digit or more, whose value in base ten fits the type; everything else is refused. A code point of char.def is read exactly when it is any number of 0x followed by a hexadecimal number up to FFFF other than FEFF and FFFE; surrogates become U+FFFD. Every number can be written, and a digit string has one value.", "quantifier": "For all strings and all numbers.", "why_tests_cant": "Tests read a few well-formed files; overflow, signs, empty fields and repeated 0x prefixes have infinitely many cases.", "anchors": ["lindera-core/src/character_definition.rs:11-30", "lindera-core/src/unknown_dictionary.rs:42-67", "lindera-dictionary-builder/src/cost_matrix.rs:27-73", "lindera-dictionary-builder/src/dict.rs:44-262"]}
{"id": "C68", "title": "Lines and fields are split exactly", "statement": "The lines of a file are its parts between newlines, without a carriage return in front of a newline, and without an empty last line. The fields of a line are its longest parts free of white space (Unicode's or ASCII's, whichever the caller uses). Splitting at a character gives the parts between its occurrences, empty ones included; splitting at a string takes its occurrences from the left; trimming removes exactly the white space at both ends; prefixes are removed as often as they occur.", "quantifier": "For all strings, separators and nonempty separator strings.", "why_tests_cant": "Tests use files with ordinary line ends and single blanks; mixed line ends, wide spaces, overlapping separators and empty parts are not covered.", "anchors": ["lindera-core/src/character_definition.rs:146-229", "lindera-core/src/unknown_dictionary.rs:42-133", "lindera-dictionary-builder/src/cost_matrix.rs:27-73"]}
{"id": "C69", "title": "The formats of the source files, and writing them", "statement": "char.def, unk.def and matrix.def are read as lists of definitions exactly when they follow formats given line by line: comments, blank lines, code points and ranges with category names, categories with three numbers; comma separated lines with a fixed number of fields; lines of numbers. Every list of ranges and categories, every list of unknown words and every list of costs within the limits has a file, and what the code builds from that file gives back exactly the categories of each character, the unknown words of each category and the cost of each pair.", "quantifier": "For all files, all lists of definitions whose names and numbers can be written, all sizes up to 32767.", "why_tests_cant": "Tests build a few dictionaries from fixed files; which files are accepted and which definitions can be written are statements about all of them.", "anchors": ["lindera-core/src/character_definition.rs:146-244", "lindera-core/src/unknown_dictionary.rs:42-133", "lindera-dictionary-builder/src/cost_matrix.rs:27-73", "lindera-dictionary-builder/src/chardef.rs:27-56"]}
{"id": "C70", "title": "Which sources build", "statement": "A dictionary build succeeds only if char.def, unk.def, matrix.def and the CSV files are there and follow their formats: every row has at least four fields, numbers of the right size in the second to fourth (CC-CEDICT rows may lack them) and details of less than 4 GiB; matrix.def has two sizes and lines that name cells of the table. Conversely such sources always build, if their words can be keys of a trie, yada builds the trie and compression does not fail. A user dictionary builds in the same way exactly from rows of three fields or of the full length with numbers that fit.", "quantifier": "For all kinds of dictionary, all directories and contents of files, all environments; sources that are to build have at least one usable row.", "why_tests_cant": "Tests build the few dictionaries that exist; that nothing else is accepted and nothing well-formed refused concerns all files.", "anchors": ["lindera-dictionary-builder/src/dict.rs:44-262", "lindera-dictionary-builder/src/user_dict.rs:41-160", "lindera-dictionary-builder/src/cost_matrix.rs:27-80", "lindera-dictionary-builder/src/chardef.rs:27-56", "lindera-dictionary-builder/src/unk.rs:30-57"]}
{"id": "C71", "title": "Numbers that do not fit are refused", "statement": "A source file with a number outside the range of the field it is stored in is refused. Refuted: unk.def takes context ids of 32 bits and costs of 32 bits and stores their low 16 bits; matrix.def does the same with costs, and an id past the end of its row names a pair of a later row. Exactly: each unknown word gets its numbers modulo 2^16, and each pair the cost, modulo 2^16, on the last line whose ids name its cell modulo 2^32. Rows of words and of user dictionaries are held to the ranges.", "quantifier": "For all files in the formats of C69 and all sizes up to 32767.", "why_tests_cant": "Tests use dictionaries whose numbers fit; a silent reduction is not visible in them.", "anchors": ["lindera-core/src/unknown_dictionary.rs:42-113", "lindera-dictionary-builder/src/cost_matrix.rs:27-80", "lindera-dictionary-builder/src/dict.rs:44-262", "lindera-dictionary-builder/src/user_dict.rs:41-160"]}
{"id": "C72", "title": "A user dictionary never makes the result dearer", "statement": "With a user dictionary added, the total cost of the words found in a sentence is at most what it was without. Refuted in both modes: a user word at a place where only unknown words were found makes these disappear, and in normal mode a user word that ends at a new place can switch off places after it even if it starts where a system word starts. It holds in decompose mode for sentences where user words start only at places that already had words or whose categories always make unknown words, and in both modes for sentences that were made of dictionary words alone.", "quantifier": "For all dictionaries, user dictionaries, texts whose sentences keep path costs within 32 bits, and both modes.", "why_tests_cant": "A test compares a few texts; whether adding words can ever hurt depends on how unknown words are suppressed and positions deactivated in every possible text.", "anchors": ["lindera-core/src/viterbi.rs:86-272", "lindera-tokenizer/src/tokenizer.rs:223-320"]}
{"id": "C73", "title": "Decompose mode looks at more words than normal mode", "statement": "Every word that normal mode looks at in a sentence is looked at in decompose mode too. So the answer of decompose mode, by its own measure, is at most as dear as the answer of normal mode, it exists whenever that one does, and if the answer of normal mode has no penalized word then decompose mode finds words that cost at most as much.", "quantifier": "For all dictionaries, user dictionaries, penalties, and texts whose sentences keep path costs within 32 bits.", "why_tests_cant": "Relates two runs of the search on every text; tests compare modes on a handful of texts.", "anchors": ["lindera-core/src/viterbi.rs:86-272", "lindera-core/src/mode.rs:26-70"]}
{"id": "C74", "title": "What the number filter makes of any text", "statement": "For every text, to_arabic_numerals returns the text read by these rules or panics. A digit glyph becomes its digit, any other character that is no unit stays. A unit is replaced by zeros so that exactly as many bytes follow as its power of ten says (for 十百千: plus the power of the next large unit, if only digits and small units are between), with a 1 in front at the start of the text and after a greater unit. It panics exactly if behind some unit there is more than fits: the bytes up to the next unit, that unit's room and its leading 1.", "quantifier": "For all texts.", "why_tests_cant": "The behaviour on texts that are no numerals (十二指腸, 千円) is accidental; tests cover numerals only.", "anchors": ["lindera-filter/src/token_filter/japanese_number.rs:130-286"]}
{"id": "C75", "title": "The order of the rows and files of a source does not matter", "statement": "Two lists of rows in which, for every surface, the rows with that surface are the same and in the same order give the same build: the same files, the same error or a panic in both cases; in particular rows with different surfaces may come in any order. The same holds for user dictionaries. A dictionary whose source is split over several CSV files does not depend on the order in which the directory is listed if no surface is in two of them.", "quantifier": "For all options and rows with valid surfaces (system and user rows); for all kinds, machines and directories whose CSV files are readable.", "why_tests_cant": "Directory listings differ between machines; a test sees the order of one machine.", "anchors": ["lindera-dictionary-builder/src/dict.rs:45-257", "lindera-dictionary-builder/src/user_dict.rs:41-162"]}
{"id": "C76", "title": "A configured analyzer gives tokens for every text", "statement": "An analyzer whose filters are loaded from settings gives tokens for every text, without an error or a panic, if: its tokenizer cuts every text into tokens with at least n details (or the single detail UNK); no token filter is the number or the katakana stem filter; the base form, reading form and Korean reading form filters read details below n; the compound word filter makes at least n details; and the mapping filters have keys from which a trie can be built. Dictionaries built from complete source files whose rows have n details are such tokenizers, alone and together with any user dictionary that was built.", "quantifier": "For all texts, all settings as described, all dictionaries built from readable and complete sources, all user dictionaries, both modes, and all behaviours of the regex, kana, segmentation and normalization crates that give valid texts and matches in order.", "why_tests_cant": "Whether some text makes a chain of filters panic is a question about all texts and all chains.", "anchors": ["lindera-analyzer/src/analyzer.rs:102-172", "lindera-filter/src/character_filter.rs:59-105", "lindera-filter/src/token_filter/japanese_compound_word.rs:94-195", "lindera-filter/src/token_filter/japanese_base_form.rs:59-86"]}
{"id": "C77", "title": "Settings that say the same make analyzers that do the same", "statement": "If a filter loads from a JSON object, it also loads from every object with the same fields in another order, with its lists of tags or words in another order or with repetitions, and with its mappings in another order, and then gives the same result on every list of tokens or every text. Two analyzer configurations with the same tokenizer settings and filters that agree in this sense, in the same order, load together and give the same result for every text.", "quantifier": "For all names and settings of token filters and character filters, all analyzer configurations whose objects have distinct keys, all environments and all texts.", "why_tests_cant": "HashSet and HashMap iterate in a random order and tests write one order; the claim compares all orders on all texts.", "anchors": ["lindera-filter/src/token_filter.rs:115-194", "lindera-filter/src/character_filter.rs:109-135", "lindera-filter/src/token_filter/mapping.rs:45-60", "lindera-filter/src/token_filter/japanese_keep_tags.rs:20-99", "lindera-analyzer/src/analyzer.rs:45-88"]}
{"id": "C78", "title": "Filters whose order does not matter", "statement": "Filters that keep or drop tokens by tags, words or length can be applied in either order and more than once with the same result. Keeping and stopping the same tags or words split the tokens in two, and one after the other leave nothing. Two filters of one kind can be replaced by one (intersection of what is kept, union of what is stopped). If tags are filtered after the texts were changed without an error, filtering them before gives the same tokens. The base form and reading filters do nothing the second time, and replace what any earlier text filter did, unless a token is unknown.", "quantifier": "For all lists of tokens with at least one detail each, all filters of the named kinds with any settings, and all behaviours of the external conversions.", "why_tests_cant": "A statement about every pair of filters and every list of tokens.", "anchors": ["lindera-filter/src/token_filter/japanese_keep_tags.rs:88-99", "lindera-filter/src/token_filter/japanese_stop_tags.rs:88-99", "lindera-filter/src/token_filter/keep_words.rs:56-60", "lindera-filter/src/token_filter/stop_words.rs:56-60", "lindera-filter/src/token_filter/length.rs:55-74", "lindera-filter/src/token_filter/japanese_base_form.rs:59-86"]}
{"id": "C79", "title": "The search does not grow faster than the text", "statement": "The lattice of a sentence has at most one edge for each word that may start at each of its characters (dictionary words, and the unknown-word entries of the character's categories). If at most K words may start at any place, a sentence of n characters makes at most K n edges and at most K (K n + 1) comparisons of costs. K depends on the dictionary alone: with words of at most N characters, E entries for a word, C categories for a character and U unknown-word entries for a category, 2 N E + C U + 1 will do. A text of n characters gives at most n tokens.", "quantifier": "For all dictionaries, user dictionaries, modes and sentences; no bound on their size.", "why_tests_cant": "A benchmark measures a few texts; a bound on the work for every text of every length cannot be measured.", "anchors": ["lindera-core/src/viterbi.rs:86-175", "lindera-core/src/viterbi.rs:177-240", "lindera-core/src/viterbi.rs:246-272"]}
{"id": "C80", "title": "From source files and a configuration to tokens", "statement": "Take readable, complete source files, and a JSON configuration that names the dictionary built from them (by the directory of the built files, or by the kind of the dictionary embedded in the program, compressed or not), perhaps a user dictionary (a CSV file, or the file compiled from one), and filters whose settings describe harmless filters. Then the analyzer is made without an error, and it gives tokens with valid texts and details for every text. Likewise the tokenize command with such arguments prints the tokens of every line of its input and ends well.", "quantifier": "For all sources, kinds, configurations, filters and texts; no bound on their size.", "why_tests_cant": "An end-to-end test runs one configuration with one dictionary on a few texts; that nothing on the way from the source files to the tokens can fail is a statement about all of them.", "anchors": ["lindera-analyzer/src/analyzer.rs:44-100", "lindera-tokenizer/src/tokenizer.rs:177-188", "lindera-dictionary/src/lib.rs:131-264", "lindera-cli/src/main.rs:180-277"]}
{"id": "C81", "title": "What goes wrong with a configuration", "statement": "Analyzer::from_config gives an analyzer exactly when nothing in the configuration is wrong; otherwise the error it gives is that of something that is wrong. The possible faults are listed: a character filter or token filter that cannot be made, no object under tokenizer, a tokenizer that is not described properly, a dictionary given by neither kind nor path, a kind that is not included, a missing or undecodable dictionary file, a user dictionary with another extension than csv or bin, a CSV file without a kind, a CSV file that is missing, no CSV or refused, a compiled file that is missing or undecodable. It panics only for a matrix file of fewer than four bytes, a user CSV row of fewer than three fields, or a tag of more than four parts. Faults are reported in the order character filters, tokenizer, dictionary, user dictionary, token filters. The extension of a path is that of its last part that is not empty or a single dot. A configuration in a file is that of the JSON value of its text; a missing file gives an Io error and one that is not JSON in UTF-8 a Deserialize error.", "quantifier": "For every JSON value with distinct keys and every environment (files, parsers, included dictionaries).", "why_tests_cant": "The tests try valid configurations only; which error a broken one gives, and that no other panic exists, is a statement about all configurations and file systems.", "anchors": ["lindera-analyzer/src/analyzer.rs:18-100", "lindera-tokenizer/src/tokenizer.rs:42-188", "lindera-dictionary/src/lib.rs:131-264"]}
{"id": "C82", "title": "What goes wrong when a dictionary is built", "statement": "build_dictionary writes a dictionary only when nothing in the sources is wrong, and otherwise stops for something that is wrong, with the error that belongs to it. The faults are listed stage by stage: a missing file; the first line of char.def or unk.def that does not read, with its kind of error; a directory that cannot be listed; the first CSV file that is missing, is no CSV or has records of different lengths; a row whose numbers do not read, or whose details are too long; an empty matrix.def or one with a field that is no number. It panics only when the CSV reader does, for a row of fewer than four fields, and for a matrix.def with too few numbers on a line or a cell outside the table; with KO-DIC and CC-CEDICT every error is a panic. The same for user dictionaries: a missing file, no CSV, records of different lengths, a row whose numbers do not read, a row with too few fields; a panic only for a row of fewer than three fields. The only other error is that of the trie builder.", "quantifier": "For all files, CSV readers, directories, dictionary kinds; compression is assumed to succeed.", "why_tests_cant": "The builders have no tests of broken sources; that no other errors and panics exist is a statement about all file contents.", "anchors": ["lindera-core/src/character_definition.rs:146-229", "lindera-dictionary-builder/src/unk.rs:29-59", "lindera-dictionary-builder/src/dict.rs:45-257", "lindera-dictionary-builder/src/cost_matrix.rs:27-80", "lindera-dictionary-builder/src/user_dict.rs:41-186"]}
{"id": "C83", "title": "Tokenizing ends with any dictionary data", "statement": "Whatever the dictionary contains (damaged tables, categories or word ids that do not exist, a matrix of any size, a user dictionary that does not go with it), tokenizing any text ends: either it panics or it returns tokens, and never an error value. If it returns tokens, every sentence of the text is either cut into tokens completely or dropped as a whole; no token is empty, they are numbered by position, and the byte offsets are those in the text without the dropped sentences (so they do not point into the given text after a dropped sentence).", "quantifier": "For all tokenizers (any byte tables, any mode) and all texts, with no assumption about the dictionary.", "why_tests_cant": "Tests run on good dictionaries only; for damaged ones the claim is about all bytes.", "anchors": ["lindera-tokenizer/src/tokenizer.rs:190-300", "lindera-core/src/viterbi.rs:86-291"]}
{"id": "C84", "title": "When tokenizing panics", "statement": "For a dictionary whose words, categories and unknown entries are readable but whose context ids are any numbers of 16 bits, tokenizing a text panics exactly when in some sentence two neighbouring words of the search (or a word and an end of the sentence) have a cell outside the connection matrix; otherwise the tokens are a cheapest segmentation by the costs found in the cells. In particular a user dictionary whose context ids the matrix does not have is built without complaint; the texts with such words panic, or silently use the cost of another pair.", "quantifier": "For all tokenizers with readable words and all valid texts; for all readable sources and all user rows that fit into the tables.", "why_tests_cant": "No test has context ids outside the matrix, and 'exactly when' is about all texts.", "anchors": ["lindera-core/src/connection.rs:29-32", "lindera-core/src/viterbi.rs:246-291", "lindera-dictionary-builder/src/user_dict.rs:81-150"]}
{"id": "C85", "title": "What the commands tokenize and list print", "statement": "The command `tokenize` on any bytes prints, line by line, the tokens of the trimmed line in the chosen format, and ends successfully after the last line (which may lack its newline). It stops at the first line that is not UTF-8 (with an I/O error), whose analysis fails (with that error) or panics; what was printed for the earlier lines stays printed, and nothing is printed for that line. If the options are wrong, or the input file cannot be opened, nothing is printed. The JSON format shows the text, the details, both byte offsets and the word id of each token. The command `list` prints, in the order of the declaration, exactly the names of the dictionary kinds that are compiled in.", "quantifier": "For all environments, options, analyzers, formats and input bytes.", "why_tests_cant": "The command-line program has no tests; the claim is about all input bytes.", "anchors": ["lindera-cli/src/main.rs:126-280", "lindera-dictionary/src/lib.rs:39-54"]}
{"id": "C86", "title": "What a build leaves in the output directory", "statement": "A build that succeeds replaces all seven files of a dictionary, whatever the output directory held before, and returns success exactly when the model of the build gives the files. Whether it succeeds or fails, it changes no file with another name. A build that fails in a directory without a matrix.mtx leaves nothing that can be loaded as a dictionary. A build that fails over an older dictionary is not undone: the claim that a failure leaves the old dictionary is false, because the files written before the failure stay. If the rows cannot be read, for instance, the directory loads as the old words and costs with the new character categories and unknown words. A user dictionary file is created only after everything that can fail, so a failed build leaves it unchanged.", "quantifier": "For all source directories, environments, dictionary kinds and contents of the output directory.", "why_tests_cant": "No test builds into a directory that is not fresh or looks at the directory after a failure; the claim is about all points at which a build can stop.", "anchors": ["lindera-ipadic-builder/src/ipadic_builder.rs:36-52", "lindera-dictionary-builder/src/dict.rs:44-257", "lindera-dictionary-builder/src/chardef.rs:27-57", "lindera-dictionary-builder/src/unk.rs:29-59", "lindera-dictionary-builder/src/cost_matrix.rs:27-80", "lindera-dictionary-builder/src/user_dict.rs:164-186"]}
{"id": "C87", "title": "Filters applied a second time", "statement": "A token filter that has run is done: applied to its own output it changes nothing. This holds for keep/stop words and tags, base and reading forms, number conversion, compound words and the length filter without conditions, and for the kana, lowercase and uppercase filters when their character tables settle. Converting numerals gives a text that converts to itself. Katakana stemming goes on exactly with texts that end in two prolonged sound marks and are long enough for another step. The iteration mark filter settles when no mark repeats a mark; the mapping filter when no replacement is empty or shares a character with a key. Without these two conditions the claim is false.", "quantifier": "For all token lists, texts, filter configurations and environments.", "why_tests_cant": "The tests apply each filter once to a handful of inputs; idempotence is about every output the filter can produce, including joined tokens whose new tag is itself in the tag set.", "anchors": ["lindera-filter/src/token_filter/japanese_compound_word.rs:131-181", "lindera-filter/src/token_filter/japanese_number.rs:104-286", "lindera-filter/src/token_filter/japanese_katakana_stem.rs:69-100", "lindera-filter/src/character_filter/japanese_iteration_mark.rs:157-190", "lindera-filter/src/character_filter/mapping.rs:75-138"]}
{"id": "C88", "title": "The details stored in any words files", "statement": "Whatever bytes the word index and words files hold, asking for the details of a word gives: the fields, exactly when the index entry points at a record with a length and that many bytes of valid UTF-8, split at zero bytes; nothing, exactly when the index has ended or the record is not valid UTF-8; and a panic, exactly when the index entry or the record is cut off. For a user dictionary the record is a list of strings with lengths; it gives nothing when the list cannot be read and panics only when the index entry is cut or points past the end. No error value is ever returned, and a token panics only if it has no cached details, is not unknown, and its own dictionary's record panics.", "quantifier": "For all byte contents of the index and words files and all word identifiers.", "why_tests_cant": "The tests read details from one well-formed dictionary; the claim covers truncated and corrupted files of any size.", "anchors": ["lindera-core/src/dictionary.rs:24-41", "lindera-core/src/dictionary.rs:57-67", "lindera-tokenizer/src/token.rs:78-97"]}
{"id": "C89", "title": "Which files load as a dictionary", "statement": "For any bytes: unk.bin, char_def.bin and a compiled user dictionary load exactly when they start with the format written down in the specification (little-endian numbers, counts before lists, UTF-8 strings after their length, flags 0 or 1), they load as exactly that value, whatever follows is ignored, and otherwise the result is a deserialization error and never a panic. A file cut short anywhere does not load. What loads is what the encoder writes for the value. A matrix loads exactly when it has four bytes and panics otherwise. A directory loads exactly when the seven files are there and these three load, with the word files taken as they are; it panics exactly when the first two are there and the matrix has fewer than four bytes. Damage to the double array, the values or the words is not noticed. Compressed embedded data gives the data exactly when it starts with an algorithm number from 0 to 3 and the data, and that algorithm undoes it; anything else panics. What is written for embedding is the data itself, or with compression exactly that format, or a compression error exactly when the compressor fails.", "quantifier": "For all byte contents, directories, environments and decompressors.", "why_tests_cant": "Tests load files that were just written. The claim is about every file: exactly which byte sequences are accepted, that each truncation is rejected, and where nothing is checked.", "anchors": ["lindera-core/src/unknown_dictionary.rs:20-23", "lindera-core/src/character_definition.rs:83-86", "lindera-core/src/dictionary.rs:52-55", "lindera-core/src/connection.rs:13-27", "lindera-dictionary/src/lib.rs:127-184", "lindera-dictionary/src/lib.rs:241-243", "lindera-decompress/src/lib.rs:26-48"]}
{"id": "C90", "title": "Words that do not occur in the text do not matter", "statement": "Two dictionaries built from the same char.def, unk.def and matrix.def, and with at most 31 rows per surface and the same rows in the same order for every surface that is a piece of the text, give the same tokens with the same details: adding, removing or moving rows of other words changes nothing but the numbers of the words, whatever the costs and even where sums wrap around. The same holds for user dictionaries; one whose words are not in the text is as good as none. No token filter looks at the number of a word, so the analyzer gives the same tokens, and the command prints the same text in the formats mecab and wakati. If one dictionary gives an error or a panic the other gives the same. The limit of 31 rows matters: with 33 rows of a word, a row of another word decides which of the 33 is found.", "quantifier": "For all source files, user rows, texts, modes, filters and inputs; for the first theorem all dictionaries and all relations between word numbers.", "why_tests_cant": "Tests use one dictionary. The claim compares all pairs of dictionaries that agree on a text, through trie offsets, word numbers and the whole search.", "anchors": ["lindera-core/src/viterbi.rs:86-174", "lindera-core/src/viterbi.rs:246-290", "lindera-core/src/prefix_dict.rs:36-54", "lindera-dictionary-builder/src/dict.rs:60-150", "lindera-tokenizer/src/tokenizer.rs:223-280", "lindera-analyzer/src/analyzer.rs:102-171", "lindera-cli/src/main.rs:133-178"]}
{"id": "C91", "title": "When the mode does not matter", "statement": "The mode acts on a text in two ways only: through the penalty of each piece of the text, and, in normal mode, by skipping the search for unknown words inside the last unknown word. So two decompose modes whose penalties agree on every piece of the text give the same tokens, errors and panics, with any dictionary and any user dictionary. Normal mode and a decompose mode agree too if in addition every unknown word that can be formed in the text is a single character, because its category does not group or the next character is not in that category; in particular with penalties of zero and for texts of at most kanji_threshold times three bytes. The condition on unknown words is needed: with runs of unknown characters the modes differ even with penalties of zero. The analyzer inherits all this for the text its character filters give.", "quantifier": "For all dictionaries, broken ones included, user dictionaries, modes, penalties and texts; for all filters in the analyzer.", "why_tests_cant": "A test compares two modes on a few texts. The claim is that nothing else in the search looks at the mode, on any dictionary, where costs wrap around and where the search panics.", "anchors": ["lindera-core/src/mode.rs:10-77", "lindera-core/src/viterbi.rs:86-225", "lindera-core/src/viterbi.rs:246-272", "lindera-tokenizer/src/tokenizer.rs:223-280"]}
{"id": "C92", "title": "What goes wrong with the options of the program", "statement": "The program reads its options as documented: the dictionary kind is one of five names, the mode one of two with normal as the default, the format is mecab unless given, and filters are looked at only if the feature filter is on; any other name of a kind or mode is refused before anything is done. The command tokenize then goes through six stages in a fixed order: dictionary, user dictionary, format, character filters, token filters, input. If nothing is wrong at any stage it tokenizes the input with exactly the analyzer the options describe. Otherwise the first stage at which something is wrong decides: nothing is printed, and the error (or the panic) is that of a fault of this stage, for filters that of the first flag that is wrong. A flag is split at its first colon, and a flag without a colon has empty JSON, which is refused.", "quantifier": "For all options, files, included dictionaries, JSON parsers and inputs.", "why_tests_cant": "The program has no tests. That no stage is skipped or reported in another order is a statement about all combinations of faults.", "anchors": ["lindera-cli/src/main.rs:21-124", "lindera-cli/src/main.rs:180-240", "lindera-cli/src/main.rs:282-297", "lindera-dictionary/src/lib.rs:67-80", "lindera-core/src/mode.rs:70-82", "lindera-filter/src/lib.rs:10-17"]}
{"id": "C94", "title": "Changing costs moves the result in the promised direction", "statement": "Making a set of words cheaper, all by the same amount and nothing else, never gives fewer tokens of these words; making a set of connections cheaper never gives fewer of these connections; raising a decompose penalty never gives more characters beyond its threshold. Making words dearer that do not occur in the result changes no token, and neither does multiplying all costs and penalties by the same positive number.", "quantifier": "For all dictionaries, modes, texts whose sentences fit the i32 costs, sets of words or connections (the user dictionary or the unknown words, for instance) and amounts.", "why_tests_cant": "Each part compares two tokenizers on every text. A search that took a wrong turn at one tie or penalty would still pass any number of single comparisons.", "anchors": ["lindera-core/src/viterbi.rs:86-290", "lindera-core/src/mode.rs:10-66", "lindera-core/src/connection.rs:29-32", "lindera-tokenizer/src/tokenizer.rs:223-280"]}
{"id": "C93", "title": "The dictionaries built on docs.rs know one word and panic on it", "statement": "When DOCS_RS is set each of the five dictionary crates writes stand-in source files instead of downloading a dictionary. For all five, the build of these files succeeds, and the dictionary loaded from the result or included in the program (compressed or not) does one of two things with any text: if some sentence starts with the only word (the word for test), tokenizing panics; otherwise it gives no tokens.", "quantifier": "For all five kinds, all directories, modes and texts, and all behaviours of the other crates in which ASCII is read as it is, the one CSV line is cut at its commas, EUC-JP decodes what it encoded, and yada finds what it stored.", "why_tests_cant": "The stand-in dictionaries are built only on docs.rs, where no test is run; the claim is about all texts.", "anchors": ["lindera-ipadic/build.rs:33-56", "lindera-ipadic-neologd/build.rs:33-56", "lindera-unidic/build.rs:33-57", "lindera-ko-dic/build.rs:33-53", "lindera-cc-cedict/build.rs:33-57"]}
{"id": "C95", "title": "Where a sentence falls apart, its parts do not influence each other", "statement": "Take a place in a sentence that no dictionary word and no run of characters for an unknown word goes across, and at which all words that can end there have the same right context id. Then the tokens before the place are exactly those of the text before it, whatever follows; the tokens after it are the same, moved, for every text before it with the same right id; and if the right id is 0 the tokens are those of the two parts tokenized separately, or none if one of the parts has none. This includes ties.", "quantifier": "For all dictionaries (meanings with distinct entries), both modes, all sentences whose costs cannot overflow, and all such places in them.", "why_tests_cant": "A test can only try some continuations of a text; the claim is about all of them, and about every dictionary.", "anchors": ["lindera-core/src/viterbi.rs:86-174", "lindera-core/src/viterbi.rs:246-290", "lindera-tokenizer/src/tokenizer.rs:223-290"]}
{"id": "C96", "title": "A clear result survives small changes of costs, and cheap enough words are used as often as possible", "statement": "If the chosen segmentation of every sentence is cheaper than every other one the search may choose by more than 2d(3n+1), n the number of characters, then changing every word cost, connection cost and penalty by at most d (rounding, for example) leaves the tokens exactly as they are. And if chosen words (such as all user words) cost about -c and everything else about nothing, both up to d with 2d(3n+1) < c, then every sentence is cut so that as many of those words as possible are used: no segmentation that the search considers, in decompose mode no segmentation at all, has more of them.", "quantifier": "For all dictionaries, all changes of costs within d, both modes and all texts whose costs cannot overflow.", "why_tests_cant": "A test compares a few pairs of cost tables; the claim bounds the effect of all changes within a distance, over all segmentations.", "anchors": ["lindera-core/src/viterbi.rs:86-174", "lindera-core/src/viterbi.rs:246-290", "lindera-core/src/mode.rs:29-44"]}
{"id": "C97", "title": "A build that reports success has written every file completely, except that the end of dict.da can be missing", "statement": "Creating the directory, creating a file and every write may fail at any point. If build_dictionary still reports success, the sources have built and char_def.bin, unk.bin, dict.words, dict.wordsidx, dict.vals and matrix.mtx are complete. dict.da is not: its writer is never flushed, so a failing last write goes unnoticed and up to one buffer (8192 bytes) of its end is missing; the dictionary then loads without complaint, with a broken trie. It is complete if it is written uncompressed and at least as long as the buffer. Failures show as Io errors (a panic for ko-dic and CC-CEDICT), no other file of the directory is touched, and without failures the directory is as in C86. However the build ends, every file is as it was before or holds the beginning of what the same build writes when nothing fails. A failed build can leave half a matrix that loads. A user dictionary is complete after success.", "quantifier": "For all sources, all previous contents of the directory, all disks (any choice of which operations fail and after how many bytes), all buffer capacities and all ways bincode splits its output.", "why_tests_cant": "Tests run on disks with room; a full disk fails at one of very many points, and the one that goes unnoticed is the last write of one file.", "anchors": ["lindera-dictionary-builder/src/dict.rs:108-257", "lindera-dictionary-builder/src/utils.rs:14-40", "lindera-dictionary-builder/src/chardef.rs:27-57", "lindera-dictionary-builder/src/unk.rs:29-59", "lindera-dictionary-builder/src/cost_matrix.rs:27-80", "lindera-dictionary-builder/src/user_dict.rs:164-186", "lindera-ipadic-builder/src/ipadic_builder.rs:36-52"]}
{"id": "C98", "title": "Positions and edge numbers of 32 bits", "statement": "The lattice keeps byte positions and edge numbers as u32, cast without a check. If every sentence has fewer than 2^32 bytes and at most 2^32 - 2 words that may start at its characters, tokenizing gives exactly what it would give with numbers of any size; for a dictionary with words of at most n characters, e entries for a word, c categories for a character and u unknown-word entries for a category, sentences of k characters with 4k < 2^32 and (2ne + cu)k + 2 <= 2^32 are short enough. A longer sentence can be lost: one of 2^32 bytes that is a single unknown word ends at position 0 and gives no token at all, and no error. An analyzer gives the same tokens too if what its character filters make of the text fits.", "quantifier": "For all tokenizers that stand for a dictionary, all texts whose sentences fit; the width of the fields for all dictionary data and all texts.", "why_tests_cant": "A test would need a sentence of 4 GiB.", "anchors": ["lindera-core/src/viterbi.rs:23-45", "lindera-core/src/viterbi.rs:120-151", "lindera-core/src/viterbi.rs:203-239"]}
{"id": "C99", "title": "Debug builds and release builds", "statement": "A debug build panics where 32-bit arithmetic overflows; a release build wraps. Whatever the dictionary, the mode and the text, a debug build either panics while tokenizing or gives exactly the tokens of a release build. If the costs of every sentence fit an i32, the words of every sentence can be numbered in 32 bits and the cells of the connection matrix too, no arithmetic overflows and both builds give the same tokens; this holds for every dictionary built from readable source files. With a large enough penalty a debug build panics on a text that a release build tokenizes. The same holds for analyzers with what their character filters make of the text.", "quantifier": "For all tokenizers and texts (panics or agrees); for all tokenizers that stand for a dictionary and all texts whose sentences fit (agrees).", "why_tests_cant": "Tests are run in one profile, on short sentences, and neither compare two builds nor show that no addition overflows for any text.", "anchors": ["lindera-core/src/viterbi.rs:40-45", "lindera-core/src/viterbi.rs:246-272", "lindera-core/src/mode.rs:29-44", "lindera-core/src/connection.rs:29-32"]}
{"id": "C100", "title": "Context ids that matrix.def does not have", "statement": "Source files that follow their formats are built and load without an error even if context ids of words, unknown words or user words do not exist in matrix.def, which may have no cells at all. Tokenizing a text with such a dictionary panics exactly if in one of its sentences a word that the search can reach is followed by one where the cell computed from their context ids lies behind the end of the matrix; all other texts get the cheapest segmentation.", "quantifier": "For all five dictionary kinds, all source files that follow their formats (sizes up to 32767), all user dictionaries, modes and texts.", "why_tests_cant": "Tests use the real dictionaries, whose ids fit their matrix; no test can go through all wrong tables and all texts.", "anchors": ["lindera-dictionary-builder/src/cost_matrix.rs:27-80", "lindera-core/src/connection.rs:29-32", "lindera-core/src/viterbi.rs:246-272"]}
{"id": "C101", "title": "Rows that say the same build the same dictionary", "statement": "Replacing rows of a user dictionary by rows with the same surface, numbers and details gives the same dictionary, byte for byte; the same holds for the rows of a system dictionary, where blanks around numbers and, for the IPADICs, the two unified characters do not count. In particular a simple user row may be written out in full (ids 0, cost -10000, the part of speech and the reading in their columns, stars elsewhere): the detailed form of each kind has exactly the number of fields its builder asks for, and building the written-out file gives what the simple file gives.", "quantifier": "For all five dictionary kinds, all lists of rows and all choices of the rows replaced.", "why_tests_cant": "Tests build each sample file once and compare single tokens; that two spellings of the same rows give identical files for every file is not tested.", "anchors": ["lindera-dictionary-builder/src/user_dict.rs:41-161", "lindera-dictionary-builder/src/dict.rs:45-262", "lindera-ipadic-builder/src/ipadic_builder.rs:98-125", "lindera-unidic-builder/src/unidic_builder.rs:96-127", "lindera-ko-dic-builder/src/ko_dic_builder.rs:95-117", "lindera-cc-cedict-builder/src/cc_cedict_builder.rs:96-118", "lindera-ipadic-neologd-builder/src/ipadic_neologd_builder.rs:96-119"]}
{"id": "C102", "title": "The command prints the characters of its input, cut into words", "statement": "With a dictionary built from good sources, with or without a user dictionary and without filters, the command tokenizes every valid text without an error. For each input line it prints tokens that cut the line, without the white space around it, into non-empty words: each word starts at the byte where the word before it ends, and words are numbered in order. In wakati format the words stand with single blanks between them and a line without words prints nothing; in mecab format each word stands on a line with a tab and its details, and EOS follows. So in wakati format the characters printed other than white space are exactly those of the input, in order: none is lost, added, doubled or changed.", "quantifier": "For all sources, kinds, embedded or stored dictionaries, user dictionaries, modes and valid input texts.", "why_tests_cant": "Tests of the command line compare nothing but a few lines; that no character of any input is lost or changed on the way from the file to the output needs a proof over all inputs.", "anchors": ["lindera-cli/src/main.rs:133-280", "lindera-analyzer/src/analyzer.rs:102-171", "lindera-tokenizer/src/tokenizer.rs:223-280"]}
{"id": "C103", "title": "Token filters do not look at offsets and may as well be applied to a finished analysis", "statement": "No token filter looks at or computes with the byte offsets of tokens: moving the offsets of the given tokens in any way moves the offsets of the resulting tokens in the same way, and nothing else changes. So although the analyzer corrects offsets only after all token filters have run, one more token filter at the end of a configuration gives exactly what that filter makes of the finished tokens with corrected offsets, its panic or error included; and where the shorter configuration fails, the longer one fails in the same way.", "quantifier": "For all character filters, tokenizers, token filters of every kind, texts, token lists and functions on offsets.", "why_tests_cant": "It is a statement about all filters on all token lists with all offsets; tests compare the offsets of a few outputs.", "anchors": ["lindera-analyzer/src/analyzer.rs:102-171", "lindera-filter/src/token_filter/japanese_compound_word.rs:94-181", "lindera-filter/src/character_filter.rs:79-104"]}
{"id": "C104", "title": "The shipped configuration, from its JSON text to its outcomes", "statement": "The shipped configuration resources/lindera_ipadic_conf.json loads, if its dictionaries do, to NFKC and iteration mark normalisation, a tokenizer in normal mode, and compound, number, stop tag and katakana stem filters with the given settings; the analyze example does the same in code, without the user dictionary and the last filter. For every text the outcome is decided by the tokens before filtering: number words are joined, joined numbers are read as C74 says, words with one of the 25 stop tags go, katakana words of more than three characters lose a final long vowel mark. It panics exactly if a joined number cannot be read or a kept word has, after nothing but katakana, a character in no Unicode block. For dictionaries built from sources as described in C80, analysis of a valid text has no other failure. That it never panics is false: 十百 (with two number words) and a character in no block make it panic.", "quantifier": "For all environments, texts, sources, user dictionaries and token lists.", "why_tests_cant": "The tests load this configuration and analyze one or two sentences; the claim is about all texts and about the exact condition for a panic.", "anchors": ["resources/lindera_ipadic_conf.json", "lindera/examples/analyze.rs:18-98", "lindera-filter/src/token_filter/japanese_katakana_stem.rs", "lindera-filter/src/token_filter/japanese_number.rs", "lindera-filter/src/token_filter/japanese_compound_word.rs", "lindera-filter/src/token_filter/japanese_stop_tags.rs"]}
{"id": "C105", "title": "Analyzing two sentences one after the other", "statement": "Without character filters, the analysis of a text that is cut after a delimiter succeeds exactly if the analyses of both parts succeed, and then it is the analysis of the first part followed by that of the second, with offsets and positions moved behind the unfiltered tokens of the first part; texts, lengths, word ids and details are unchanged. The condition is that no compound filter joins the two parts when its turn comes: it holds for all configurations without a compound filter, and if the only compound filter is the first one and does not take up the last token of the first part, the delimiter. The condition is needed: a compound filter whose tags match the delimiter makes a word across the end of the sentence. The same holds at a place inside a sentence where it falls apart in the sense of C95. The same for any number of sentences, each ending in a delimiter, and a rest. Every token filter treats two lists of tokens this way, whatever their offsets and positions.", "quantifier": "For all tokenizers, texts, delimiters, token filters, token lists and environments.", "why_tests_cant": "It relates the analyses of three texts for all texts and all configurations; tests analyze single texts.", "anchors": ["lindera-analyzer/src/analyzer.rs:102-171", "lindera-tokenizer/src/tokenizer.rs:223-280", "lindera-filter/src/token_filter/japanese_compound_word.rs:94-181"]}
{"id": "C106", "title": "Analyzing two sentences one after the other, with character filters", "statement": "If the character filters make of two texts together what they make of each one, and replace the same segments, and the filtered first text ends in a delimiter, then the analysis of both texts together succeeds exactly if both analyses succeed, and is the analysis of the first followed by that of the second, with positions moved behind the unfiltered tokens of the first and offsets moved by the byte length of the first original text. The condition holds for a mapping if no key lies across the place between the texts and the second text does not begin with a key that is deleted; for a normalization if the graphemes of the two texts together are those of each and no grapheme of the second text is deleted; for iteration marks if they repeat characters of three bytes and every run of marks in the second text has as many characters before it; for a regular expression with a literal replacement if the matches in the two texts together are those in each and nothing is deleted at the beginning of the second; for all filters that record nothing and keep byte lengths; and for chains of these. The conditions are needed: a key across the place joins two words, and a deleted beginning makes the last token of the first text end behind it.", "quantifier": "For all tokenizers that stand for a complete dictionary, texts, delimiters, character filters, token filters and environments.", "why_tests_cant": "It relates the analyses of three texts through arbitrary chains of filters and their offset corrections; tests compare single texts.", "anchors": ["lindera-analyzer/src/analyzer.rs:102-171", "lindera-filter/src/character_filter.rs:59-104", "lindera-filter/src/character_filter/mapping.rs:75-137", "lindera-filter/src/character_filter/japanese_iteration_mark.rs:107-190", "lindera-filter/src/character_filter/unicode_normalize.rs:70-115"]}
{"id": "C107", "title": "Where the printed tokens stand in the input", "statement": "The byte offsets that the command tokenize prints in JSON format are the places of the words in the line. This is false: lines are trimmed first, so the offsets count from the first character that is not white space, and they start again with every line. What holds, with a dictionary built from good sources and without filters: every word stands in the input at its printed offsets plus the bytes of the lines before and of the white space at the beginning of its line; and for a line that has words, the printed offsets are places in the line exactly if the line does not begin with white space.", "quantifier": "For all good sources, dictionary kinds, user dictionaries, options without filters and valid texts.", "why_tests_cant": "It is about the place of every word of every input; the tests of the command do not look at offsets.", "anchors": ["lindera-cli/src/main.rs:241-277", "lindera-cli/src/main.rs:254", "lindera-analyzer/src/analyzer.rs:102-171"]}
{"id": "C108", "title": "How often categories are looked up for unknown words", "statement": "While the lattice of a sentence is made, the number of lookups of character categories grows no faster than the sentence. This is false in decompose mode: for a dictionary with a word of one character that is in a category with invoke and group, a text of n times that character takes n(n+1)/2 lookups. What holds: in every mode, with at most C categories for a character, a sentence of n characters takes at most n + C n(n-1)/2 lookups; in normal mode, with at most one category for a character, at most 2n. With two categories normal mode can need the square as well.", "quantifier": "For all dictionaries, modes and valid nonempty sentences; the lower bound for all lengths n.", "why_tests_cant": "Tests look at results, not at how often a function is called, and use short texts; the bounds are about all lengths.", "anchors": ["lindera-core/src/viterbi.rs:108-174", "lindera-core/src/viterbi.rs:177-225", "lindera-core/src/viterbi.rs:193-203"]}
{"id": "C109", "title": "The offset arithmetic of the character filters does not overflow", "statement": "In a debug build, where `+`, `-` and unary `-` on i64 and usize panic on overflow, the mapping, normalization and regular expression filters return the same text, offsets and diffs as in a release build, and correct_offset returns the same number for every position of the filtered text, provided the text and the filtered text have fewer than 2^63 bytes (which Rust guarantees for allocated strings). For regular expressions this includes empty matches; with a dollar sign in the replacement, the length the filter reckons with must fit as well. So a configured analyzer whose filters suit the text returns the same tokens in a debug build, if the costs of the sentences fit as in C99. The same holds for every chain of character filters, with empty matches and any mapping, and for every result including errors, as long as the texts of all stages have fewer than 2^62 bytes together; there the sum of position lengths in the compound word filter does not overflow either. Nor do the places in the text of a token that the mapping token filter goes through. The one subtraction that can go below zero, in the number filter, panics in a debug build; in a release build it wraps and the slice that follows panics, for exactly the same texts.", "quantifier": "For all texts, mappings, graphemes and forms, regular expressions, replacements, and all binary searches within the contract of the standard library.", "why_tests_cant": "Tests run with texts of a few bytes, for which no 64-bit operation can overflow; the claim is that no order of longer and shorter replacements reaches the limits.", "anchors": ["lindera-filter/src/character_filter.rs:79-104", "lindera-filter/src/character_filter/mapping.rs:93-116", "lindera-filter/src/character_filter/regex.rs:71-92", "lindera-filter/src/character_filter/unicode_normalize.rs:84-105", "lindera-filter/src/token_filter/japanese_compound_word.rs:94-97", "lindera-filter/src/token_filter/mapping.rs:74-107", "lindera-filter/src/token_filter/japanese_number.rs:130-138"]}
{"id": "C110", "title": "Dictionary builders in debug builds and release builds", "statement": "A debug build panics where u32 arithmetic overflows, a release build wraps. Whatever the source files, each building step of a debug build (matrix, word files, user dictionary, character definitions) panics or gives exactly what a release build gives. For character definitions both always agree; for words they agree below 2^32 rows; for a matrix.def that follows its format they agree if the number of cells and the cell number of every line fit 32 bits, and otherwise a debug build panics. All sizes up to 32767 fit. They do not always agree: from a matrix.def that claims 65536 ids on each side a release build makes an empty matrix without an error. The same holds for a whole build of each of the five kinds, whether it succeeds or fails, and for compiled user dictionaries.", "quantifier": "For all contents of matrix.def and char.def, all rows and all options of the builders.", "why_tests_cant": "Tests build small dictionaries in one profile; overflow needs sizes no test uses, and the claim compares two compilations of the same code.", "anchors": ["lindera-dictionary-builder/src/cost_matrix.rs:43-57", "lindera-dictionary-builder/src/dict.rs:225-233", "lindera-dictionary-builder/src/user_dict.rs:126-135", "lindera-core/src/character_definition.rs:136-144"]}
