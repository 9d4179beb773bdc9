# Design

Subject: the Rust workspace in /repo (lindera 0.30, a morphological analyzer).
Property list: `properties.jsonl`. Model and proofs: `rocq/theories`. Coverage: `MANIFEST.json`.

## Layout of rocq/theories

| Kind | Files | Contents |
|---|---|---|
| Model | `M*.v` | Executable Gallina transcription of the Rust code, no proofs. Every definition cites file and lines and names its simplifications. |
| Specification | `S*.v` | Small independent definitions used only to state theorems (what "tiling", "segmentation cost", "decimal value" ... mean). They do not call model functions they specify. |
| Proof | `L*.v` | Lemmas. |
| Property | `P*.v` | `Theorem ... Proof. exact lemma. Qed.`, `Print Assumptions`, and non-vacuity `Example`s. |

## Modelling conventions

* `char` = Unicode scalar value, an `N`; `str` = list of characters. `&str` byte offsets are computed from the
  UTF-8 widths; `utf8` gives the bytes. Slicing off a character boundary is `Panic`.
* `usize`/`u32` positions inside a text are `nat`; the `as u32` casts on positions and edge ids are not truncating in
  MLattice.v. MLattice32.v has the casts, and C98 shows that both give the same tokens for sentences that fit. Byte offsets of filter tokens, which the code can make wrap, are `N` modulo 2^64.
* `i16`, `i32` costs are `Z`; additions that can overflow are written with an explicit two's complement wrap (the release
  profile's behaviour; a debug build panics instead), so theorems that need no overflow say so.
* `Result`/`Option` are data. A panic is the separate value `Panic` of the `res` type; error payloads are reduced to
  the `LinderaErrorKind`.
* `&mut self` functions return the new value. Loops are structural recursion over the list they iterate, or
  recursion on an explicit count; where fuel is needed the theorems exclude its exhaustion.
* HashSet/HashMap of configuration values are lists with membership/first-binding lookup (the code only tests
  membership or looks up). BTreeMap/BTreeSet are strictly sorted association lists.

## Modelled code and proof plan

| Property | Model | Proof |
|---|---|---|
| C01 tiling | lattice construction, path costs, back pointers, sentence loop | Invariant of the scan: some reachable position at or after the current one is not inside an unknown span. Every edge gets a left edge; positions strictly decrease along left edges. |
| C02 | same | Refuted by a concrete dictionary with an uncovered category. What holds instead: exactly which sentences are kept (`C02_found_partial`, `C02_kept_partial`). |
| C03 no panic | same, every index and slice checked | Well-formedness predicate on the dictionary; all accesses succeed. Uses C45. |
| C04, C10 optimality | same | Viterbi invariant: path_cost of an edge is the least cost of a chain from BOS ending in it. Chains are specified independently as lists of words. |
| C05 overflow bound | wrapping i32 arithmetic | Induction on position: absolute cost at most 65536 per word, at most one word per character, and a third of a penalty per byte. |
| C06, C07 sentences | `split_inclusive`, `set_capacity`, `clear` | The lattice after `clear`/`set_capacity` equals a fresh one up to unused capacity; simulation. |
| C08, C09, C44 candidates | `set_text`, `process_unknown_word` | Invariant on all edges added; `C09_exactly` gives the whole list of edges at each place. |
| C11 penalty | `Penalty::penalty`, `Edge::num_chars`, `set_text` | Case analysis, arithmetic; every edge of a sentence lattice has the penalty of its word (`C11_lattice`). |
| C12 codec | `WordEntry::serialize`/`deserialize` | Little-endian arithmetic. |
| C13-C17 builders | `dict.rs`, `user_dict.rs` on parsed CSV rows | Sortedness and grouping of the entry map, offsets of serialized entries. The 5-bit length is refuted for 32 homographs (C15); for any number the packed value is analysed bit by bit (`id lor n/32 = id + ldiff (n/32) id`), which shows which rows are left (`five_bits`). |
| C18 | user dictionary row parsing | Refuted: rows with two fields panic. `LFirst` shows which of several bad rows decides (a stable sort keeps the first bad row first). |
| C19 matrix | `cost_matrix.rs` on parsed lines, `connection.rs` | Array update lemmas. Refuted for backward sizes above 32767. |
| C20, C21 char.def | whole parser and table | The table is piecewise constant between boundaries; binary search is any function meeting its documented contract. |
| C22 unk.def | whole parser | List lemmas. |
| C23 bincode | fixed-int little-endian encoding of the structures | Generic round trip lemmas. |
| C24-C26 offsets | `add_offset_diff`, `correct_offset`, three filters | One lemma for all filters: a filter run is a list of (source length, replacement length) segments. Graphemes, normalization forms and regex matches are arbitrary functions. `PAnyMatch.v` states for the regex filter where each position goes when matches are empty or the replacement has `$`. |
| C27-C29 | iteration mark filter | Induction over the scan; the voicing functions by finite case analysis lifted to all characters. |
| C30 | `Analyzer::analyze` | Composition of C25. |
| C31-C33, C36-C38 | token filters | List induction. |
| C34, C35 numbers | `to_arabic_numerals` | Right-to-left induction over a syntax of numerals. C35 refuted by 十二指腸. |
| C39, C41-C43 | parsers, config choice, output | Case analysis. |
| C46 | `to_arabic_numerals` on mixed text | Refuted: 千円 becomes 1円. Text without numerals is unchanged. |
| C47, C48 loaders | `load_from_value` of both loaders with serde's derived code | An inductive description of which arguments give which filter; equivalence per filter. |
| C49 `Analyzer::from_config` | JSON values, `TokenizerConfig`'s hand-written visitor | Fold over the fields with distinct keys. |
| C50 round trips | derived `Serialize` as a function to values | Formatted tags are fixed points; character filter configurations by cases. Refuted for `TokenizerConfig` without user dictionary. |
| C51 command line | `tokenize` of main.rs | Both sides unfold to the same steps; flags are settings. |
| C52 mode names | `FromStr` and `Deserialize` of `Mode` | Refuted for decompose. |
| C53 loaded token filters | `load_token_filter` and `run_token_filter` | The loaders (C47) composed with the filter theorems (C31–C38), one case per kind. |
| C54 loaded character filters | `load_char_filter` and `run_char_filter` | The loaders (C48) composed with C24–C27, one case per kind. |
| C55 configured analyzer | `analyze` on `analyzer_of` | Induction over both filter lists; C30 gives the offsets. `C55_stops`: the first failing part decides. |
| C56 built dictionaries | `build_dictionary` and `load_dictionary` | C13, C14, C19–C23 put together: each file of the build is read back; `says` compares the loaded dictionary with the sources. |
| C57 compiled user dictionaries | `build_user_file` | bincode round trip (C22) after showing the built dictionary is in range. |
| C58 embedded dictionaries | `embedded_dictionary` | Each file by C40. A compressed char_def.bin starts with a huge length, so reading it fails: refuting theorem. |
| C59 faulty sources | `build_dictionary` | Case analysis over `build_fault`; refuted where the builders unwrap. |
| C60 build command | `cli_build` | `set_extension` and `file_name` on split paths, then C57. |
| C61 seven files | `load_dictionary` | Inversion of the chain of reads; a short matrix.mtx panics. |
| C62 mixed user rows | `load_user_dictionary_from_csv` | Direct; refuted for the kinds whose CSV reader is not flexible. |
| C40 | compress/decompress | flate2 codecs are arbitrary functions assumed inverse in the statement. |
| C45 | UTF-8 encoding | The encoding is a prefix code. |
| C63 tokens from sources | `build_dictionary`, `build_user`, `tokenize`, `get_details` | C56 with the user table of C14 added, then the provenance of C08 and the details of C16, C17 per token. |
| C64 tie breaking | `calculate_path_costs`, `min_by_cost`, `set_text` | Each edge points to the first of its cheapest left edges (LVit); edges are made in the order of the ranks (LTies); induction from the end of the path. |
| C65 search, exactly | `set_text`, `process_unknown_word`, `calculate_path_costs`, `tokens_offset` | The latest span end kept by the scan is the one of the specification (LExact, induction over positions); uniqueness by induction on the position and by asymmetry of the tie order. |
| C66 order of analyzed tokens | `analyze`, `run_token_filter`, `correct_token` | Each filter keeps the order relations (retain: induction; compounds: induction with the pending token; the rest change only texts); offset correction is monotone (LOrder). |
| C67 numbers as text | `parse_int`, `parse_i16`, `parse_i32`, `parse_u16`, `parse_u32`, `parse_hex_codepoint` | Induction from the right over digit strings; equivalences with the inductive `digits` (SText, LText). |
| C68 lines and fields | `lines`, `split_whitespace`, `split_char`, `split_str`, `trim`, `trim_start_matches` | Each function is equivalent to an inductive relation that does not mention it (SText, LText). |
| C69 formats of the sources | `directives`, `parse_unk`, `build_matrix`, `char_def_of` | Equivalence of the line formats (SSource) with what the parsers read; files are written with single blanks and newlines and read back with C19, C20, C22 (LSource). |
| C70 accepted sources | `build_dictionary`, `build_user_file`, `build_matrix` | Inversion of the builders in one direction, construction in the other; the formats are inductive relations over text (SAccept, SSource, LAccept). |
| C71 numbers out of range | `parse_unk`, `make_costs_array`, `build_matrix`, `cm_cost` | A file with any numbers builds the same table as a file with the reduced numbers; C19 then gives the costs (LAccept). |
| C72 more words | `lattice_set_text`, `tokenize` | The set of searched words (C65) grows with the dictionary under the stated condition; then the cheapest answer can only get cheaper. Witnesses with a one-word dictionary (SMore, LMore, XMore). |
| C73 modes compared | `lattice_set_text`, `tokenize` | Induction over reachable positions: in decompose mode no position is ever switched off (LMore). |
| C74 number filter, exactly | `to_arabic_numerals` | The loop from the right is matched with rules read from the left (SNumber): induction on the text with the zeros in force; sizes give the panic condition (LNumber). |
| C75 row order | `build_dict`, `build_user`, `build_dictionary` | Both builders sort stably by surface: a sorted list is determined by its sublists of equal keys (LRows). |
| C76 never fails | `analyze`, `run_char_filter`, `run_token_filter`, `load_*`, `build_dictionary`, `get_details` | Every harmless filter keeps texts valid and n details (LSafe); offset and diff lists stay of equal length, so `correct_offset` stays in bounds; built dictionaries serve n details (C63). |
| C77 same settings | `load_token_filter`, `load_char_filter`, `analyzer_from_config`, `mapping_new`, `analyze` | Settings are read back as what they describe (C47–C49); formatted tags are equal as sets; sorting permuted keys gives the same list of key bytes, so the trie is the same, and looking up a permuted map with distinct keys gives the same value. |
| C78 filter order | `run_token_filter` of the filters named in SSame | Each keeping filter is `filter P` on tokens with details, P looking at the details or the text only; each text filter is a map that leaves the details alone (LSame). |
| C79 linear work | `set_text`, `set_text_step`, `process_unknown_word`, `tokenize` | The lattice is the pure scan (LScan); each position adds at most `words_at` edges, all starting there; summing over the bytes of the text equals summing over its characters (LWork). |
| C80 sources to tokens | `build_dictionary`, `build_user_file`, `load_dictionary`, `embedded_dictionary`, `load_user_dictionary_from_config`, `analyzer_from_config`, `cli_setup`, `cli_loop` | Composition of C58 (embedded is what the files say), C57 (compiled user dictionary), C63/C76 (built dictionary serves every text), C46-C49 (settings) and C43 (lines) (LFull). |
| C81 faults of a configuration | `analyzer_from_config`, `de_tokenizer_config`, `load_dictionary_from_config`, `load_user_dictionary_from_config`, `extension` | Outcome lemma per stage (Ok excludes faults and panics, Err names a fault, Panic names a panic), composed; the extension is characterised by splitting at the slashes and at the last dot (LFault). |
| C82 faults of a build | `build_dictionary`, `build_user_file`, `char_def_of`, `parse_unk`, `build_dict`, `build_user`, `build_matrix` | Line-level equivalences (an error of the parser iff the line has the listed fault), the first failing line or file, an outcome lemma per stage, composed through the error handling of each kind (LBlame). |
| C83 any dictionary data | `tokenize`, `set_text`, `calculate_path_costs`, `follow`, `cut_tokens` | No step returns an error; edges end after they start, whatever the data; left links go back, so the path rises and is cut at character boundaries (LAny). |
| C84 context ids outside the matrix | `cm_cost`, `calculate_path_costs`, `tokenize`, `build_user` | The run is compared step by step with the run on a matrix that has all cells: equal unless a looked-up cell is outside; every pair of neighbours is looked up (LPanic). |
| C85 the commands | `cli_run`, `cli_tokenize`, `cli_loop`, `output`, `token_info`, `cli_list` | A newline byte occurs in UTF-8 only for a newline character, so the lines of the bytes are the bytes of the lines; each format prints the members of the JSON values (LCli). |
| C86 the output directory | `write_dictionary`, `write_user`, `content_of` | Each step adds names from its own list in front of the directory; the matrix is written last, so without it nothing loads; the atomic reading is refuted with a built and reloaded mixture (LDisk). |
| C87 filters applied twice | `run_token_filter`, `stem`, `to_arabic_numerals`, `iteration_apply`, `mapping_apply` | Filters on texts: the new text is a fixed point; filters that drop tokens: the kept ones pass again; compounds: maximal runs are joined, so no two joinable tokens are adjacent afterwards; the character filters by a scan of the replaced text (LAgain). |
| C88 details of any files | `word_details`, `user_word_details`, `get_details` | Slices and little-endian reads are characterised by positions in the byte list; splitting and joining at zero bytes are inverse on valid UTF-8; the user format by induction on the decoder (LDetails2). |
| C89 which files load | `load_unknown`, `load_chardef`, `load_user`, `cm_load`, `load_dictionary`, `embedded_data` | Each decoder is shown to accept exactly a relational format (SLoad), composed for pairs, vectors and strings (LLoad); truncation follows because a decoder that stops early would stop there on the whole file too; the converse of the round trips by induction (LBincode2). |
| C90 words not in the text | `tokenize`, `build_dictionary`, `load_dictionary`, `run_token_filter`, `analyze`, `cli_tokenize` | A simulation (LFrame): lattices that differ only in the numbers of words go through every step of the search alike, with the edges of the sentence ends kept apart; built dictionaries are related through the rows found for each piece of the text; then token filters, analyzer and output. |
| C91 when the mode does not matter | `tokenize`, `set_text`, `calculate_path_costs`, `penalty_of`, `analyze` | Invariants over the search (LModes): every edge stands for a piece of the sentence, so its penalty is the wrapped penalty of that piece; if unknown words are single characters the last one ends at or before every later start. The two runs then agree step by step. |
| C92 options of the program | `read_args`, `cli_main`, `cli_setup`, `cli_run` | Outcome lemmas for each stage (dictionary and user dictionary from C81, flags by induction), chained with the invariant that all earlier stages are fine (LCommand). |
| C94 monotone costs | `tokenize`, `calculate_path_costs`, `penalty_of` | The searched words of both dictionaries correspond (LRetune); comparing each minimum with the image of the other (C65) gives the count; for equal results the image of the answer is shown to be the exact answer of the other dictionary, which is unique. |
| C93 stand-in dictionaries | `docs_line`, `docs_files`, `build_dictionary`, `load_dictionary` | The five builds are computed; the tokens follow from `panic_iff` (C84) for an abstract dictionary with one word and an empty cost table (LDocs). |
| C95 local effect of a change | `tokenize`, `set_text`, `calculate_path_costs` | From the exact answer (C65): the searched words on each side are compared by induction on the position, segmentations split at the place, costs add up, and the tie rule is cut or extended (LLocal). |
| C96 margins | `tokenize`, `calculate_path_costs` | A segmentation has at most as many words as characters, so its cost moves by at most d(3n+1); the answer of the changed dictionary is a searched segmentation of the first (`rt_answers`), so a clear lead decides (SClear, LClear). |
| C97 full disks | `put_dictionary`, `put_user`, `buf_write`, `flush_buf`, `drop_writer` | The file and what its BufWriter holds back together are what was written; a successful write extends it, a successful flush empties the buffer, and every step leaves other names alone (`at_name`, `only`); a simulation gives back C86's writers when nothing fails; run beside the failing build up to the failure and on to its end, the same writers give the files the left-overs are prefixes of (SWrite, LWrite, LPrefix). |
| C98 32-bit fields | `set_text32`, `calculate_path_costs32`, `tokenize32` (MLattice32) | A successful step of the unbounded lattice only appends edges, so all numbers before it are smaller; with `words_in` (C79) the casts are the identity. The lost text is evaluated symbolically for a length that casts to 0 (SCast, LCast, XCast). `analyze32` and `analyze_debug` (MAnalyzer32) lift C98 and C99 to analyzers. |
| C99 Overflow checks | `calculate_path_costs_debug`, `cm_cost_debug`, `penalty_cost_debug`, `tokenize_debug` (MDebug) | Refinement step by step for all inputs; under `fits_i32` every left edge that is read has the exact cost of a chain of words, so every sum is one that `fits_nowrap` bounds (SDebug, LDebug). C05_no_addition_wraps is the same for one sentence. |
| C100 No check of context ids | `build_dictionary`, `load_dictionary`, `tokenize` | The builders' proofs of C72 do not need the context-id condition (`loose`, SLoose, LLoose); the panics are those of C92 with `outside` computed from the sizes. The stand-ins of docs.rs (C93) are a special case. |
| C101 Meaning of rows | `build_user`, `build_dict`, `kind_user_options`, `build_user_file`, `build_dict_files` | The builders use a row only through its sort key, its entry and its details (`sys_alike`, `user_alike`, LMeaning); sorting and folding respect that relation. `written_out` (SMeaning) is spelled out per kind. |
| C102 Spelling | `cli_run`, `cli_tokenize`, `analyze`, `tokenize` | Sources and configurations as for C80; `tokenize_tiles` (C01) carried through the analyzer without filters (`tiles_cut`) and the printing (`cli_text`). `ink`, `cut_into` and `spaced` (SSpell) are stated without the model's functions. |
| C103 Later filters | `analyze`, `run_token_filter`, `correct_token` | A relation between token lists that differ in offsets only is kept by every filter (`filter_moved`); offset correction is such a relation, and it is total because every character filter records as many offsets as differences (`run_paired`). `moved_by`, `same_up_to` (SLater). |
| C104 Shipped configuration | `shipped_value`, `example_analyzer`, `analyzer_from_config`, `analyze` | The configuration is evaluated for an arbitrary environment (`shipped_loads`); exact outcomes of the stem and number filters (`stem_exact`, `number_filter_exact`) are composed with those of C32, C34; `joined_read_stopped`, `unreadable`, `unblocked`, `shipped_outcome` (SShipped). Never panicking is refuted with sources and user dictionary in `C104_total_refuted`. |
| C105 Sentences in an analyzer | `analyze`, `run_token_filter`, `compound_loop` | Every filter maps an appended list to the appended results, in which both fail alike (`filter_app`); filters do not look at offsets and positions (`filter_moved`, now with positions); with C06 for the tokenizer (`tokenize_app`). `put_behind`, `kept_apart`, `takes_up` (SApart). |
| C106 Sentences behind character filters | `analyze`, `correct_offset`, `mapping_apply`, `normalize_apply`, `iteration_apply` | Sources of appended segments (`source_first`, `source_second`), undone through the chain (`beside_filtered`), C06 for the tokenizer, C105 for the token filters (`analyze_beside`). `filtered_beside`, `begins`, `no_key_across`, `marks_inside` (SBeside). |
| C107 Printed offsets | `cli_run`, `cli_loop`, `token_info` | From C102: the tokens cut the trimmed line; places are added up over the lines (`line_stands`, `cli_places`). `leading`, `stands` (SPlace). |
| C108 Lookups for unknown words | `counted_text`, `counted_step`, `counted_unknown_word`, `counted_group` (MReads: the lattice construction with a counter) | Forgetting the counter gives `set_text` (`forget_text`); the counter is a function of the abstract replay (`counted_text_looks`); potential argument over the end of the last unknown word for normal mode; the family a^n by induction. |
| C109 64-bit offset arithmetic | `record_diff_debug`, `correct_offset_debug`, `mapping_loop_debug`, `normalize_apply_debug`, `regex_apply_debug` (MOffset64: the filters with checked operations), `analyze_checked` (MAnalyzer64), `concat_token_debug`, `analyze_all_checked` (MPosition64), `mapping_tokens_debug` (MTokenMap64), `adjust_digits_release` (MNumber64: the wrapping subtraction) | The last diff is input read minus output written (`inv`), so every intermediate number is a difference of two lengths (`record_fits`); the corrected offset lies between -1 and the input length (`sent_range`). For any chain (SChain64, LChain64) the diffs of one filter are at most its two lengths (`segs_within`), and they add up along the chain (`adding`). No token filter makes the sum of position lengths larger (`filter_lengths`). The number read so far has at most 24 bytes more than the text read (`loop_release`), so a wrapped difference is larger than the string it is taken from. |
| C110 builders, debug and release | `build_matrix_debug`, `keyset_debug`, `build_dict_debug`, `build_user_debug`, `char_def_of_debug` (MBuildDebug: the builders with checked u32 operations), `build_dictionary_debug`, `build_user_file_debug` (MBuildersDebug) | Step by step panic or agreement (`same_or_panic`); parsed numbers are below 2^31, so casts change nothing (`matrix_parsed`); the map has at most one entry for each row (`sys_entries`, `user_entries`); parsed code points are at most 0xFFFF (`line_ranges`). |

## Trusted base

* The Coq 8.16.1 kernel (re-checked with coqchk). `Print Assumptions` is run after every property theorem; the goal is
  "Closed under the global context" throughout: no theorem uses an axiom. The seven `Coq.ssr.ssrunder.Under_rel` parameters that
  coqchk lists come with the standard library's `Lia`/`Zify` files and are sealed there by a module type.
* The transcription of the Rust source into Gallina, by reading. The code is not built or run. As a check of the transcription,
  `XUnit.v` states the repository's unit tests of the filters, of word ids and of character definitions for the model (79 tests), and
  `XResources.v` its data files and the test of the analyzer: the model turns each of the four `resources/*_simple_userdic.csv` into
  exactly the bytes of the compiled file beside it (the trie taken from that file), and loading either gives the same dictionary.
  All hold by computation.
* Behaviour of the Rust standard library functions used (documented semantics; each is a model definition).
* External crates, as follows.
  * yada: the writing and reading of tries as bytes are arbitrary functions in `MBuilders.v` and `MConfig.v`; theorems that use
    them assume they are inverse on the words at hand. Elsewhere, `DoubleArrayBuilder::build` on at least one key, with sorted distinct non-empty NUL-free keys with values below 2^31 gives a trie whose
    `common_prefix_search` yields exactly the keys that are prefixes of the argument, shortest first.
  * bincode 1.3 default configuration: fixed-width little-endian integers, u64 lengths, bool as one byte.
  * encoding_rs UTF_16LE decoding with BOM sniffing, as written out in the model of `ucs2_to_unicode`.
  * csv: rows are given as lists of fields. serde_json: the text parser and printer are arbitrary functions;
    configurations are given as values (objects have distinct keys). serde's derived Serialize and Deserialize code is
    transcribed in `MConfig.v`, arrays for structs and one-entry objects for enums included.
  * unicode-normalization, unicode-segmentation, regex, kanaria, unicode-blocks, flate2: arbitrary functions,
    with the properties used stated as hypotheses of the theorems.

## Not modelled

Directory handling and globbing (reading a file and listing the CSV files are arbitrary functions), character set decoding of dictionary sources (an arbitrary function),
downloading in the build scripts, JSON parsing, logging, benchmarks, `japanese_kana` (all its work is done by kanaria), memory limits and running time.

## Log of seeded bugs

Each line of seeded/LOG.jsonl is one edit of a definition in a scratch copy, with the theorems that then fail.

- For many edits made late only the files near the edited definition were built. This holds for the edits to the debug and release builds (C108 to C110) and for Q01 to Q11. There `theorems_failed` lists only theorems of those files, so other theorems may fail too.
- For lines whose id starts with "auto" the build stops at the first lemma that fails. The theorems listed are those whose proofs use it.
- A theorem counts as failed if its proof, or the proof of a lemma it uses, no longer goes through. This can happen for an edit without an effect; where it was noticed, the note of the line says so (Q05, Q07).
- d04 has no result, as the build ran out of memory.
