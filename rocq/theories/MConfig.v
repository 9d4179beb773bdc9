(** Configuration: building filters, tokenizers and analyzers from JSON values, the dictionary loader, and the command line
    front end (lindera-filter/src/lib.rs, character_filter.rs, token_filter.rs, lindera-tokenizer/src/tokenizer.rs,
    lindera-analyzer/src/analyzer.rs, lindera-dictionary/src/lib.rs, lindera-cli/src/main.rs). *)
From Coq Require Import String.
From Coq Require Import List NArith ZArith Bool.
From Verif Require Import MBase MUtf8 MText MCodec MDict MCharDef MUnk MLattice MTokenizer MDetails MBincode MBuild MCharFilter MAnalyzer MTokenFilter.
Import ListNotations.
Local Open Scope list_scope.

(** ** JSON values and serde *)

(* serde_json::Value.  The keys of an object are distinct.  VFloat is any number that is not an integer of 64 bits.
   lindera-analyzer/src/analyzer.rs:44-46, lindera-filter/src/character_filter.rs:109. *)
Inductive value :=
| VNull
| VBool (b : bool)
| VInt (z : Z)
| VFloat
| VStr (s : str)
| VArr (l : list value)
| VObj (fields : list (str * value)).

(* Map::get.  lindera-analyzer/src/analyzer.rs:63. *)
Fixpoint lookup {A} (key : str) (l : list (str * A)) : option A :=
  match l with
  | [] => None
  | (k, v) :: r => if str_eqb key k then Some v else lookup key r
  end.

(* Value::get with a string: None unless the value is an object with that key.
   lindera-filter/src/token_filter/japanese_keep_tags.rs:61. *)
Definition get (v : value) (key : str) : option value :=
  match v with VObj fs => lookup key fs | _ => None end.
(* value[key]: Null unless the value is an object with that key.  lindera-analyzer/src/analyzer.rs:49-77. *)
Definition index (v : value) (key : str) : value :=
  match get v key with Some x => x | None => VNull end.
(* Value::as_array, as_str, as_object.  lindera-analyzer/src/analyzer.rs:49 and 74. *)
Definition as_array (v : value) : option (list value) := match v with VArr l => Some l | _ => None end.
(* lindera-analyzer/src/analyzer.rs:52 and 77. *)
Definition as_str (v : value) : option str := match v with VStr s => Some s | _ => None end.
(* lindera-analyzer/src/analyzer.rs:63. *)
Definition as_object (v : value) : option (list (str * value)) := match v with VObj fs => Some fs | _ => None end.

(* serde's impls of Deserialize; the error messages are dropped and every error is mapped to Deserialize by the callers.
   For instance lindera-filter/src/character_filter/regex.rs:12-16. *)
Definition de_string (v : value) : res str := ok_or (as_str v) EDeserialize.
(* lindera-filter/src/character_filter/japanese_iteration_mark.rs:61-65. *)
Definition de_bool (v : value) : res bool := match v with VBool b => Ok b | _ => Err EDeserialize end.
(* lindera-filter/src/token_filter/length.rs:11-15, lindera-core/src/mode.rs:10-16. *)
Definition de_usize (v : value) : res N :=
  match v with VInt z => if ((0 <=? z) && (z <? 2 ^ 64))%Z then Ok (Z.to_N z) else Err EDeserialize | _ => Err EDeserialize end.
(* lindera-core/src/mode.rs:10-16. *)
Definition de_i32 (v : value) : res Z :=
  match v with VInt z => if ((- 2 ^ 31 <=? z) && (z <? 2 ^ 31))%Z then Ok z else Err EDeserialize | _ => Err EDeserialize end.
(* NonZeroUsize: lindera-filter/src/token_filter/japanese_katakana_stem.rs:16-20. *)
Definition de_nonzero (v : value) : res N := do n <- de_usize v; if (n =? 0)%N then Err EDeserialize else Ok n.
(* Option<T>: lindera-filter/src/token_filter/length.rs:11-15, lindera-dictionary/src/lib.rs:88-106. *)
Definition de_option {A} (de : value -> res A) (v : value) : res (option A) :=
  match v with VNull => Ok None | _ => do x <- de v; Ok (Some x) end.
(* HashSet<String>.  lindera-filter/src/token_filter/keep_words.rs:13-16. *)
Definition de_strings (v : value) : res (list str) :=
  match v with VArr l => mapM de_string l | _ => Err EDeserialize end.
(* HashMap<String, String>.  lindera-filter/src/character_filter/mapping.rs:15-18. *)
Definition de_map (v : value) : res (list (str * str)) :=
  match v with VObj fs => mapM (fun '(k, x) => do s <- de_string x; Ok (k, s)) fs | _ => Err EDeserialize end.

(* the fields of a derived struct: by name from an object (other fields are ignored), or in order from an array of the same
   length.  For instance lindera-filter/src/character_filter/japanese_iteration_mark.rs:61-65. *)
Definition de_struct (names : list str) (v : value) : res (list (option value)) :=
  match v with
  | VObj fs => Ok (map (fun n => lookup n fs) names)
  | VArr l => if Nat.eqb (List.length l) (List.length names) then Ok (map Some l) else Err EDeserialize
  | _ => Err EDeserialize
  end.
(* a required field, and a field of type Option, which may be missing in an object.
   For instance lindera-filter/src/character_filter/japanese_iteration_mark.rs:61-65 and lindera-filter/src/token_filter/length.rs:11-15. *)
Definition required {A} (de : value -> res A) (o : option value) : res A :=
  match o with Some v => de v | None => Err EDeserialize end.
(* lindera-filter/src/token_filter/length.rs:11-15. *)
Definition optional {A} (de : value -> res A) (o : option value) : res (option A) :=
  match o with Some v => de_option de v | None => Ok None end.
(* a struct with one field: for instance lindera-filter/src/character_filter/unicode_normalize.rs:25-28 *)
Definition de_struct1 {A} (name : str) (f : option value -> res A) (v : value) : res A :=
  do fs <- de_struct [name] v;
  match fs with [a] => f a | _ => Err EDeserialize end.
(* a struct with two fields: for instance lindera-filter/src/character_filter/regex.rs:12-16 *)
Definition de_struct2 {A} (n1 n2 : str) (f : option value -> option value -> res A) (v : value) : res A :=
  do fs <- de_struct [n1; n2] v;
  match fs with [a; b] => f a b | _ => Err EDeserialize end.

(* a derived enum with unit variants only: the name, or an object that maps the name to null.
   lindera-filter/src/character_filter/unicode_normalize.rs:13-23. *)
Definition de_enum {A} (variant : str -> option A) (v : value) : res A :=
  match v with
  | VStr s => ok_or (variant s) EDeserialize
  | VObj [(s, VNull)] => ok_or (variant s) EDeserialize
  | _ => Err EDeserialize
  end.

(** ** Names *)

(* lindera-dictionary/src/lib.rs:56-64 *)
Definition kind_name (k : dictionary_kind) : str :=
  match k with
  | IPADIC => lit "ipadic"
  | IPADICNEologd => lit "ipadic-neologd"
  | UniDic => lit "unidic"
  | KoDic => lit "ko-dic"
  | CcCedict => lit "cc-cedict"
  end.

(* lindera-dictionary/src/lib.rs:67-80 *)
Definition kind_from_str (s : str) : res dictionary_kind :=
  if str_eqb s (lit "ipadic") then Ok IPADIC
  else if str_eqb s (lit "ipadic-neologd") then Ok IPADICNEologd
  else if str_eqb s (lit "unidic") then Ok UniDic
  else if str_eqb s (lit "ko-dic") then Ok KoDic
  else if str_eqb s (lit "cc-cedict") then Ok CcCedict
  else Err EDictionaryKind.

(* lindera-dictionary/src/lib.rs:24-36: the names of the variants for serde *)
Definition kind_variant (s : str) : option dictionary_kind :=
  if str_eqb s (lit "ipadic") then Some IPADIC
  else if str_eqb s (lit "ipadic-neologd") then Some IPADICNEologd
  else if str_eqb s (lit "unidic") then Some UniDic
  else if str_eqb s (lit "ko-dic") then Some KoDic
  else if str_eqb s (lit "cc-cedict") then Some CcCedict
  else None.

(* lindera-core/src/mode.rs:68-80 *)
Definition mode_from_str (s : str) : res mode :=
  if str_eqb s (lit "normal") then Ok Normal
  else if str_eqb s (lit "decompose") then Ok (Decompose default_penalty)
  else Err EMode.

(* lindera-cli/src/main.rs:93-114 *)
Inductive format := FMecab | FWakati | FJson.
(* lindera-cli/src/main.rs:102-114 *)
Definition format_from_str (s : str) : res format :=
  if str_eqb s (lit "mecab") then Ok FMecab
  else if str_eqb s (lit "wakati") then Ok FWakati
  else if str_eqb s (lit "json") then Ok FJson
  else Err EArgs.

(* lindera-filter/src/character_filter/unicode_normalize.rs:13-23 *)
Inductive normal_form := NFC | NFD | NFKC | NFKD.
(* lindera-filter/src/character_filter/unicode_normalize.rs:13-23, the names for serde *)
Definition form_variant (s : str) : option normal_form :=
  if str_eqb s (lit "nfc") then Some NFC
  else if str_eqb s (lit "nfd") then Some NFD
  else if str_eqb s (lit "nfkc") then Some NFKC
  else if str_eqb s (lit "nfkd") then Some NFKD
  else None.

(* lindera-filter/src/token_filter/japanese_kana.rs:13-21 *)
Inductive kana_kind := Hiragana | Katakana.
(* lindera-filter/src/token_filter/japanese_kana.rs:13-21, the names for serde *)
Definition kana_variant (s : str) : option kana_kind :=
  if str_eqb s (lit "hiragana") then Some Hiragana
  else if str_eqb s (lit "katakana") then Some Katakana
  else None.

(** ** The world outside *)

(* What the program gets from other crates, the operating system and the build.
   For instance lindera-cli/src/main.rs:245, lindera-filter/src/character_filter/regex.rs:45, lindera-dictionary/src/lib.rs:127-129. *)
Record env := Env {
  e_parse : str -> option value;                      (* serde_json::from_str::<Value> *)
  e_pretty : list value -> str;                       (* serde_json::to_string_pretty *)
  e_regex : str -> option regex;                      (* Regex::new *)
  e_graphemes : str -> list str;                      (* unicode-segmentation *)
  e_form : normal_form -> str -> str;                 (* unicode-normalization *)
  e_lower : str -> str;                               (* str::to_lowercase *)
  e_upper : str -> str;                               (* str::to_uppercase *)
  e_kana : kana_kind -> str -> str;                   (* kanaria *)
  e_block : char -> option block;                     (* unicode-blocks *)
  e_embedded : dictionary_kind -> option (res dictionary);  (* the embedded dictionaries; None if not compiled in *)
  e_read : str -> option (list N);                    (* fs::read *)
  e_da : list N -> double_array;                      (* the key set that yada finds in the bytes *)
  e_csv : list N -> res (list row)                    (* csv::Reader::records, no headers, records of any length *)
}.

(** ** Character filters *)

(* the filters that lindera-filter/src/character_filter.rs:109-135 makes *)
Inductive char_filter_def :=
| CFIteration (c : iteration_config)
| CFMapping (f : mapping_filter)
| CFRegex (rx : regex) (replacement : str)
| CFNormalize (form : normal_form).

(* lindera-filter/src/character_filter/japanese_iteration_mark.rs:61-84 *)
Definition iteration_config_from_value : value -> res iteration_config :=
  de_struct2 (lit "normalize_kanji") (lit "normalize_kana")
    (fun a b => do x <- required de_bool a; do y <- required de_bool b; Ok (IterationConfig x y)).
(* lindera-filter/src/character_filter/mapping.rs:15-34 and lindera-filter/src/token_filter/mapping.rs:15-34 *)
Definition mapping_config_from_value : value -> res (list (str * str)) := de_struct1 (lit "mapping") (required de_map).
(* lindera-filter/src/character_filter/regex.rs:12-35 *)
Definition regex_config_from_value : value -> res (str * str) :=
  de_struct2 (lit "pattern") (lit "replacement")
    (fun a b => do x <- required de_string a; do y <- required de_string b; Ok (x, y)).
(* lindera-filter/src/character_filter/unicode_normalize.rs:25-44 *)
Definition normalize_config_from_value : value -> res normal_form :=
  de_struct1 (lit "kind") (required (de_enum form_variant)).

(* lindera-filter/src/character_filter.rs:109-135 *)
Definition load_char_filter (e : env) (kind : str) (v : value) : res char_filter_def :=
  if str_eqb kind (lit "japanese_iteration_mark") then
    do c <- iteration_config_from_value v; Ok (CFIteration c)
  else if str_eqb kind (lit "mapping") then
    do m <- mapping_config_from_value v; do f <- mapping_new m; Ok (CFMapping f)
  else if str_eqb kind (lit "regex") then
    do '(p, r) <- regex_config_from_value v; do rx <- ok_or (e_regex e p) EArgs; Ok (CFRegex rx r)
  else if str_eqb kind (lit "unicode_normalize") then
    do k <- normalize_config_from_value v; Ok (CFNormalize k)
  else Err EDeserialize.

(* CharacterFilter::apply of the four filters.  lindera-filter/src/character_filter.rs:30. *)
Definition run_char_filter (e : env) (d : char_filter_def) : char_filter :=
  match d with
  | CFIteration c => fun text => Some (iteration_apply c text)
  | CFMapping f => mapping_apply f
  | CFRegex rx r => fun text => Some (regex_apply rx r text)
  | CFNormalize k => fun text => Some (Ok (normalize_apply (e_graphemes e) (e_form e k) text))
  end.

(** ** Token filters *)

(* the filters that lindera-filter/src/token_filter.rs:115-185 makes *)
Inductive token_filter_def :=
| TFBaseForm (k : dictionary_kind)
| TFCompound (c : compound_config)
| TFKana (k : kana_kind)
| TFStem (min : N)
| TFKeepTags (tags : list str)
| TFNumber (tags : option (list str))
| TFReadingForm (k : dictionary_kind)
| TFStopTags (tags : list str)
| TFKeepWords (words : list str)
| TFKoreanKeepTags (tags : list str)
| TFKoreanReadingForm
| TFKoreanStopTags (tags : list str)
| TFLength (min max : option N)
| TFLowercase
| TFMapping (f : mapping_filter)
| TFStopWords (words : list str)
| TFUppercase.

(* {kind: DictionaryKind}: lindera-filter/src/token_filter/japanese_base_form.rs:13-32, lindera-filter/src/token_filter/japanese_reading_form.rs:12-31 *)
Definition kind_config_from_value : value -> res dictionary_kind := de_struct1 (lit "kind") (required (de_enum kind_variant)).
(* lindera-filter/src/token_filter/japanese_compound_word.rs:15-76 *)
Definition compound_config_from_value (v : value) : res compound_config :=
  do fs <- de_struct [lit "kind"; lit "tags"; lit "new_tag"] v;
  match fs with
  | [a; b; c] =>
    do k <- required (de_enum kind_variant) a; do ts <- required de_strings b; do nt <- optional de_string c;
    compound_config_new k ts nt
  | _ => Err EDeserialize
  end.
(* lindera-filter/src/token_filter/japanese_kana.rs:23-42 *)
Definition kana_config_from_value : value -> res kana_kind := de_struct1 (lit "kind") (required (de_enum kana_variant)).
(* lindera-filter/src/token_filter/japanese_katakana_stem.rs:16-41: min is 3 if missing, also from an empty array *)
Definition stem_config_from_value (v : value) : res N :=
  match v with
  | VObj fs => match lookup (lit "min") fs with Some x => de_nonzero x | None => Ok 3%N end
  | VArr [] => Ok 3%N
  | VArr [x] => de_nonzero x
  | _ => Err EDeserialize
  end.
(* lindera-filter/src/token_filter/japanese_keep_tags.rs:44-62, lindera-filter/src/token_filter/japanese_stop_tags.rs:44-62 *)
Definition tags_config_from_value (v : value) : res (list str) :=
  do l <- ok_or (as_array (index v (lit "tags"))) EDeserialize;
  do tags <- mapM (fun x => ok_or (as_str x) EDeserialize) l;
  format_tags tags.
(* lindera-filter/src/token_filter/japanese_number.rs:19-78: tags that are not an array are ignored *)
Definition number_config_from_value (v : value) : res (option (list str)) :=
  match get v (lit "tags") with
  | Some (VArr l) => do tags <- mapM (fun x => ok_or (as_str x) EDeserialize) l; do ts <- format_tags tags; Ok (Some ts)
  | _ => Ok None
  end.
(* lindera-filter/src/token_filter/keep_words.rs:13-32, lindera-filter/src/token_filter/stop_words.rs:13-32 and, with another name, lindera-filter/src/token_filter/korean_keep_tags.rs:13-32, lindera-filter/src/token_filter/korean_stop_tags.rs:13-32 *)
Definition words_config_from_value : value -> res (list str) := de_struct1 (lit "words") (required de_strings).
(* lindera-filter/src/token_filter/korean_keep_tags.rs:13-32 *)
Definition korean_tags_config_from_value : value -> res (list str) := de_struct1 (lit "tags") (required de_strings).
(* lindera-filter/src/token_filter/length.rs:11-31 *)
Definition length_config_from_value : value -> res (option N * option N) :=
  de_struct2 (lit "min") (lit "max")
    (fun a b => do x <- optional de_usize a; do y <- optional de_usize b; Ok (x, y)).

(* lindera-filter/src/token_filter.rs:115-185 *)
Definition load_token_filter (kind : str) (v : value) : res token_filter_def :=
  if str_eqb kind (lit "japanese_base_form") then do k <- kind_config_from_value v; Ok (TFBaseForm k)
  else if str_eqb kind (lit "japanese_compound_word") then do c <- compound_config_from_value v; Ok (TFCompound c)
  else if str_eqb kind (lit "japanese_kana") then do k <- kana_config_from_value v; Ok (TFKana k)
  else if str_eqb kind (lit "japanese_katakana_stem") then do m <- stem_config_from_value v; Ok (TFStem m)
  else if str_eqb kind (lit "japanese_keep_tags") then do ts <- tags_config_from_value v; Ok (TFKeepTags ts)
  else if str_eqb kind (lit "japanese_number") then do ts <- number_config_from_value v; Ok (TFNumber ts)
  else if str_eqb kind (lit "japanese_reading_form") then do k <- kind_config_from_value v; Ok (TFReadingForm k)
  else if str_eqb kind (lit "japanese_stop_tags") then do ts <- tags_config_from_value v; Ok (TFStopTags ts)
  else if str_eqb kind (lit "keep_words") then do ws <- words_config_from_value v; Ok (TFKeepWords ws)
  else if str_eqb kind (lit "korean_keep_tags") then do ts <- korean_tags_config_from_value v; Ok (TFKoreanKeepTags ts)
  else if str_eqb kind (lit "korean_reading_form") then Ok TFKoreanReadingForm
  else if str_eqb kind (lit "korean_stop_tags") then do ts <- korean_tags_config_from_value v; Ok (TFKoreanStopTags ts)
  else if str_eqb kind (lit "length") then do '(a, b) <- length_config_from_value v; Ok (TFLength a b)
  else if str_eqb kind (lit "lowercase") then Ok TFLowercase
  else if str_eqb kind (lit "mapping") then do m <- mapping_config_from_value v; do f <- mapping_new m; Ok (TFMapping f)
  else if str_eqb kind (lit "stop_words") then do ws <- words_config_from_value v; Ok (TFStopWords ws)
  else if str_eqb kind (lit "uppercase") then Ok TFUppercase
  else Err EDeserialize.

(* TokenFilter::apply of the seventeen filters.  The mapping filter would not terminate (here: Panic) only if a key were
   empty, and yada refuses an empty key.  lindera-filter/src/token_filter.rs:80-84. *)
Definition run_token_filter (e : env) (d : token_filter_def) : token_filter :=
  match d with
  | TFBaseForm k => japanese_base_form_apply k
  | TFCompound c => compound_apply c
  | TFKana k => convert_apply (e_kana e k)
  | TFStem m => katakana_stem_apply (e_block e) (N.to_nat m)
  | TFKeepTags ts => japanese_keep_tags_apply ts
  | TFNumber ts => japanese_number_apply ts
  | TFReadingForm k => japanese_reading_form_apply k
  | TFStopTags ts => japanese_stop_tags_apply ts
  | TFKeepWords ws => keep_words_apply ws
  | TFKoreanKeepTags ts => korean_keep_tags_apply ts
  | TFKoreanReadingForm => korean_reading_form_apply
  | TFKoreanStopTags ts => korean_stop_tags_apply ts
  | TFLength a b => length_apply (option_map N.to_nat a) (option_map N.to_nat b)
  | TFLowercase => convert_apply (e_lower e)
  | TFMapping f => fun ts => match mapping_tokens f ts with Some r => r | None => Panic end
  | TFStopWords ws => stop_words_apply ws
  | TFUppercase => convert_apply (e_upper e)
  end.

(** ** Filters on the command line *)

(* str::split_once(c).  lindera-filter/src/lib.rs:10-17. *)
Fixpoint split_once (c : char) (s : str) : option (str * str) :=
  match s with
  | [] => None
  | x :: r =>
    if (x =? c)%N then Some ([], r)
    else match split_once c r with Some (a, b) => Some (x :: a, b) | None => None end
  end.

(* lindera-filter/src/lib.rs:10-17 *)
Definition parse_cli_flag (e : env) (flag : str) : res (str * value) :=
  let '(kind, json) := match split_once 58%N flag with Some p => p | None => (flag, []) end in
  do args <- ok_or (e_parse e json) EContent;
  Ok (kind, args).

(* lindera-filter/src/character_filter.rs:137-143, lindera-filter/src/token_filter.rs:187-193 *)
Definition load_char_filter_flag (e : env) (flag : str) : res char_filter_def :=
  do '(kind, args) <- parse_cli_flag e flag; load_char_filter e kind args.
(* lindera-filter/src/token_filter.rs:187-193 *)
Definition load_token_filter_flag (e : env) (flag : str) : res token_filter_def :=
  do '(kind, args) <- parse_cli_flag e flag; load_token_filter kind args.

(** ** Dictionaries *)

(* lindera-dictionary/src/lib.rs:88-106.  Paths are strings (valid Unicode). *)
Record dictionary_config := DictionaryConfig { dc_kind : option dictionary_kind; dc_path : option str }.
(* lindera-dictionary/src/lib.rs:100-106 *)
Record user_dictionary_config := UserDictionaryConfig { udc_path : str; udc_kind : option dictionary_kind }.

(* lindera-dictionary/src/lib.rs:127-129 *)
Definition read_file (e : env) (path : str) : res (list N) := ok_or (e_read e path) EIo.
(* PathBuf::join with a relative file name, on Unix.  lindera-dictionary/src/lib.rs:132-171. *)
Definition join_path (dir name : str) : str :=
  if is_nil dir || ends_with_char dir 47%N then dir ++ name else dir ++ 47%N :: name.

(* lindera-dictionary/src/lib.rs:131-184 *)
Definition load_dictionary (e : env) (dir : str) : res dictionary :=
  do da <- read_file e (join_path dir (lit "dict.da"));
  do vals <- read_file e (join_path dir (lit "dict.vals"));
  do matrix <- read_file e (join_path dir (lit "matrix.mtx"));
  do m <- cm_load matrix;
  do chardef <- read_file e (join_path dir (lit "char_def.bin"));
  do c <- load_chardef chardef;
  do unk <- read_file e (join_path dir (lit "unk.bin"));
  do u <- load_unknown unk;
  do idx <- read_file e (join_path dir (lit "dict.wordsidx"));
  do words <- read_file e (join_path dir (lit "dict.words"));
  Ok (Dictionary (PrefixDict (e_da e da) vals true) m c u idx words).

(* lindera-dictionary/src/lib.rs:186-208 *)
Definition load_dictionary_from_kind (e : env) (k : dictionary_kind) : res dictionary :=
  match e_embedded e k with
  | None => Err EArgs
  | Some (Ok d) => Ok d
  | Some (Err _) => Err EDictionaryNotFound
  | Some Panic => Panic
  end.

(* lindera-dictionary/src/lib.rs:210-229 *)
Definition load_dictionary_from_config (e : env) (c : dictionary_config) : res dictionary :=
  match dc_kind c with
  | Some k => load_dictionary_from_kind e k
  | None => match dc_path c with Some p => load_dictionary e p | None => Err EArgs end
  end.

(* Path::file_name on Unix: the last component; trailing slashes and "." components are dropped, ".." has no name.
   lindera-cli/src/main.rs:286. *)
Definition file_name (path : str) : option str :=
  match last_error (filter (fun p => negb (is_nil p || str_eqb p [46%N])) (split_char 47%N path)) with
  | Some p => if str_eqb p [46%N; 46%N] then None else Some p
  | None => None
  end.
(* Path::extension: after the last dot of the file name, unless nothing is before it.  lindera-dictionary/src/lib.rs:248. *)
Definition extension (path : str) : option str :=
  match file_name path with
  | None => None
  | Some name =>
    match rev (split_char 46%N name) with
    | ext :: p :: ps => if is_nil (join [46%N] (rev (p :: ps))) then None else Some ext
    | _ => None
    end
  end.

(* csv::ReaderBuilder::flexible(false): every record must be as long as the first.
   lindera-dictionary-builder/src/user_dict.rs:45-49. *)
Definition same_lengths (rows : list row) : bool :=
  match rows with [] => true | r :: rest => forallb (fun x => Nat.eqb (List.length x) (List.length r)) rest end.
(* The records of a CSV file.  The code returns at the first error of any sort, with the same kind.
   lindera-dictionary-builder/src/user_dict.rs:44-56. *)
Definition csv_rows (e : env) (flexible : bool) (bytes : list N) : res (list row) :=
  do rows <- e_csv e bytes;
  if flexible || same_lengths rows then Ok rows else Err EContent.

(* flexible_csv in build_user_dict of the builders: true for the two IPADICs (ipadic 107, neologd 102), false for the others
   (unidic 102, ko-dic 101, cc-cedict 102).
   lindera-ipadic-builder/src/ipadic_builder.rs:107, lindera-ipadic-neologd-builder/src/ipadic_neologd_builder.rs:102. *)
Definition kind_user_flexible (k : dictionary_kind) : bool := match k with IPADIC | IPADICNEologd => true | _ => false end.

(* build_user_dict of the builders; lindera-dictionary-builder/src/user_dict.rs:44-56 reads the rows *)
Definition build_user_dict (e : env) (k : dictionary_kind) (path : str) : res user_dictionary :=
  do bytes <- read_file e path;
  do rows <- csv_rows e (kind_user_flexible k) bytes;
  build_user (kind_user_options k) rows.

(* lindera-dictionary/src/lib.rs:231-239 *)
Definition load_user_dictionary_from_csv (e : env) (k : dictionary_kind) (path : str) : res user_dictionary :=
  match build_user_dict e k path with
  | Err _ => Err EDictionaryBuild
  | r => r
  end.
(* lindera-dictionary/src/lib.rs:241-243 *)
Definition load_user_dictionary_from_bin (e : env) (path : str) : res user_dictionary :=
  do bytes <- read_file e path;
  do u <- load_user bytes;
  Ok (UserDictionary (PrefixDict (e_da e (uf_da u)) (uf_vals u) (uf_system u)) (uf_words_idx u) (uf_words u)).
(* lindera-dictionary/src/lib.rs:245-264 *)
Definition load_user_dictionary_from_config (e : env) (c : user_dictionary_config) : res user_dictionary :=
  match extension (udc_path c) with
  | Some ext =>
    if str_eqb ext (lit "csv") then
      match udc_kind c with Some k => load_user_dictionary_from_csv e k (udc_path c) | None => Err EArgs end
    else if str_eqb ext (lit "bin") then load_user_dictionary_from_bin e (udc_path c)
    else Err EArgs
  | None => Err EArgs
  end.

(** ** Tokenizer and analyzer *)

(* lindera-tokenizer/src/tokenizer.rs:14-25 *)
Record tokenizer_config := TokenizerConfig {
  tc_dictionary : dictionary_config;
  tc_user : option user_dictionary_config;
  tc_mode : mode
}.

(* derived.  lindera-dictionary/src/lib.rs:88-94. *)
Definition de_dictionary_config : value -> res dictionary_config :=
  de_struct2 (lit "kind") (lit "path")
    (fun a b => do k <- optional (de_enum kind_variant) a; do p <- optional de_string b; Ok (DictionaryConfig k p)).
(* lindera-dictionary/src/lib.rs:100-106, derived *)
Definition de_user_dictionary_config : value -> res user_dictionary_config :=
  de_struct2 (lit "path") (lit "kind")
    (fun a b => do p <- required de_string a; do k <- optional (de_enum kind_variant) b; Ok (UserDictionaryConfig p k)).
(* lindera-core/src/mode.rs:10-16, 46-52: derived; a variant with data is an object with one entry *)
Definition de_penalty (v : value) : res penalty :=
  do fs <- de_struct [lit "kanji_penalty_length_threshold"; lit "kanji_penalty_length_penalty";
                      lit "other_penalty_length_threshold"; lit "other_penalty_length_penalty"] v;
  match fs with
  | [a; b; c; d] =>
    do w <- required de_usize a; do x <- required de_i32 b; do y <- required de_usize c; do z <- required de_i32 d;
    Ok (Penalty w x y z)
  | _ => Err EDeserialize
  end.
(* lindera-core/src/mode.rs:46-52, derived *)
Definition de_mode (v : value) : res mode :=
  match v with
  | VStr s => if str_eqb s (lit "normal") then Ok Normal else Err EDeserialize
  | VObj [(s, x)] =>
    if str_eqb s (lit "normal") then match x with VNull => Ok Normal | _ => Err EDeserialize end
    else if str_eqb s (lit "decompose") then do p <- de_penalty x; Ok (Decompose p)
    else Err EDeserialize
  | _ => Err EDeserialize
  end.

(* lindera-tokenizer/src/tokenizer.rs:110-145, visit_map.  The keys are distinct, so that a duplicate field does not occur. *)
Definition tokenizer_field (st : option dictionary_config * option user_dictionary_config * option mode) (f : str * value)
  : res (option dictionary_config * option user_dictionary_config * option mode) :=
  let '(d, u, m) := st in
  let '(key, v) := f in
  if str_eqb key (lit "dictionary") then do x <- de_dictionary_config v; Ok (Some x, u, m)
  else if str_eqb key (lit "user_dictionary") then do x <- de_user_dictionary_config v; Ok (d, Some x, m)
  else if str_eqb key (lit "mode") then do x <- de_mode v; Ok (d, u, Some x)
  else Err EDeserialize.
(* lindera-tokenizer/src/tokenizer.rs:42-151, from an object *)
Definition de_tokenizer_config (fields : list (str * value)) : res tokenizer_config :=
  do '(d, u, m) <- foldM tokenizer_field fields (None, None, None);
  do d <- ok_or d EDeserialize;
  Ok (TokenizerConfig d u (match m with Some m => m | None => Normal end)).

(* lindera-tokenizer/src/tokenizer.rs:177-188 *)
Definition tokenizer_from_config (e : env) (c : tokenizer_config) : res tokenizer :=
  do d <- load_dictionary_from_config e (tc_dictionary c);
  do u <- match tc_user c with
          | Some uc => do u <- load_user_dictionary_from_config e uc; Ok (Some u)
          | None => Ok None
          end;
  Ok (Tokenizer d u (tc_mode c)).

(* lindera-analyzer/src/analyzer.rs:48-61 and 74-85: entries without a string "kind" are skipped *)
Definition load_filters {A} (load : str -> value -> res A) (settings : option (list value)) : res (list A) :=
  match settings with
  | None => Ok []
  | Some l =>
    do fs <- foldM (fun acc s =>
      match as_str (index s (lit "kind")) with
      | Some name => do f <- load name (index s (lit "args")); Ok (acc ++ [f])
      | None => Ok acc
      end) l [];
    Ok fs
  end.

(* lindera-analyzer/src/analyzer.rs:44-88, the filters as data *)
Record analyzer_def := AnalyzerDef {
  ad_char_filters : list char_filter_def;
  ad_tokenizer : tokenizer;
  ad_token_filters : list token_filter_def
}.
(* The tokenizer's configuration is written to JSON text and read back (serde_json): the same value.
   lindera-analyzer/src/analyzer.rs:44-88. *)
Definition analyzer_from_config (e : env) (v : value) : res analyzer_def :=
  do cfs <- load_filters (load_char_filter e) (as_array (index v (lit "character_filters")));
  do fields <- ok_or (as_object (index v (lit "tokenizer"))) EDeserialize;
  do tc <- de_tokenizer_config fields;
  do t <- tokenizer_from_config e tc;
  do tfs <- load_filters load_token_filter (as_array (index v (lit "token_filters")));
  Ok (AnalyzerDef cfs t tfs).
(* Analyzer::new (lindera-analyzer/src/analyzer.rs:90-100) *)
Definition analyzer_of (e : env) (d : analyzer_def) : analyzer :=
  Analyzer (map (run_char_filter e) (ad_char_filters d)) (ad_tokenizer d) (map (run_token_filter e) (ad_token_filters d)).

(** ** Serialize *)

(* derive(Serialize) for the fields of the configurations: Option<T>, as in lindera-filter/src/token_filter/length.rs:11-15 *)
Definition ser_option {A} (ser : A -> value) (o : option A) : value := match o with Some x => ser x | None => VNull end.
(* HashSet<String>: lindera-filter/src/token_filter/keep_words.rs:13-16 *)
Definition ser_strings (l : list str) : value := VArr (map VStr l).
(* HashMap<String, String>: lindera-filter/src/character_filter/mapping.rs:15-18 *)
Definition ser_map (m : list (str * str)) : value := VObj (map (fun '(k, v) => (k, VStr v)) m).
(* usize: lindera-filter/src/token_filter/length.rs:11-15 *)
Definition ser_N (n : N) : value := VInt (Z.of_N n).
(* lindera-dictionary/src/lib.rs:24-36 *)
Definition ser_kind (k : dictionary_kind) : value := VStr (kind_name k).
(* lindera-filter/src/character_filter/unicode_normalize.rs:13-23 *)
Definition ser_form (f : normal_form) : value :=
  VStr (match f with NFC => lit "nfc" | NFD => lit "nfd" | NFKC => lit "nfkc" | NFKD => lit "nfkd" end).
(* lindera-filter/src/token_filter/japanese_kana.rs:13-21 *)
Definition ser_kana (k : kana_kind) : value := VStr (match k with Hiragana => lit "hiragana" | Katakana => lit "katakana" end).

(* derive(Serialize) of the filter configurations, by the filter that they make; filters without configuration: {}.
   For instance lindera-filter/src/token_filter/length.rs:11-15 and lindera-filter/src/token_filter/japanese_compound_word.rs:15-20. *)
Definition ser_token_filter (d : token_filter_def) : str * value :=
  match d with
  | TFBaseForm k => (lit "japanese_base_form", VObj [(lit "kind", ser_kind k)])
  | TFCompound c => (lit "japanese_compound_word",
      VObj [(lit "kind", ser_kind (cc_kind c)); (lit "tags", ser_strings (cc_tags c)); (lit "new_tag", ser_option VStr (cc_new_tag c))])
  | TFKana k => (lit "japanese_kana", VObj [(lit "kind", ser_kana k)])
  | TFStem m => (lit "japanese_katakana_stem", VObj [(lit "min", ser_N m)])
  | TFKeepTags ts => (lit "japanese_keep_tags", VObj [(lit "tags", ser_strings ts)])
  | TFNumber ts => (lit "japanese_number", VObj [(lit "tags", ser_option ser_strings ts)])
  | TFReadingForm k => (lit "japanese_reading_form", VObj [(lit "kind", ser_kind k)])
  | TFStopTags ts => (lit "japanese_stop_tags", VObj [(lit "tags", ser_strings ts)])
  | TFKeepWords ws => (lit "keep_words", VObj [(lit "words", ser_strings ws)])
  | TFKoreanKeepTags ts => (lit "korean_keep_tags", VObj [(lit "tags", ser_strings ts)])
  | TFKoreanReadingForm => (lit "korean_reading_form", VObj [])
  | TFKoreanStopTags ts => (lit "korean_stop_tags", VObj [(lit "tags", ser_strings ts)])
  | TFLength a b => (lit "length", VObj [(lit "min", ser_option ser_N a); (lit "max", ser_option ser_N b)])
  | TFLowercase => (lit "lowercase", VObj [])
  | TFMapping f => (lit "mapping", VObj [(lit "mapping", ser_map (mf_mapping f))])
  | TFStopWords ws => (lit "stop_words", VObj [(lit "words", ser_strings ws)])
  | TFUppercase => (lit "uppercase", VObj [])
  end.

(* The configurations of the character filters: lindera-filter/src/character_filter/japanese_iteration_mark.rs:61-65, lindera-filter/src/character_filter/mapping.rs:15-18 (distinct keys, in any order),
   lindera-filter/src/character_filter/regex.rs:12-16, lindera-filter/src/character_filter/unicode_normalize.rs:25-28 *)
Inductive char_filter_config :=
| CCIteration (c : iteration_config)
| CCMapping (m : list (str * str))
| CCRegex (pattern replacement : str)
| CCNormalize (form : normal_form).
(* new of the filters: lindera-filter/src/character_filter/japanese_iteration_mark.rs:97-99, lindera-filter/src/character_filter/mapping.rs:48-65, lindera-filter/src/character_filter/regex.rs:45-50, lindera-filter/src/character_filter/unicode_normalize.rs:54-56 *)
Definition char_filter_new (e : env) (c : char_filter_config) : res char_filter_def :=
  match c with
  | CCIteration c => Ok (CFIteration c)
  | CCMapping m => do f <- mapping_new m; Ok (CFMapping f)
  | CCRegex p r => do rx <- ok_or (e_regex e p) EArgs; Ok (CFRegex rx r)
  | CCNormalize k => Ok (CFNormalize k)
  end.
(* derive(Serialize) of the configurations, with the name of the filter.
   lindera-filter/src/character_filter/japanese_iteration_mark.rs:61-65, lindera-filter/src/character_filter/mapping.rs:15-18, lindera-filter/src/character_filter/regex.rs:12-16, lindera-filter/src/character_filter/unicode_normalize.rs:25-28. *)
Definition ser_char_filter (c : char_filter_config) : str * value :=
  match c with
  | CCIteration c => (lit "japanese_iteration_mark", VObj [(lit "normalize_kanji", VBool (ic_kanji c)); (lit "normalize_kana", VBool (ic_kana c))])
  | CCMapping m => (lit "mapping", VObj [(lit "mapping", ser_map m)])
  | CCRegex p r => (lit "regex", VObj [(lit "pattern", VStr p); (lit "replacement", VStr r)])
  | CCNormalize k => (lit "unicode_normalize", VObj [(lit "kind", ser_form k)])
  end.

(* derive(Serialize) of TokenizerConfig (lindera-tokenizer/src/tokenizer.rs:14), DictionaryConfig, UserDictionaryConfig, Mode and Penalty *)
Definition ser_dictionary_config (c : dictionary_config) : value :=
  VObj [(lit "kind", ser_option ser_kind (dc_kind c)); (lit "path", ser_option VStr (dc_path c))].
(* lindera-dictionary/src/lib.rs:100-106 *)
Definition ser_user_dictionary_config (c : user_dictionary_config) : value :=
  VObj [(lit "path", VStr (udc_path c)); (lit "kind", ser_option ser_kind (udc_kind c))].
(* lindera-core/src/mode.rs:10-16 *)
Definition ser_penalty (p : penalty) : value :=
  VObj [(lit "kanji_penalty_length_threshold", ser_N (kanji_threshold p));
        (lit "kanji_penalty_length_penalty", VInt (kanji_penalty p));
        (lit "other_penalty_length_threshold", ser_N (other_threshold p));
        (lit "other_penalty_length_penalty", VInt (other_penalty p))].
(* lindera-core/src/mode.rs:46-52 *)
Definition ser_mode (m : mode) : value :=
  match m with Normal => VStr (lit "normal") | Decompose p => VObj [(lit "decompose", ser_penalty p)] end.
(* lindera-tokenizer/src/tokenizer.rs:14-25 *)
Definition ser_tokenizer_config (c : tokenizer_config) : list (str * value) :=
  [(lit "dictionary", ser_dictionary_config (tc_dictionary c));
   (lit "user_dictionary", ser_option ser_user_dictionary_config (tc_user c));
   (lit "mode", ser_mode (tc_mode c))].

(** ** The command line *)

(* lindera-cli/src/main.rs:256-262: json!, with the members in the order of their names.  A word id is a tuple struct: an array. *)
Definition token_info (tk : ftoken) : value :=
  VObj [(lit "byte_end", ser_N (ft_end tk)); (lit "byte_start", ser_N (ft_start tk)); (lit "details", ser_strings (ft_details tk));
        (lit "text", VStr (ft_text tk)); (lit "word_id", VArr [ser_N (wid (ft_word tk)); VBool (wsys (ft_word tk))])].

(* lindera-cli/src/main.rs:135-137 and 167-169: token["text"].as_str() *)
Definition info_text (v : value) : res str := ok_or (as_str (index v (lit "text"))) EContent.

(* lindera-cli/src/main.rs:135-147: the line of one token; unwrap panics *)
Definition mecab_token (v : value) : res str :=
  do text <- info_text v;
  do details <- ok_or (as_array (index v (lit "details"))) EContent;
  do details <- mapM (fun d => match as_str d with Some s => Ok s | None => Panic end) details;
  Ok (text ++ [9%N] ++ join [44%N] details ++ [10%N]).

(* lindera-cli/src/main.rs:133-152: what is printed, and the result *)
Fixpoint mecab_output (tokens : list value) : str * res unit :=
  match tokens with
  | [] => (lit "EOS" ++ [10%N], Ok tt)
  | v :: r =>
    match mecab_token v with
    | Ok line => let '(out, res) := mecab_output r in (line ++ out, res)
    | Err k => ([], Err k)
    | Panic => ([], Panic)
    end
  end.

(* lindera-cli/src/main.rs:154-162.  Writing a value as JSON text does not fail. *)
Definition json_output (e : env) (tokens : list value) : str * res unit := (e_pretty e tokens ++ [10%N], Ok tt).

(* lindera-cli/src/main.rs:164-178 *)
Fixpoint wakati_output (tokens : list value) : str * res unit :=
  match tokens with
  | [] => ([], Ok tt)
  | v :: r =>
    match info_text v with
    | Ok text => let '(out, res) := wakati_output r in (text ++ (match r with [] => [10%N] | _ :: _ => [32%N] end) ++ out, res)
    | Err k => ([], Err k)
    | Panic => ([], Panic)
    end
  end.

(* lindera-cli/src/main.rs:266-276 *)
Definition output (e : env) (f : format) (tokens : list value) : str * res unit :=
  match f with
  | FMecab => mecab_output tokens
  | FJson => json_output e tokens
  | FWakati => wakati_output tokens
  end.

(* lindera-cli/src/main.rs:241-277: what is printed, and how the loop ends.  Each line is what read_line reads: the bytes up to and
   including a newline; read_line fails if they are not UTF-8.  Reading does not fail otherwise. *)
Fixpoint cli_loop (e : env) (a : analyzer) (f : format) (lines : list (list N)) : option (str * res unit) :=
  match lines with
  | [] => Some ([], Ok tt)
  | line :: r =>
    match utf8_decode line with
    | None => Some ([], Err EIo)
    | Some text =>
      match analyze a (trim text) with
      | None => None
      | Some (Ok tokens) =>
        match output e f (map token_info tokens) with
        | (out, Ok _) =>
          match cli_loop e a f r with
          | Some (out', res) => Some (out ++ out', res)
          | None => None
          end
        | (out, Err k) => Some (out, Err k)
        | (out, Panic) => Some (out, Panic)
        end
      | Some (Err k) => Some ([], Err k)
      | Some Panic => Some ([], Panic)
      end
    end
  end.

(* lindera-cli/src/main.rs:228-277: the loop on the bytes of a file or of the standard input *)
Definition cli_tokenize (e : env) (a : analyzer) (f : format) (input : list N) : option (str * res unit) :=
  cli_loop e a f (split_inclusive (N.eqb 10) input).

(* lindera-dictionary/src/lib.rs:39-41: strum's iteration in the order of the declaration *)
Definition kind_variants : list dictionary_kind := [IPADIC; IPADICNEologd; UniDic; KoDic; CcCedict].

(* lindera-dictionary/src/lib.rs:43-54.  The features are those that decide which dictionaries are compiled in (186-208). *)
Definition contained_variants (e : env) : list dictionary_kind :=
  filter (fun k => match e_embedded e k with Some _ => true | None => false end) kind_variants.

(* lindera-cli/src/main.rs:126-131 *)
Definition cli_list (e : env) : str := flat_map (fun k => kind_name k ++ [10%N]) (contained_variants e).

(* lindera-cli/src/main.rs:43-78.  clap parses dic_type and mode with FromStr. *)
Record tokenize_args := TokenizeArgs {
  ta_dic_type : option dictionary_kind;
  ta_dic_dir : option str;
  ta_user_dic_file : option str;
  ta_mode : mode;
  ta_output_format : str;
  ta_character_filters : list str;
  ta_token_filters : list str
}.

(* lindera-cli/src/main.rs:181-237: the analyzer and the format; the order of the steps decides which error is reported *)
Definition cli_setup (e : env) (args : tokenize_args) : res (analyzer_def * format) :=
  do d <- load_dictionary_from_config e (DictionaryConfig (ta_dic_type args) (ta_dic_dir args));
  do u <- match ta_user_dic_file args with
          | Some path => do u <- load_user_dictionary_from_config e (UserDictionaryConfig path (ta_dic_type args)); Ok (Some u)
          | None => Ok None
          end;
  do f <- format_from_str (ta_output_format args);
  do cfs <- mapM (load_char_filter_flag e) (ta_character_filters args);
  do tfs <- mapM (load_token_filter_flag e) (ta_token_filters args);
  Ok (AnalyzerDef cfs (Tokenizer d u (ta_mode args)) tfs, f).

(* lindera-cli/src/main.rs:181-280: the whole command, with what reading the file or the standard input gives: None if the file
   cannot be opened *)
Definition cli_run (e : env) (args : tokenize_args) (input : option (list N)) : option (str * res unit) :=
  match cli_setup e args with
  | Ok (d, f) =>
    match input with
    | None => Some ([], Err EIo)
    | Some bytes => cli_tokenize e (analyzer_of e d) f bytes
    end
  | Err k => Some ([], Err k)
  | Panic => Some ([], Panic)
  end.
