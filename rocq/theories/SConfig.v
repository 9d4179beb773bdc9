(** Specification vocabulary for the configuration and the command line. *)
From Coq Require Import String.
From Coq Require Import List NArith ZArith Bool.
From Verif Require Import MBase MUtf8 MText MCodec MLattice MBuild MCharFilter MAnalyzer MTokenFilter MConfig STokenFilter SText.
Import ListNotations.
Local Open Scope list_scope.

(** Names *)

Definition kind_names : list (str * dictionary_kind) :=
  [(lit "ipadic", IPADIC); (lit "ipadic-neologd", IPADICNEologd); (lit "unidic", UniDic); (lit "ko-dic", KoDic);
   (lit "cc-cedict", CcCedict)].
Definition mode_names : list (str * mode) := [(lit "normal", Normal); (lit "decompose", Decompose (Penalty 2 3000 7 1700))].
Definition format_names : list (str * format) := [(lit "mecab", FMecab); (lit "wakati", FWakati); (lit "json", FJson)].
Definition form_names : list (str * normal_form) := [(lit "nfc", NFC); (lit "nfd", NFD); (lit "nfkc", NFKC); (lit "nfkd", NFKD)].
Definition kana_names : list (str * kana_kind) := [(lit "hiragana", Hiragana); (lit "katakana", Katakana)].

(** Values *)

(* a field of an object with distinct keys *)
Definition has (fs : list (str * value)) (key : string) (v : value) : Prop := In (lit key, v) fs.
Definition lacks (fs : list (str * value)) (key : string) : Prop := ~ In (lit key) (map fst fs).

(* what a JSON value means *)
Definition means_name {A} (table : list (str * A)) (v : value) (x : A) : Prop :=
  exists s, In (s, x) table /\ (v = VStr s \/ v = VObj [(s, VNull)]).
Definition means_string (v : value) (s : str) : Prop := v = VStr s.
Definition means_bool (v : value) (b : bool) : Prop := v = VBool b.
Definition means_size (v : value) (n : N) : Prop := v = VInt (Z.of_N n) /\ (n < 2 ^ 64)%N.
Definition means_i32 (v : value) (z : Z) : Prop := v = VInt z /\ (- 2 ^ 31 <= z < 2 ^ 31)%Z.
Definition means_strings (v : value) (l : list str) : Prop := v = VArr (map VStr l).
Definition means_map (v : value) (m : list (str * str)) : Prop := v = VObj (map (fun kv => (fst kv, VStr (snd kv))) m).

(* a field that may be missing or null *)
Definition maybe {A} (means : value -> A -> Prop) (fs : list (str * value)) (key : string) (o : option A) : Prop :=
  match o with
  | None => has fs key VNull \/ lacks fs key
  | Some x => exists v, has fs key v /\ means v x
  end.

(* tags written with four parts *)
Definition formatted_as (tag t : str) : Prop := exists ps, comma_parts ps tag /\ List.length ps <= 4 /\ t = join [44%N] (pad4 ps).
Definition long_tag (tag : str) : Prop := exists ps, comma_parts ps tag /\ 4 < List.length ps.

(** Filters *)

(* the filter that a kind and the fields of its arguments describe *)
Inductive token_filter_described : str -> list (str * value) -> token_filter_def -> Prop :=
| described_base_form fs v k : has fs "kind" v -> means_name kind_names v k ->
    token_filter_described (lit "japanese_base_form") fs (TFBaseForm k)
| described_reading_form fs v k : has fs "kind" v -> means_name kind_names v k ->
    token_filter_described (lit "japanese_reading_form") fs (TFReadingForm k)
| described_compound fs v k w tags ts new_tag nt :
    has fs "kind" v -> means_name kind_names v k ->
    has fs "tags" w -> means_strings w tags -> Forall2 formatted_as tags ts ->
    maybe means_string fs "new_tag" new_tag ->
    match new_tag, nt with Some a, Some b => formatted_as a b | None, None => True | _, _ => False end ->
    token_filter_described (lit "japanese_compound_word") fs (TFCompound (CompoundConfig k ts nt))
| described_kana fs v k : has fs "kind" v -> means_name kana_names v k ->
    token_filter_described (lit "japanese_kana") fs (TFKana k)
| described_stem fs v n : has fs "min" v -> means_size v n -> (0 < n)%N ->
    token_filter_described (lit "japanese_katakana_stem") fs (TFStem n)
| described_stem_default fs : lacks fs "min" ->
    token_filter_described (lit "japanese_katakana_stem") fs (TFStem 3)
| described_keep_tags fs v tags ts : has fs "tags" v -> means_strings v tags -> Forall2 formatted_as tags ts ->
    token_filter_described (lit "japanese_keep_tags") fs (TFKeepTags ts)
| described_stop_tags fs v tags ts : has fs "tags" v -> means_strings v tags -> Forall2 formatted_as tags ts ->
    token_filter_described (lit "japanese_stop_tags") fs (TFStopTags ts)
| described_number fs v tags ts : has fs "tags" v -> means_strings v tags -> Forall2 formatted_as tags ts ->
    token_filter_described (lit "japanese_number") fs (TFNumber (Some ts))
| described_number_all fs : (forall l, ~ has fs "tags" (VArr l)) ->
    token_filter_described (lit "japanese_number") fs (TFNumber None)
| described_keep_words fs v ws : has fs "words" v -> means_strings v ws ->
    token_filter_described (lit "keep_words") fs (TFKeepWords ws)
| described_stop_words fs v ws : has fs "words" v -> means_strings v ws ->
    token_filter_described (lit "stop_words") fs (TFStopWords ws)
| described_korean_keep fs v ts : has fs "tags" v -> means_strings v ts ->
    token_filter_described (lit "korean_keep_tags") fs (TFKoreanKeepTags ts)
| described_korean_stop fs v ts : has fs "tags" v -> means_strings v ts ->
    token_filter_described (lit "korean_stop_tags") fs (TFKoreanStopTags ts)
| described_korean_reading fs : token_filter_described (lit "korean_reading_form") fs TFKoreanReadingForm
| described_length fs a b : maybe means_size fs "min" a -> maybe means_size fs "max" b ->
    token_filter_described (lit "length") fs (TFLength a b)
| described_lowercase fs : token_filter_described (lit "lowercase") fs TFLowercase
| described_uppercase fs : token_filter_described (lit "uppercase") fs TFUppercase
| described_mapping fs v m f : has fs "mapping" v -> means_map v m -> mapping_new m = Ok f ->
    token_filter_described (lit "mapping") fs (TFMapping f).

Definition token_filter_names : list str := map lit
  ["japanese_base_form"; "japanese_compound_word"; "japanese_kana"; "japanese_katakana_stem"; "japanese_keep_tags";
   "japanese_number"; "japanese_reading_form"; "japanese_stop_tags"; "keep_words"; "korean_keep_tags"; "korean_reading_form";
   "korean_stop_tags"; "length"; "lowercase"; "mapping"; "stop_words"; "uppercase"]%string.

(* filters that need no arguments *)
Definition argless_token_filters : list (str * token_filter_def) :=
  [(lit "japanese_number", TFNumber None); (lit "korean_reading_form", TFKoreanReadingForm); (lit "lowercase", TFLowercase);
   (lit "uppercase", TFUppercase)].

(* a tag that the formatting cannot take: more than four parts *)
Definition has_long_tag (name : str) (fs : list (str * value)) : Prop :=
  (In name (map lit ["japanese_compound_word"; "japanese_keep_tags"; "japanese_number"; "japanese_stop_tags"]%string) /\
   exists v tags tag, has fs "tags" v /\ means_strings v tags /\ In tag tags /\ long_tag tag) \/
  (name = lit "japanese_compound_word" /\ exists tag, has fs "new_tag" (VStr tag) /\ long_tag tag).

Inductive char_filter_described (regex_new : str -> option regex) : str -> list (str * value) -> char_filter_def -> Prop :=
| described_iteration fs a b : has fs "normalize_kanji" (VBool a) -> has fs "normalize_kana" (VBool b) ->
    char_filter_described regex_new (lit "japanese_iteration_mark") fs (CFIteration (IterationConfig a b))
| described_char_mapping fs v m f : has fs "mapping" v -> means_map v m -> mapping_new m = Ok f ->
    char_filter_described regex_new (lit "mapping") fs (CFMapping f)
| described_regex fs p r rx : has fs "pattern" (VStr p) -> has fs "replacement" (VStr r) -> regex_new p = Some rx ->
    char_filter_described regex_new (lit "regex") fs (CFRegex rx r)
| described_normalize fs v k : has fs "kind" v -> means_name form_names v k ->
    char_filter_described regex_new (lit "unicode_normalize") fs (CFNormalize k).
Definition char_filter_names : list str := map lit ["japanese_iteration_mark"; "mapping"; "regex"; "unicode_normalize"]%string.

(** The analyzer *)

(* a setting without a kind is skipped; missing arguments are null *)
Definition setting_kind (s : value) (name : str) : Prop := exists fs, s = VObj fs /\ has fs "kind" (VStr name).
Definition setting_args (s : value) (a : value) : Prop := exists fs, s = VObj fs /\ (has fs "args" a \/ (lacks fs "args" /\ a = VNull)).
Inductive settings_loaded {A} (load : str -> value -> res A) : list value -> list A -> Prop :=
| settings_nil : settings_loaded load [] []
| settings_skip s l fs : (forall name, ~ setting_kind s name) -> settings_loaded load l fs -> settings_loaded load (s :: l) fs
| settings_filter s name a f l fs :
    setting_kind s name -> setting_args s a -> load name a = Ok f -> settings_loaded load l fs ->
    settings_loaded load (s :: l) (f :: fs).
(* no array of settings: no filters *)
Definition filters_loaded {A} (load : str -> value -> res A) (top : list (str * value)) (key : string) (fs : list A) : Prop :=
  (exists l, has top key (VArr l) /\ settings_loaded load l fs) \/ ((forall l, ~ has top key (VArr l)) /\ fs = []).

(* the keys of an object are distinct, at the depth of the settings *)
Definition distinct (v : value) : Prop := forall fs, v = VObj fs -> NoDup (map fst fs).
Definition distinct_settings (top : list (str * value)) : Prop :=
  NoDup (map fst top) /\
  (forall key v, In (key, v) top -> distinct v /\ forall l, v = VArr l -> Forall distinct l).

(* the fields of a tokenizer's configuration, and its three parts *)
Definition dictionary_described (v : value) (c : dictionary_config) : Prop :=
  exists fs, v = VObj fs /\ maybe (means_name kind_names) fs "kind" (dc_kind c) /\ maybe means_string fs "path" (dc_path c).
Definition user_dictionary_described (v : value) (c : user_dictionary_config) : Prop :=
  exists fs, v = VObj fs /\ has fs "path" (VStr (udc_path c)) /\ maybe (means_name kind_names) fs "kind" (udc_kind c).
Definition penalty_described (v : value) (p : penalty) : Prop :=
  exists fs, v = VObj fs /\
    (exists x, has fs "kanji_penalty_length_threshold" x /\ means_size x (kanji_threshold p)) /\
    (exists x, has fs "kanji_penalty_length_penalty" x /\ means_i32 x (kanji_penalty p)) /\
    (exists x, has fs "other_penalty_length_threshold" x /\ means_size x (other_threshold p)) /\
    (exists x, has fs "other_penalty_length_penalty" x /\ means_i32 x (other_penalty p)).
Definition mode_described (v : value) (m : mode) : Prop :=
  match m with
  | Normal => v = VStr (lit "normal") \/ v = VObj [(lit "normal", VNull)]
  | Decompose p => exists w, v = VObj [(lit "decompose", w)] /\ penalty_described w p
  end.
Definition tokenizer_described (fs : list (str * value)) (c : tokenizer_config) : Prop :=
  (forall key v, In (key, v) fs -> In key [lit "dictionary"; lit "user_dictionary"; lit "mode"]) /\
  (exists v, has fs "dictionary" v /\ dictionary_described v (tc_dictionary c)) /\
  match tc_user c with
  | Some u => exists v, has fs "user_dictionary" v /\ user_dictionary_described v u
  | None => lacks fs "user_dictionary"
  end /\
  ((exists v, has fs "mode" v /\ mode_described v (tc_mode c)) \/ (lacks fs "mode" /\ tc_mode c = Normal)).
(* structs are written as objects, with distinct keys, not as arrays *)
Definition object_structs (fs : list (str * value)) : Prop :=
  NoDup (map fst fs) /\
  (forall v, has fs "dictionary" v \/ has fs "user_dictionary" v -> distinct v /\ forall l, v <> VArr l) /\
  (forall v w, has fs "mode" v -> v = VObj [(lit "decompose", w)] -> distinct w /\ forall l, w <> VArr l).

(** The command line *)

(* the words before and after the first colon *)
Definition at_first_colon (flag kind json : str) : Prop := flag = kind ++ [58%N] ++ json /\ ~ In 58%N kind.

(* a line for every token, and EOS *)
Definition mecab_line (tk : ftoken) : str := ft_text tk ++ [9%N] ++ join [44%N] (ft_details tk).
Definition as_lines (ls : list str) : str := flat_map (fun l => l ++ [10%N]) ls.

(* the members of a token in JSON *)
Definition json_token (tk : ftoken) : value :=
  VObj [(lit "byte_end", VInt (Z.of_N (ft_end tk))); (lit "byte_start", VInt (Z.of_N (ft_start tk)));
        (lit "details", VArr (map VStr (ft_details tk))); (lit "text", VStr (ft_text tk));
        (lit "word_id", VArr [VInt (Z.of_N (wid (ft_word tk))); VBool (wsys (ft_word tk))])].

(* what is printed for the tokens of a line; pretty is the printer of JSON *)
Definition printed (pretty : list value -> str) (f : format) (tokens : list ftoken) : str :=
  match f with
  | FMecab => as_lines (map mecab_line tokens ++ [lit "EOS"])
  | FJson => pretty (map json_token tokens) ++ [10%N]
  | FWakati => match tokens with [] => [] | _ => join [32%N] (map ft_text tokens) ++ [10%N] end
  end.

(* the lines of an input with their newlines; the last one may lack it *)
Inductive input_lines : list N -> list (list N) -> Prop :=
| il_nil : input_lines [] []
| il_last l : l <> [] -> ~ In 10%N l -> input_lines l [l]
| il_line l t ls : ~ In 10%N l -> input_lines t ls -> input_lines (l ++ [10%N] ++ t) ((l ++ [10%N]) :: ls).

(* what is printed for the lines of an input, and how the command ends *)
Inductive session (an : str -> option (res (list ftoken))) (pr : list ftoken -> str) : list (list N) -> str -> res unit -> Prop :=
| session_end : session an pr [] [] (Ok tt)
| session_line line text ts ls out r : valid_str line -> trimmed line text -> an text = Some (Ok ts) -> session an pr ls out r ->
    session an pr (utf8 line :: ls) (pr ts ++ out) r
| session_bytes l ls : (forall line, valid_str line -> l <> utf8 line) -> session an pr (l :: ls) [] (Err EIo)
| session_err line text ls k : valid_str line -> trimmed line text -> an text = Some (Err k) -> session an pr (utf8 line :: ls) [] (Err k)
| session_panic line text ls : valid_str line -> trimmed line text -> an text = Some Panic -> session an pr (utf8 line :: ls) [] Panic.

(* fields that mecab output does not confuse *)
Definition plain_fields (tk : ftoken) : Prop :=
  ~ In 9%N (ft_text tk) /\ ~ In 10%N (ft_text tk) /\ ft_details tk <> [] /\
  Forall (fun d => ~ In 44%N d /\ ~ In 10%N d) (ft_details tk).

(* a path to a file with a name and an extension *)
Definition file_with_extension (path ext : str) : Prop :=
  exists dir name, path = dir ++ name ++ [46%N] ++ ext /\ (dir = [] \/ exists d, dir = d ++ [47%N]) /\
    name <> [] /\ ext <> [] /\ ~ In 47%N name /\ ~ In 47%N ext /\ ~ In 46%N ext.

(* the JSON configuration that corresponds to the arguments of the command line *)
Definition kind_text (k : dictionary_kind) : str :=
  match k with
  | IPADIC => lit "ipadic" | IPADICNEologd => lit "ipadic-neologd" | UniDic => lit "unidic" | KoDic => lit "ko-dic" | CcCedict => lit "cc-cedict"
  end.
(* the place of a kind in the list of kinds *)
Definition kind_number (k : dictionary_kind) : nat :=
  match k with IPADIC => 0 | IPADICNEologd => 1 | UniDic => 2 | KoDic => 3 | CcCedict => 4 end.
Definition string_or_null (o : option str) : value := match o with Some s => VStr s | None => VNull end.
Definition mode_json (m : mode) : value :=
  match m with
  | Normal => VStr (lit "normal")
  | Decompose p => VObj [(lit "decompose", VObj
      [(lit "kanji_penalty_length_threshold", VInt (Z.of_N (kanji_threshold p)));
       (lit "kanji_penalty_length_penalty", VInt (kanji_penalty p));
       (lit "other_penalty_length_threshold", VInt (Z.of_N (other_threshold p)));
       (lit "other_penalty_length_penalty", VInt (other_penalty p))])]
  end.
Definition setting (f : str * value) : value := VObj [(lit "kind", VStr (fst f)); (lit "args", snd f)].
Definition cli_config (dic_type : option dictionary_kind) (dic_dir user_dic : option str) (m : mode)
    (char_filters token_filters : list (str * value)) : value :=
  let kind := string_or_null (option_map kind_text dic_type) in
  VObj [(lit "character_filters", VArr (map setting char_filters));
        (lit "tokenizer", VObj ([(lit "dictionary", VObj [(lit "kind", kind); (lit "path", string_or_null dic_dir)])]
            ++ match user_dic with
               | Some p => [(lit "user_dictionary", VObj [(lit "path", VStr p); (lit "kind", kind)])]
               | None => []
               end ++ [(lit "mode", mode_json m)]));
        (lit "token_filters", VArr (map setting token_filters))].
(* numbers that fit their types *)
Definition mode_fits (m : mode) : Prop :=
  match m with
  | Normal => True
  | Decompose p => (kanji_threshold p < 2 ^ 64)%N /\ (other_threshold p < 2 ^ 64)%N /\
                   (- 2 ^ 31 <= kanji_penalty p < 2 ^ 31)%Z /\ (- 2 ^ 31 <= other_penalty p < 2 ^ 31)%Z
  end.
(* the names of the formats *)
Inductive names_format : str -> format -> Prop :=
| names_mecab : names_format (lit "mecab") FMecab
| names_wakati : names_format (lit "wakati") FWakati
| names_json : names_format (lit "json") FJson.
(* a flag with its kind and arguments *)
Definition flag_of (parse : str -> option value) (flag : str) (f : str * value) : Prop :=
  exists json, at_first_colon flag (fst f) json /\ parse json = Some (snd f).
