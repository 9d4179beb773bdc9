(** Property theorems about the configuration, the loaders and the command line: C39, C42, C43, C47 - C52. *)
From Coq Require Import String.
From Coq Require Import List NArith ZArith Bool Lia.
From Verif Require Import MBase MUtf8 MText MCodec MDict MCharDef MUnk MLattice MTokenizer MDetails MBincode MBuild MCharFilter MAnalyzer MTokenFilter
  MConfig STokenFilter SConfig LConfig LConfigMore LConfigRound LCli XSample XConfig.
Import ListNotations.
Local Open Scope string_scope.
Local Open Scope list_scope.

(** C39 *)
Theorem C39_kind : forall s k, kind_from_str s = Ok k <-> In (s, k) kind_names.
Proof. exact kind_from_str_iff. Qed.
Print Assumptions C39_kind.
Theorem C39_kind_error : forall s, (exists k, kind_from_str s = Ok k) \/ kind_from_str s = Err EDictionaryKind.
Proof. exact kind_from_str_total. Qed.
Print Assumptions C39_kind_error.
Theorem C39_kind_inverse : forall k, kind_from_str (kind_name k) = Ok k /\ kind_name k = kind_text k.
Proof. exact kind_name_inverse. Qed.
Print Assumptions C39_kind_inverse.
Theorem C39_mode : forall s m, mode_from_str s = Ok m <-> In (s, m) mode_names.
Proof. exact mode_from_str_iff. Qed.
Print Assumptions C39_mode.
Theorem C39_mode_error : forall s, (exists m, mode_from_str s = Ok m) \/ mode_from_str s = Err EMode.
Proof. exact mode_from_str_total. Qed.
Print Assumptions C39_mode_error.
Theorem C39_format : forall s f, format_from_str s = Ok f <-> In (s, f) format_names.
Proof. exact format_from_str_iff. Qed.
Print Assumptions C39_format.
Theorem C39_format_error : forall s, (exists f, format_from_str s = Ok f) \/ format_from_str s = Err EArgs.
Proof. exact format_from_str_total. Qed.
Print Assumptions C39_format_error.
Theorem C39_dictionary_kind_first : forall e k p,
  load_dictionary_from_config e (DictionaryConfig (Some k) p) =
  match e_embedded e k with None => Err EArgs | Some (Ok d) => Ok d | Some (Err _) => Err EDictionaryNotFound | Some Panic => Panic end.
Proof. reflexivity. Qed.
Print Assumptions C39_dictionary_kind_first.
Theorem C39_dictionary_neither : forall e, load_dictionary_from_config e (DictionaryConfig None None) = Err EArgs.
Proof. reflexivity. Qed.
Print Assumptions C39_dictionary_neither.
Theorem C39_user_csv : forall e path k, file_with_extension path (lit "csv") ->
  load_user_dictionary_from_config e (UserDictionaryConfig path (Some k)) = load_user_dictionary_from_csv e k path /\
  load_user_dictionary_from_config e (UserDictionaryConfig path None) = Err EArgs.
Proof. exact user_dictionary_csv. Qed.
Print Assumptions C39_user_csv.
Theorem C39_user_bin : forall e path k, file_with_extension path (lit "bin") ->
  load_user_dictionary_from_config e (UserDictionaryConfig path k) = load_user_dictionary_from_bin e path.
Proof. exact user_dictionary_bin. Qed.
Print Assumptions C39_user_bin.
Theorem C39_user_other : forall e path k,
  (exists ext, file_with_extension path ext /\ ext <> lit "csv" /\ ext <> lit "bin") \/ ~ In 46%N path ->
  load_user_dictionary_from_config e (UserDictionaryConfig path k) = Err EArgs.
Proof. exact user_dictionary_other. Qed.
Print Assumptions C39_user_other.
Example C39_ex : kind_from_str (lit "unidic") = Ok UniDic /\ kind_from_str (lit "UniDic") = Err EDictionaryKind /\
  mode_from_str (lit "decompose") = Ok (Decompose (Penalty 2 3000 7 1700)) /\ mode_from_str (lit "search") = Err EMode /\
  format_from_str (lit "json") = Ok FJson /\ format_from_str (lit "xml") = Err EArgs /\
  load_dictionary_from_config sample_env (DictionaryConfig (Some IPADIC) None) = Ok sample_dictionary /\
  load_dictionary_from_config sample_env (DictionaryConfig (Some KoDic) None) = Err EArgs.
Proof. repeat split. Qed.
Example C39_ex_path : file_with_extension (lit "/d.x/u.v.csv") (lit "csv").
Proof.
  exists (lit "/d.x/"), (lit "u.v"). split; [reflexivity|]. split; [right; exists (lit "/d.x"); reflexivity|].
  repeat split; try discriminate; cbn; intros H; repeat (destruct H as [H|H]; [discriminate|]); exact H.
Qed.

(** C42 *)
Theorem C42_first_colon : forall e flag kind json, at_first_colon flag kind json ->
  parse_cli_flag e flag = match e_parse e json with Some v => Ok (kind, v) | None => Err EContent end.
Proof. exact parse_cli_flag_colon. Qed.
Print Assumptions C42_first_colon.
Theorem C42_no_colon : forall e flag, ~ In 58%N flag ->
  parse_cli_flag e flag = match e_parse e [] with Some v => Ok (flag, v) | None => Err EContent end.
Proof. exact parse_cli_flag_no_colon. Qed.
Print Assumptions C42_no_colon.
(* the arguments contain a colon; a kind without arguments is refused *)
Example C42_ex : at_first_colon (lit "length:{a:1}") (lit "length") (lit "{a:1}") /\
  parse_cli_flag sample_env (lit "length:{a:1}") = Ok (lit "length", VObj [(lit "a", VInt 1)]) /\
  parse_cli_flag sample_env (lit "lowercase") = Err EContent /\
  load_token_filter_flag sample_env (lit "lowercase:{}") = Ok TFLowercase.
Proof.
  split; [split; [reflexivity|]|repeat split]. cbn. intros H. repeat (destruct H as [H|H]; [discriminate|]). exact H.
Qed.

(** C43 *)
Theorem C43_wakati_partial : forall tokens, tokens <> [] ->
  wakati_output (map token_info tokens) = (join [32%N] (map ft_text tokens) ++ [10%N], Ok tt).
Proof. exact wakati_join. Qed.
Print Assumptions C43_wakati_partial.
(* no tokens, for instance an empty line: no line at all *)
Theorem C43_wakati_refuted : wakati_output (map token_info []) <> (join [32%N] (map ft_text []) ++ [10%N], Ok tt).
Proof. discriminate. Qed.
Print Assumptions C43_wakati_refuted.
Theorem C43_mecab : forall tokens, mecab_output (map token_info tokens) = (as_lines (map mecab_line tokens ++ [lit "EOS"]), Ok tt).
Proof. exact mecab_lines. Qed.
Print Assumptions C43_mecab.
Theorem C43_mecab_injective : forall ts ts', Forall plain_fields ts -> Forall plain_fields ts' -> 
  mecab_output (map token_info ts) = mecab_output (map token_info ts') ->
  map (fun tk => (ft_text tk, ft_details tk)) ts = map (fun tk => (ft_text tk, ft_details tk)) ts'.
Proof. exact mecab_inj. Qed.
Print Assumptions C43_mecab_injective.
Theorem C43_lines : forall e a f lines tss, Forall valid_str lines -> Forall2 (fun line ts => analyze a (trim line) = Some (Ok ts)) lines tss ->
  cli_loop e a f (map utf8 lines) = Some (flat_map (printed (e_pretty e) f) tss, Ok tt).
Proof. exact cli_loop_ok. Qed.
Print Assumptions C43_lines.
Theorem C43_lines_until_error : forall e a f lines tss line rest k, Forall valid_str lines -> valid_str line ->
  Forall2 (fun line ts => analyze a (trim line) = Some (Ok ts)) lines tss -> analyze a (trim line) = Some (Err k) ->
  cli_loop e a f (map utf8 lines ++ utf8 line :: rest) = Some (flat_map (printed (e_pretty e) f) tss, Err k).
Proof. exact cli_loop_err. Qed.
Print Assumptions C43_lines_until_error.
Definition two_tokens : list ftoken :=
  [FToken (lit "a") 0 1 0 1 (WordId 1 true) [lit "N"; lit "x"]; FToken (lit "b") 1 2 1 1 (WordId 2 true) [lit "V"]].
Example C43_ex : wakati_output (map token_info two_tokens) = (lit "a b" ++ [10%N], Ok tt) /\
  mecab_output (map token_info two_tokens) = (lit "a" ++ [9%N] ++ lit "N,x" ++ [10%N] ++ lit "b" ++ [9%N] ++ lit "V" ++ [10%N] ++ lit "EOS" ++ [10%N], Ok tt) /\
  Forall plain_fields two_tokens.
Proof.
  split; [reflexivity|]. split; [reflexivity|].
  repeat constructor; cbn; try discriminate; intros H; repeat (destruct H as [H|H]; [discriminate|]); exact H.
Qed.
Example C43_ex_loop : cli_loop sample_env (analyzer_of sample_env (AnalyzerDef [] (sample Normal [sample_unk]) [])) FWakati
  [lit " zz" ++ [10%N]; [10%N]; lit "q" ++ [10%N]] = Some (lit "zz" ++ [10%N] ++ lit "q" ++ [10%N], Ok tt).
Proof. vm_compute. reflexivity. Qed.

(** C47 *)
Theorem C47_described : forall name fs d, NoDup (map fst fs) ->
  load_token_filter name (VObj fs) = Ok d <-> token_filter_described name fs d.
Proof. exact load_token_filter_iff. Qed.
Print Assumptions C47_described.
Theorem C47_no_arguments : forall name d, load_token_filter name VNull = Ok d <-> In (name, d) argless_token_filters.
Proof. exact load_token_filter_null. Qed.
Print Assumptions C47_no_arguments.
Theorem C47_unknown_name : forall name v, ~ In name token_filter_names -> load_token_filter name v = Err EDeserialize.
Proof. exact load_token_filter_unknown. Qed.
Print Assumptions C47_unknown_name.
Theorem C47_errors_partial : forall name fs,
  match load_token_filter name (VObj fs) with Ok _ => True | Err k => k = EDeserialize | Panic => has_long_tag name fs end.
Proof. exact load_token_filter_fine. Qed.
Print Assumptions C47_errors_partial.
(* a tag of five parts *)
Theorem C47_errors_refuted : exists fs, load_token_filter (lit "japanese_stop_tags") (VObj fs) = Panic.
Proof. exists [(lit "tags", VArr [VStr (lit "a,b,c,d,e")])]. vm_compute. reflexivity. Qed.
Print Assumptions C47_errors_refuted.
Example C47_ex : load_token_filter (lit "japanese_keep_tags") (obj [("tags", VArr [VStr (lit "N,num")])]) = Ok (TFKeepTags [lit "N,num,*,*"]) /\
  load_token_filter (lit "length") (obj [("min", VInt 2); ("max", VNull)]) = Ok (TFLength (Some 2%N) None) /\
  load_token_filter (lit "length") (obj [("min", VInt (-2))]) = Err EDeserialize /\
  load_token_filter (lit "japanese_katakana_stem") (obj [("min", VInt 0)]) = Err EDeserialize /\
  load_token_filter (lit "japanese_number") (obj [("tags", VStr (lit "N"))]) = Ok (TFNumber None) /\
  load_token_filter (lit "reverse") (obj []) = Err EDeserialize.
Proof. repeat split. Qed.

(** C48 *)
Theorem C48_described : forall e name fs d, NoDup (map fst fs) ->
  load_char_filter e name (VObj fs) = Ok d <-> char_filter_described (e_regex e) name fs d.
Proof. exact load_char_filter_iff. Qed.
Print Assumptions C48_described.
Theorem C48_unknown_name : forall e name v, ~ In name char_filter_names -> load_char_filter e name v = Err EDeserialize.
Proof. exact load_char_filter_unknown. Qed.
Print Assumptions C48_unknown_name.
Theorem C48_errors : forall e name v,
  match load_char_filter e name v with
  | Ok _ => True
  | Err k => k = EDeserialize \/
             (k = EArgs /\ name = lit "regex" /\ exists p r, regex_config_from_value v = Ok (p, r) /\ e_regex e p = None)
  | Panic => False
  end.
Proof. exact load_char_filter_errors. Qed.
Print Assumptions C48_errors.
Example C48_ex : load_char_filter sample_env (lit "unicode_normalize") (obj [("kind", VStr (lit "nfkc"))]) = Ok (CFNormalize NFKC) /\
  load_char_filter sample_env (lit "regex") (obj [("pattern", VStr (lit "(")); ("replacement", VStr [])]) = Err EArgs /\
  load_char_filter sample_env (lit "mapping") VNull = Err EDeserialize /\
  (exists f, load_char_filter sample_env (lit "mapping") (obj [("mapping", obj [("z", VStr (lit "q"))])]) = Ok (CFMapping f)).
Proof. repeat split. eexists. vm_compute. reflexivity. Qed.

(** C49 *)
Theorem C49_analyzer : forall e top d, distinct_settings top ->
  analyzer_from_config e (VObj top) = Ok d <->
  filters_loaded (load_char_filter e) top "character_filters" (ad_char_filters d) /\
  (exists fs tc, has top "tokenizer" (VObj fs) /\ de_tokenizer_config fs = Ok tc /\ tokenizer_from_config e tc = Ok (ad_tokenizer d)) /\
  filters_loaded load_token_filter top "token_filters" (ad_token_filters d).
Proof. exact analyzer_from_config_iff. Qed.
Print Assumptions C49_analyzer.
Theorem C49_tokenizer : forall fs c, object_structs fs -> de_tokenizer_config fs = Ok c <-> tokenizer_described fs c.
Proof. exact de_tokenizer_config_iff. Qed.
Print Assumptions C49_tokenizer.
(* a mapping, then the tokenizer, then upper case; the setting without a kind is skipped *)
Example C49_ex : exists d, analyzer_from_config sample_env (VObj sample_top) = Ok d /\
  ad_token_filters d = [TFUppercase; TFLength (Some 1%N) None] /\
  analyze (analyzer_of sample_env d) (lit "zz") = Some (Ok [FToken (lit "QQ") 0 2 0 1 (WordId u32_max true) [lit "UNK"]]).
Proof. eexists. split; [vm_compute; reflexivity|]. split; [reflexivity|]. vm_compute. reflexivity. Qed.

(** C50 *)
Theorem C50_token_filters : forall name v d, load_token_filter name v = Ok d ->
  fst (ser_token_filter d) = name /\ load_token_filter name (snd (ser_token_filter d)) = Ok d.
Proof. exact token_filter_round_trip. Qed.
Print Assumptions C50_token_filters.
Theorem C50_char_filters : forall e,
  (forall c, load_char_filter e (fst (ser_char_filter c)) (snd (ser_char_filter c)) = char_filter_new e c) /\
  (forall name v d, load_char_filter e name v = Ok d -> exists c, fst (ser_char_filter c) = name /\ char_filter_new e c = Ok d).
Proof. exact (fun e => conj (char_filter_round_trip e) (char_filter_from_config e)). Qed.
Print Assumptions C50_char_filters.
Example C50_char_ex : let c := CCMapping [(lit "a", lit "b"); (lit "c", [])] in
  ser_char_filter c = (lit "mapping", obj [("mapping", obj [("a", VStr (lit "b")); ("c", VStr [])])]) /\
  ser_char_filter (CCNormalize NFKC) = (lit "unicode_normalize", obj [("kind", VStr (lit "nfkc"))]) /\
  load_char_filter sample_env (lit "unicode_normalize") (snd (ser_char_filter (CCNormalize NFKD))) = Ok (CFNormalize NFKD).
Proof. repeat split. Qed.
Theorem C50_tokenizer_partial : forall c, mode_fits (tc_mode c) -> tc_user c <> None -> de_tokenizer_config (ser_tokenizer_config c) = Ok c.
Proof. exact tokenizer_config_round_trip. Qed.
Print Assumptions C50_tokenizer_partial.
(* without a user dictionary the null that is written is not accepted *)
Theorem C50_tokenizer_refuted : forall c, mode_fits (tc_mode c) -> tc_user c = None -> de_tokenizer_config (ser_tokenizer_config c) = Err EDeserialize.
Proof. exact tokenizer_config_no_round_trip. Qed.
Print Assumptions C50_tokenizer_refuted.
Example C50_ex :
  (let c := TokenizerConfig (DictionaryConfig (Some IPADIC) None) (Some (UserDictionaryConfig (lit "u.csv") None)) (Decompose (Penalty 2 3000 7 1700)) in
   mode_fits (tc_mode c) /\ de_tokenizer_config (ser_tokenizer_config c) = Ok c) /\
  (let c := TokenizerConfig (DictionaryConfig (Some IPADIC) None) None Normal in
   mode_fits (tc_mode c) /\ de_tokenizer_config (ser_tokenizer_config c) = Err EDeserialize).
Proof. split; split; try reflexivity; cbn; lia. Qed.

(** C51 *)
Theorem C51_command_line : forall e args cfs tfs d f,
  Forall2 (flag_of (e_parse e)) (ta_character_filters args) cfs -> Forall2 (flag_of (e_parse e)) (ta_token_filters args) tfs ->
  mode_fits (ta_mode args) ->
  cli_setup e args = Ok (d, f) <->
  names_format (ta_output_format args) f /\
  analyzer_from_config e (cli_config (ta_dic_type args) (ta_dic_dir args) (ta_user_dic_file args) (ta_mode args) cfs tfs) = Ok d.
Proof. exact cli_setup_iff. Qed.
Print Assumptions C51_command_line.
Example C51_ex : let args := TokenizeArgs (Some IPADIC) None None Normal (lit "wakati") [] [lit "length:{min:2}"; lit "uppercase:{}"] in
  Forall2 (flag_of (e_parse sample_env)) (ta_token_filters args) [(lit "length", VObj [(lit "min", VInt 2)]); (lit "uppercase", VObj [])] /\
  cli_setup sample_env args = Ok (AnalyzerDef [] (Tokenizer sample_dictionary None Normal) [TFLength (Some 2%N) None; TFUppercase], FWakati).
Proof.
  split; [|reflexivity].
  repeat constructor; eexists; (split; [split; [reflexivity|]|reflexivity]); cbn; intros H; repeat (destruct H as [H|H]; [discriminate|]); exact H.
Qed.

(** C52 *)
Theorem C52_normal : forall s, de_mode (VStr s) = Ok Normal <-> mode_from_str s = Ok Normal.
Proof. exact mode_string_normal. Qed.
Print Assumptions C52_normal.
Theorem C52_decompose_refuted : exists m, mode_from_str (lit "decompose") = Ok m /\ de_mode (VStr (lit "decompose")) = Err EDeserialize.
Proof. eexists. split; reflexivity. Qed.
Print Assumptions C52_decompose_refuted.
Theorem C52_decompose_object : forall v m, (forall w, v = VObj [(lit "decompose", w)] -> distinct w /\ forall l, w <> VArr l) ->
  de_mode v = Ok m <-> mode_described v m.
Proof. exact de_mode_iff. Qed.
Print Assumptions C52_decompose_object.
Example C52_ex : de_mode (VStr (lit "normal")) = Ok Normal /\
  de_mode (mode_json (Decompose (Penalty 2 3000 7 1700))) = Ok (Decompose (Penalty 2 3000 7 1700)) /\
  de_mode (VObj [(lit "decompose", VObj [])]) = Err EDeserialize.
Proof. repeat split. Qed.
