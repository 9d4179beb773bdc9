(** The configuration that the repository ships, and the analyzer of its example. *)
From Coq Require Import String.
From Coq Require Import List NArith ZArith.
From Verif Require Import MBase MUtf8 MText MLattice MTokenizer MBuild MCharFilter MAnalyzer MTokenFilter MConfig.
Import ListNotations.
Local Open Scope string_scope.
Local Open Scope list_scope.

(* text between quotes in resources/lindera_ipadic_conf.json:1-84 and lindera/examples/analyze.rs:46-94, which are UTF-8 *)
Definition jp (s : string) : str := match utf8_decode (lit s) with Some t => t | None => [] end.
(* an object of resources/lindera_ipadic_conf.json:1-84, parsed by serde_json: keys and values in the order of the file *)
Definition jobj (l : list (string * value)) : value := VObj (map (fun kv => (jp (fst kv), snd kv)) l).
(* an entry of a filter list: resources/lindera_ipadic_conf.json:3-8 *)
Definition jfilter (kind : string) (args : list (string * value)) : value := jobj [("kind", VStr (jp kind)); ("args", jobj args)].

(* resources/lindera_ipadic_conf.json:49-73; the same words in the same order in lindera/examples/analyze.rs:70-94 *)
Definition shipped_stop_tags : list str := map jp
  ["接続詞"; "助詞"; "助詞,格助詞"; "助詞,格助詞,一般"; "助詞,格助詞,引用"; "助詞,格助詞,連語"; "助詞,係助詞"; "助詞,副助詞"; "助詞,間投助詞"; "助詞,並立助詞"; "助詞,終助詞";
   "助詞,副助詞／並立助詞／終助詞"; "助詞,連体化"; "助詞,副詞化"; "助詞,特殊"; "助動詞"; "記号"; "記号,一般"; "記号,読点"; "記号,句点"; "記号,空白"; "記号,括弧閉"; "その他,間投"; "フィラー"; "非言語音"].
(* resources/lindera_ipadic_conf.json:31-34 and 40-42; lindera/examples/analyze.rs:53-54 and 61-63 *)
Definition number_tag : str := jp "名詞,数".

(* resources/lindera_ipadic_conf.json:1-84 *)
Definition shipped_value : value := jobj
  [("character_filters", VArr [jfilter "unicode_normalize" [("kind", VStr (jp "nfkc"))];
                               jfilter "japanese_iteration_mark" [("normalize_kanji", VBool true); ("normalize_kana", VBool true)]]);
   ("tokenizer", jobj [("dictionary", jobj [("kind", VStr (jp "ipadic"))]);
                       ("user_dictionary", jobj [("path", VStr (jp "./resources/ipadic_simple_userdic.bin"))]);
                       ("mode", VStr (jp "normal"))]);
   ("token_filters", VArr [jfilter "japanese_compound_word" [("kind", VStr (jp "ipadic")); ("tags", VArr [VStr number_tag]); ("new_tag", VStr number_tag)];
                           jfilter "japanese_number" [("tags", VArr [VStr number_tag])];
                           jfilter "japanese_stop_tags" [("tags", VArr (map VStr shipped_stop_tags))];
                           jfilter "japanese_katakana_stem" [("min", VInt 3%Z)]])].

(* lindera/examples/analyze.rs:18-98; the unwrap of lindera/examples/analyze.rs:46 panics where Tokenizer::from_config fails.  The HashSets are lists. *)
Definition example_analyzer (e : env) : res analyzer_def :=
  do t <- match tokenizer_from_config e (TokenizerConfig (DictionaryConfig (Some IPADIC) None) None Normal) with Ok t => Ok t | _ => Panic end;
  do compound <- compound_config_new IPADIC [number_tag] (Some number_tag);
  do number <- format_tags [number_tag];
  do stop <- format_tags shipped_stop_tags;
  Ok (AnalyzerDef [CFNormalize NFKC; CFIteration (IterationConfig true true)] t [TFCompound compound; TFNumber (Some number); TFStopTags stop]).
