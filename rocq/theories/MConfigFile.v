(** Reading the configuration of an analyzer from a file. *)
From Coq Require Import List NArith.
From Verif Require Import MBase MUtf8 MCodec MBincode MConfig.

(* AnalyzerConfig::from_slice (lindera-analyzer/src/analyzer.rs:25-30).  serde_json refuses bytes that are not UTF-8, inside and outside of
   strings, and takes other bytes as from_str takes the text. *)
Definition config_from_slice (e : env) (data : list N) : res value :=
  do json <- ok_or (utf8_decode data) EDeserialize;
  ok_or (e_parse e json) EDeserialize.
(* AnalyzerConfig::from_file (lindera-analyzer/src/analyzer.rs:19-23) *)
Definition config_from_file (e : env) (path : str) : res value :=
  do bytes <- ok_or (e_read e path) EIo;
  config_from_slice e bytes.
(* from_file and then Analyzer::from_config, as in lindera/examples/analyze_with_config.rs:14-16 *)
Definition analyzer_from_file (e : env) (path : str) : res analyzer_def :=
  do config <- config_from_file e path;
  analyzer_from_config e config.
