(** Specification vocabulary: the stand-in dictionaries of docs.rs. *)
From Coq Require Import String.
From Coq Require Import List NArith ZArith Bool.
From Verif Require Import MBase MUtf8 MText MCodec MDict MTokenizer MBuild MConfig MBuilders MDocs STok SBuilders.
Import ListNotations.
Local Open Scope list_scope.

(* the only word: test *)
Definition docs_word (k : dictionary_kind) : str :=
  match k with
  | IPADIC | IPADICNEologd | UniDic => [0x30C6; 0x30B9; 0x30C8]%N
  | KoDic => [0xD14C; 0xC2A4; 0xD2B8]%N
  | CcCedict => [0x6D4B; 0x8BD5]%N
  end.

(* the directory dir holds the files of the build script, and the other crates read them as they should: ASCII files as they are, the
   CSV file (through EUC-JP for IPADIC) as one record cut at the commas; e reads tries that yada wrote *)
Record docs_ready (be : build_env) (e : env) (euc : str -> list N) (k : dictionary_kind) (dir : str) : Prop := {
  dr_files : files_at (be_env be) dir (docs_files euc k);
  dr_text : forall enc s, Forall (fun c => (c < 128)%N) s -> be_text be enc (utf8 s) = s;
  dr_euc : forall s, be_transcode be (euc s) = utf8 s;
  dr_glob : be_glob be dir = Ok [lit "dummy_dict.csv"];
  dr_csv : e_csv (be_env be) (utf8 (docs_line k ++ [10%N])) = Ok [split_char 44%N (docs_line k)];
  dr_yada : yada_works be e [docs_word k]
}.

(* what the dictionary does: every text with a sentence that starts with the word makes it panic, any other text gives no tokens *)
Definition docs_only (k : dictionary_kind) (d : dictionary) : Prop :=
  forall m text ss, valid_str text -> sentences text ss ->
    (Exists (fun s => exists r, s = docs_word k ++ r) ss -> tokenize (Tokenizer d None m) text = Some Panic) /\
    (~ Exists (fun s => exists r, s = docs_word k ++ r) ss -> tokenize (Tokenizer d None m) text = Some (Ok [])).
