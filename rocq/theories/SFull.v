(** From source files and a configuration to tokens. *)
From Coq Require Import String.
From Coq Require Import List NArith ZArith Bool.
From Verif Require Import MBase MUtf8 MText MCodec MDict MBincode MTokenizer MDetails MBuild MCharFilter MAnalyzer MTokenFilter MConfig MBuilders
  STok SBuild SMatrix SCharDef SUnk SData SCharFilter STokenFilter SConfig SBuilders SSafe.
Import ListNotations.
Local Open Scope string_scope.
Local Open Scope list_scope.

(** ** Filters *)

(* an entry without a kind is skipped; one with arguments describes a filter that cannot fail; three filters need no arguments *)
Inductive fine_entry (fine : str -> list (str * value) -> Prop) (bare : str -> Prop) (s : value) : Prop :=
| fine_skipped : (forall name, ~ setting_kind s name) -> fine_entry fine bare s
| fine_filter name fs : setting_kind s name -> setting_args s (VObj fs) -> NoDup (map fst fs) -> fine name fs -> fine_entry fine bare s
| fine_bare name a : setting_kind s name -> setting_args s a -> bare name -> fine_entry fine bare s.
Definition fine_filters (fine : str -> list (str * value) -> Prop) (bare : str -> Prop) (top : list (str * value)) (key : string) : Prop :=
  forall l, has top key (VArr l) -> Forall (fine_entry fine bare) l.

Definition fine_char (e : env) (name : str) (fs : list (str * value)) : Prop :=
  (exists d, char_filter_described (e_regex e) name fs d) /\ harmless_char name fs.
Definition fine_token (n : nat) (name : str) (fs : list (str * value)) : Prop :=
  (exists d, token_filter_described name fs d) /\ harmless n name fs.
Definition bare_token (n : nat) (name : str) : Prop :=
  name = lit "lowercase" \/ name = lit "uppercase" \/ (name = lit "korean_reading_form" /\ 3 < n).

(** ** Dictionaries *)

(* the sources of a dictionary; every row has n details at least *)
Record good_sources (n : nat) (be : build_env) (e : env) (k : dictionary_kind) (dir : str) (S : sources) (C : content) : Prop := {
  gs_sources : has_sources be k dir S;
  gs_readable : readable k S C;
  gs_complete : complete C;
  gs_details : 0 < n <= kind_details k;
  gs_rows : Forall (fun r : row => 4 + n <= List.length r) (s_rows S);
  gs_yada : yada_works be e (system_words k (s_rows S))
}.

(* where a configuration finds the dictionary: in the directory it was built into, or in the program *)
Inductive finds_dictionary (be : build_env) (e : env) (k : dictionary_kind) (dir : str) : dictionary_config -> Prop :=
| finds_files out : be_compress be = false ->
    (forall files, build_dictionary be k dir = Ok files -> files_at e out files) ->
    finds_dictionary be e k dir (DictionaryConfig None (Some out))
| finds_embedded feature files get path : codecs_inverse (be_codecs be) -> codecs_bytes (be_codecs be) ->
    build_dictionary (with_compress feature be) k dir = Ok files -> contents get files ->
    (forall plain, build_dictionary (with_compress false be) k dir = Ok plain -> byte_files plain) ->
    e_embedded e k = Some (embedded_dictionary e (be_codecs be) feature get) ->
    finds_dictionary be e k dir (DictionaryConfig (Some k) path).

(* and the user dictionary, if it names one: a CSV file, or one that was compiled from it *)
Inductive finds_user (be : build_env) (e : env) (k : dictionary_kind) (C : content) : option user_dictionary_config -> Prop :=
| finds_none : finds_user be e k C None
| finds_csv path rows : file_with_extension path (lit "csv") -> user_readable e k path rows -> user_ids_fit k rows C ->
    finds_user be e k C (Some (UserDictionaryConfig path (Some k)))
| finds_bin source path rows kind : user_readable (be_env be) k source rows -> user_ids_fit k rows C ->
    yada_works be e (user_words rows) -> yada_bytes be -> file_with_extension path (lit "bin") ->
    (forall file, build_user_file be k source = Ok file -> e_read e path = Some file) ->
    finds_user be e k C (Some (UserDictionaryConfig path kind)).

(** ** The command line *)

(* a flag with the kind and the arguments of a filter that cannot fail *)
Definition fine_flag (e : env) (fine : str -> list (str * value) -> Prop) (flag : str) : Prop :=
  exists name fs, flag_of (e_parse e) flag (name, VObj fs) /\ NoDup (map fst fs) /\ fine name fs.
