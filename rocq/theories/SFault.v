(** What can be wrong with a configuration. *)
From Coq Require Import String.
From Coq Require Import List NArith ZArith Bool.
From Verif Require Import MBase MUtf8 MText MCodec MDict MBincode MTokenizer MDetails MBuild MCharFilter MAnalyzer MTokenFilter MConfig STokenFilter SConfig SBuilders SAccept.
Import ListNotations.
Local Open Scope string_scope.
Local Open Scope list_scope.

(** ** Extensions *)

(* the parts of the path between slashes: at the end those that mean nothing, before them a name with an extension *)
Definition path_extension (path ext : str) : Prop :=
  exists pre name post, path = join [47%N] (pre ++ (name ++ [46%N] ++ ext) :: post) /\
    Forall (fun p => ~ In 47%N p) pre /\ Forall (fun p => p = [] \/ p = [46%N]) post /\
    name <> [] /\ ~ In 47%N name /\ ~ In 47%N ext /\ ~ In 46%N ext /\ ~ (name = [46%N] /\ ext = []).

(* the last part of a path that means anything is a name *)
Definition last_name (path name : str) : Prop :=
  exists pre post, path = join [47%N] (pre ++ name :: post) /\ Forall (fun p => ~ In 47%N p) pre /\ ~ In 47%N name /\
    Forall (fun p => p = [] \/ p = [46%N]) post /\ name <> [] /\ name <> [46%N] /\ name <> [46%N; 46%N].
(* the extension replaced, or added to a name without one; a name that starts with its only dot has none *)
Definition renamed (name ext new : str) : Prop :=
  (exists stem old, name = stem ++ [46%N] ++ old /\ stem <> [] /\ ~ In 46%N old /\ new = stem ++ [46%N] ++ ext) \/
  ((forall stem old, name = stem ++ [46%N] ++ old -> ~ In 46%N old -> stem = []) /\ new = name ++ [46%N] ++ ext).

(** ** Faults *)

Inductive dictionary_fault (e : env) : dictionary_config -> error_kind -> Prop :=
| fault_neither : dictionary_fault e (DictionaryConfig None None) EArgs
| fault_not_included k p : e_embedded e k = None -> dictionary_fault e (DictionaryConfig (Some k) p) EArgs
| fault_embedded k p er : e_embedded e k = Some (Err er) -> dictionary_fault e (DictionaryConfig (Some k) p) EDictionaryNotFound
| fault_missing dir name : In name dictionary_files -> e_read e (join_path dir name) = None ->
    dictionary_fault e (DictionaryConfig None (Some dir)) EIo
| fault_categories dir b : e_read e (join_path dir (lit "char_def.bin")) = Some b -> dec_chardef b = None ->
    dictionary_fault e (DictionaryConfig None (Some dir)) EDeserialize
| fault_unknown dir b : e_read e (join_path dir (lit "unk.bin")) = Some b -> dec_unknown b = None ->
    dictionary_fault e (DictionaryConfig None (Some dir)) EDeserialize.

(* a CSV file that is missing, or is no CSV, or has records of different lengths, or rows that are refused *)
Definition bad_user_csv (e : env) (k : dictionary_kind) (path : str) : Prop :=
  match e_read e path with
  | None => True
  | Some bytes =>
    match e_csv e bytes with
    | Ok rows => (k <> IPADIC /\ k <> IPADICNEologd /\ ~ exists n, Forall (fun r : row => List.length r = n) rows) \/
                 ~ Forall (accepted_user_row k) rows
    | Err _ => True
    | Panic => False
    end
  end.

Inductive user_fault (e : env) : user_dictionary_config -> error_kind -> Prop :=
| fault_extension path k : ~ path_extension path (lit "csv") -> ~ path_extension path (lit "bin") -> user_fault e (UserDictionaryConfig path k) EArgs
| fault_no_kind path : path_extension path (lit "csv") -> user_fault e (UserDictionaryConfig path None) EArgs
| fault_csv path k : path_extension path (lit "csv") -> bad_user_csv e k path -> user_fault e (UserDictionaryConfig path (Some k)) EDictionaryBuild
| fault_bin_missing path k : path_extension path (lit "bin") -> e_read e path = None -> user_fault e (UserDictionaryConfig path k) EIo
| fault_bin path k b : path_extension path (lit "bin") -> e_read e path = Some b -> dec_user b = None -> user_fault e (UserDictionaryConfig path k) EDeserialize.

(* one of the filters cannot be made *)
Definition filter_fault {A} (load : str -> value -> res A) (top : list (str * value)) (key : string) (er : error_kind) : Prop :=
  exists l s name a, has top key (VArr l) /\ In s l /\ setting_kind s name /\ setting_args s a /\ load name a = Err er.

Inductive config_fault (e : env) (top : list (str * value)) : error_kind -> Prop :=
| fault_char_filter er : filter_fault (load_char_filter e) top "character_filters" er -> config_fault e top er
| fault_no_tokenizer : (forall fs, ~ has top "tokenizer" (VObj fs)) -> config_fault e top EDeserialize
| fault_tokenizer fs : has top "tokenizer" (VObj fs) -> (forall tc, ~ tokenizer_described fs tc) -> config_fault e top EDeserialize
| fault_dictionary fs tc er : has top "tokenizer" (VObj fs) -> tokenizer_described fs tc -> dictionary_fault e (tc_dictionary tc) er -> config_fault e top er
| fault_user fs tc u er : has top "tokenizer" (VObj fs) -> tokenizer_described fs tc -> tc_user tc = Some u -> user_fault e u er -> config_fault e top er
| fault_token_filter er : filter_fault load_token_filter top "token_filters" er -> config_fault e top er.

(** ** Panics *)

(* a matrix without its sizes *)
Definition dictionary_panic (e : env) (c : dictionary_config) : Prop :=
  match dc_kind c, dc_path c with
  | Some k, _ => e_embedded e k = Some Panic
  | None, Some dir => exists b, e_read e (join_path dir (lit "matrix.mtx")) = Some b /\ List.length b < 4
  | None, None => False
  end.
(* a row with fewer than three fields *)
Definition user_panic (e : env) (u : user_dictionary_config) : Prop :=
  path_extension (udc_path u) (lit "csv") /\ exists k b, udc_kind u = Some k /\ e_read e (udc_path u) = Some b /\
    (e_csv e b = Panic \/ exists rows, e_csv e b = Ok rows /\ Exists (fun r : row => List.length r < 3) rows).
(* a tag with more than four parts *)
Definition filter_panic (top : list (str * value)) : Prop :=
  exists l s name a, has top "token_filters" (VArr l) /\ In s l /\ setting_kind s name /\ setting_args s a /\ load_token_filter name a = Panic.

Inductive config_panic (e : env) (top : list (str * value)) : Prop :=
| panic_dictionary fs tc : has top "tokenizer" (VObj fs) -> tokenizer_described fs tc -> dictionary_panic e (tc_dictionary tc) -> config_panic e top
| panic_user fs tc u : has top "tokenizer" (VObj fs) -> tokenizer_described fs tc -> tc_user tc = Some u -> user_panic e u -> config_panic e top
| panic_filter : filter_panic top -> config_panic e top.
