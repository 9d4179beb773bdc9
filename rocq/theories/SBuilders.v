(** Specification vocabulary for whole dictionary builds: what the source files contain and what the built dictionary means. *)
From Coq Require Import String.
From Coq Require Import List NArith ZArith Bool.
From Verif Require Import MBase MUtf8 MText MCodec MDict MCharDef MUnk MBincode MLattice MTokenizer MBuild MConfig MBuilders
  STok SBuild SMatrix SCharDef SUnk SData.
Import ListNotations.
Local Open Scope list_scope.

(** ** The source files *)

Record sources := Sources { s_char : str; s_unk : str; s_matrix : str; s_rows : list row }.

(* a text file: IPADIC's are in EUC-JP *)
Definition text_file (be : build_env) (k : dictionary_kind) (dir : str) (name : string) (content : str) : Prop :=
  exists bytes, e_read (be_env be) (join_path dir (lit name)) = Some bytes /\
    content = be_text be (match k with IPADIC => EucJp | _ => Utf8 end) bytes.

(* a CSV file; only CC-CEDICT's may have records of different lengths *)
Definition csv_file (be : build_env) (k : dictionary_kind) (dir : str) (name : str) (rows : list row) : Prop :=
  exists bytes, e_read (be_env be) (join_path dir name) = Some bytes /\
    e_csv (be_env be) (match k with IPADIC => be_transcode be bytes | _ => bytes end) = Ok rows /\
    (k = CcCedict \/ exists n, Forall (fun r : row => List.length r = n) rows).

Record has_sources (be : build_env) (k : dictionary_kind) (dir : str) (S : sources) : Prop := {
  hs_char : text_file be k dir "char.def" (s_char S);
  hs_unk : text_file be k dir "unk.def" (s_unk S);
  hs_matrix : text_file be k dir "matrix.def" (s_matrix S);
  hs_rows : exists names files, be_glob be dir = Ok names /\ Forall2 (csv_file be k dir) names files /\ s_rows S = concat files
}.

(** ** What they say *)

Record content := Content {
  c_char : list directive;
  c_unk : list unk_line;
  c_fsize : N;
  c_bsize : N;
  c_entries : list (N * N * Z)
}.

(* the number of fields of a line of unk.def *)
Definition unk_line_fields (k : dictionary_kind) : nat :=
  match k with IPADIC | IPADICNEologd => 11 | UniDic | CcCedict => 10 | KoDic => 12 end.

(* similar characters are unified in the two IPADICs; rows with unusable numbers are left out of CC-CEDICT *)
Definition source_options (k : dictionary_kind) : dict_options :=
  DictOptions (match k with IPADIC | IPADICNEologd => true | _ => false end) (match k with CcCedict => true | _ => false end).

(* the bytes and numbers that a directive takes in char_def.bin, roughly *)
Definition directive_size (d : directive) : nat := 4 + total (fun name => 1 + blen name) (mentions d).

Record readable (k : dictionary_kind) (S : sources) (C : content) : Prop := {
  rd_char : directives (s_char S) = Ok (c_char C);
  rd_defined : defined_first (c_char C);
  rd_names : Forall valid_str (flat_map mentions (c_char C));
  rd_char_size : (N.of_nat (total directive_size (c_char C)) < 2 ^ 62)%N;
  rd_unk : Forall2 (reads_as (unk_line_fields k)) (lines (s_unk S)) (c_unk C);
  rd_unk_fits : Forall fits (c_unk C);
  rd_unk_ids : Forall (fun u => (ul_left u < c_bsize C)%N /\ (ul_right u < c_fsize C)%N) (c_unk C);
  rd_unk_size : (N.of_nat (List.length (c_unk C)) < 2 ^ 32)%N;
  rd_matrix : matrix_def (s_matrix S) (c_fsize C) (c_bsize C) (c_entries C);
  rd_entries : entries_fit (c_fsize C) (c_bsize C) (c_entries C);
  rd_sizes : (0 < c_fsize C <= 32767)%N /\ (0 < c_bsize C <= 32767)%N;
  rd_rows : sys_room (source_options k) (s_rows S);
  rd_numbers : k = CcCedict \/ Forall (fun r => sys_numbers r <> None) (s_rows S);
  rd_row_ids : Forall (fun r => forall c l rr, sys_numbers r = Some (c, l, rr) -> (l < c_bsize C)%N /\ (rr < c_fsize C)%N) (s_rows S)
}.

(** ** What the dictionary means *)

(* the entry for an unknown word *)
Definition unk_gives (u : unk_line) (e : word_entry) : Prop :=
  we_cost e = ul_cost u /\ we_left e = ul_left u /\ we_right e = ul_right u /\ we_id e = WordId 4294967295 true.

Record says (k : dictionary_kind) (S : sources) (C : content) (d : dictionary) (A : adict) : Prop := {
  sy_words : forall s, found_of (sys_found (source_options k) d) (sys_rows_for (source_options k) s (s_rows S)) (entries_of (a_sys A) s);
  sy_user : a_usr A = [];
  sy_categories : forall c, valid_char c ->
    Forall2 (fun id name => exists data, nth_error (flat_map defines (c_char C)) id = Some (name, data)) (a_cats A c) (categories_of (c_char C) c);
  sy_definitions : forall id name data, nth_error (flat_map defines (c_char C)) id = Some (name, data) ->
    a_invoke A id = cd_invoke data /\ a_group A id = cd_group data /\
    Forall2 unk_gives (filter (fun u => str_eqb (ul_name u) name) (c_unk C)) (a_unk A id);
  sy_undefined : forall id, nth_error (flat_map defines (c_char C)) id = None -> a_unk A id = [];
  sy_costs : forall f b, (f < c_fsize C)%N -> (b < c_bsize C)%N -> a_conn A f b = matrix_cost (c_entries C) f b;
  sy_sizes : a_fsize A = c_fsize C /\ a_bsize A = c_bsize C
}.

(* char.def names DEFAULT, and unk.def has a line about every category *)
Definition complete (C : content) : Prop :=
  In (lit "DEFAULT") (flat_map mentions (c_char C)) /\
  forall name, In name (flat_map mentions (c_char C)) -> Exists (fun u => ul_name u = name) (c_unk C).

(** ** Reading the files back *)

(* the files are in the directory out *)
Definition files_at (e : env) (out : str) (files : list (str * list N)) : Prop :=
  forall name bytes, In (name, bytes) files -> e_read e (join_path out name) = Some bytes.

(* yada builds a trie with keys out of these words, if the input is what it asks for; reading it gives the keys and values back *)
Definition yada_works (be : build_env) (e : env) (words : list str) : Prop :=
  forall ks, trie_input ks -> Forall (fun kv => exists w, In w words /\ fst kv = utf8 w) ks -> exists b, be_yada be ks = Some b /\ e_da e b = ks.
Definition system_words (k : dictionary_kind) (rows : list row) : list str := map (sys_surface (source_options k)) rows.
Definition user_words (rows : list row) : list str := map (hd []) rows.

(* the same environment with and without the feature compress *)
Definition with_compress (feature : bool) (be : build_env) : build_env :=
  BuildEnv (be_env be) (be_text be) (be_transcode be) (be_glob be) (be_yada be) (be_codecs be) feature.

(* yada writes bytes *)
Definition yada_bytes (be : build_env) : Prop := forall ks b, be_yada be ks = Some b -> Forall is_byte b /\ short b.

(** ** User dictionaries *)

(* a CSV file with a user dictionary; records of different lengths are read for the two IPADICs only *)
Definition user_csv (e : env) (k : dictionary_kind) (path : str) (rows : list row) : Prop :=
  exists bytes, e_read e path = Some bytes /\ e_csv e bytes = Ok rows /\
    (k = IPADIC \/ k = IPADICNEologd \/ exists n, Forall (fun r : row => List.length r = n) rows).

Record user_readable (e : env) (k : dictionary_kind) (path : str) (rows : list row) : Prop := {
  ur_csv : user_csv e k path rows;
  ur_limits : user_room (kind_user_options k) rows;
  ur_lengths : Forall (fun r : row => (List.length r = 3 \/ 4 <= List.length r)%nat) rows;
  ur_acceptable : Forall (row_acceptable (kind_user_options k)) rows
}.

(* the context ids of the user rows are inside the matrix *)
Definition user_ids_fit (k : dictionary_kind) (rows : list row) (C : content) : Prop :=
  Forall (fun r => forall c l rr, user_numbers (kind_user_options k) r = Some (c, l, rr) -> (l < c_bsize C)%N /\ (rr < c_fsize C)%N) rows.

(* the abstract dictionary with other user entries *)
Definition with_user (A : adict) (tbl : list (str * list word_entry)) : adict :=
  ADict (a_sys A) tbl (a_cats A) (a_invoke A) (a_group A) (a_unk A) (a_conn A) (a_fsize A) (a_bsize A).

(* where a token with these details may come from: a row of the user dictionary, a row of the dictionary, or an unknown word of
   one of the categories of its first character *)
Inductive comes_from (k : dictionary_kind) (S : sources) (C : content) (urows : list row) : str -> list str -> Prop :=
| from_user r ds : In r urows -> user_row_details (kind_user_options k) r = Some ds -> comes_from k S C urows (hd [] r) ds
| from_system r : In r (s_rows S) -> sys_numbers r <> None ->
    comes_from k S C urows (sys_surface (source_options k) r) (sys_row_details (source_options k) r)
| from_unknown c rest u : In (ul_name u) (categories_of (c_char C) c) -> In u (c_unk C) -> comes_from k S C urows (c :: rest) [lit "UNK"].

(** ** Files on disk and in the program *)

Definition byte_files (files : list (str * list N)) : Prop := Forall (fun '(_, b) => Forall is_byte b /\ short b) files.

(* get gives the content of each of the files *)
Definition contents (get : str -> list N) (files : list (str * list N)) : Prop := forall name bytes, In (name, bytes) files -> get name = bytes.

Definition dictionary_files : list str :=
  map lit ["dict.da"; "dict.vals"; "matrix.mtx"; "char_def.bin"; "unk.bin"; "dict.wordsidx"; "dict.words"]%string.

(* kinds whose builders hand errors on; the others' panic *)
Definition reports_errors (k : dictionary_kind) : Prop := k = IPADIC \/ k = IPADICNEologd \/ k = UniDic.

(** ** Faulty sources *)

(* char.def and unk.def are fine *)
Definition good_char (be : build_env) (k : dictionary_kind) (dir : str) : Prop :=
  exists t ds, text_file be k dir "char.def" t /\ directives t = Ok ds.
Definition good_unk (be : build_env) (k : dictionary_kind) (dir : str) : Prop :=
  exists t us, text_file be k dir "unk.def" t /\ Forall2 (reads_as (unk_line_fields k)) (lines t) us.
Definition missing (be : build_env) (dir : str) (name : str) : Prop := e_read (be_env be) (join_path dir name) = None.

Inductive build_fault (be : build_env) (k : dictionary_kind) (dir : str) : error_kind -> Prop :=
| fault_no_char : missing be dir (lit "char.def") -> build_fault be k dir EIo
| fault_bad_char t er : text_file be k dir "char.def" t -> directives t = Err er -> build_fault be k dir er
| fault_no_unk : good_char be k dir -> missing be dir (lit "unk.def") -> build_fault be k dir EIo
| fault_bad_unk t pre us line post : good_char be k dir -> text_file be k dir "unk.def" t -> lines t = pre ++ line :: post ->
    Forall2 (reads_as (unk_line_fields k)) pre us -> List.length (split_char 44%N line) <> unk_line_fields k ->
    build_fault be k dir EContent
| fault_no_csv pre files name post : good_char be k dir -> good_unk be k dir ->
    be_glob be dir = Ok (pre ++ name :: post) -> Forall2 (csv_file be k dir) pre files -> missing be dir name ->
    build_fault be k dir EIo
| fault_mixed_csv pre files name post bytes rows : good_char be k dir -> good_unk be k dir ->
    be_glob be dir = Ok (pre ++ name :: post) -> Forall2 (csv_file be k dir) pre files ->
    e_read (be_env be) (join_path dir name) = Some bytes ->
    e_csv (be_env be) (match k with IPADIC => be_transcode be bytes | _ => bytes end) = Ok rows ->
    k <> CcCedict -> ~ (exists n, Forall (fun r : row => List.length r = n) rows) ->
    build_fault be k dir EContent
| fault_bad_row names files : good_char be k dir -> good_unk be k dir ->
    be_glob be dir = Ok names -> Forall2 (csv_file be k dir) names files ->
    Forall (fun r : row => (4 <= List.length r)%nat) (concat files) -> k <> CcCedict ->
    Exists (fun r => sys_numbers r = None) (concat files) ->
    build_fault be k dir EParse
| fault_no_matrix names files : good_char be k dir -> good_unk be k dir ->
    be_glob be dir = Ok names -> Forall2 (csv_file be k dir) names files -> sys_room (source_options k) (concat files) ->
    (k = CcCedict \/ Forall (fun r => sys_numbers r <> None) (concat files)) ->
    (exists e, yada_works be e (system_words k (concat files))) -> missing be dir (lit "matrix.def") -> build_fault be k dir EIo.
