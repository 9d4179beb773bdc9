(** What can be wrong with the sources of a dictionary. *)
From Coq Require Import String.
From Coq Require Import List NArith ZArith Bool.
From Verif Require Import MBase MUtf8 MText MBincode MBuild MConfig MBuilders SText SBuild SMatrix SCharDef SUnk SSource SBuilders SAccept.
Import ListNotations.
Local Open Scope list_scope.

(** ** Lines *)

(* what is wrong with a line of char.def *)
Inductive char_blame (line : str) : error_kind -> Prop :=
| blame_pieces body text x names ps : without_comment line body -> trimmed body text -> (exists r, text = lit "0x" ++ r) ->
    fields_of white text (x :: names) -> pieces_of (lit "..") x ps -> 2 < List.length ps -> char_blame line EContent
| blame_point body text x names ps : without_comment line body -> trimmed body text -> (exists r, text = lit "0x" ++ r) ->
    fields_of white text (x :: names) -> pieces_of (lit "..") x ps -> List.length ps <= 2 -> Exists (fun p => forall c, ~ hex_point p c) ps ->
    char_blame line EParse
| blame_fields body text fs : without_comment line body -> trimmed body text -> text <> [] -> (forall r, text <> lit "0x" ++ r) ->
    fields_of ascii_white text fs -> List.length fs <> 4 -> char_blame line EContent
| blame_number body text name numbers : without_comment line body -> trimmed body text -> text <> [] -> (forall r, text <> lit "0x" ++ r) ->
    fields_of ascii_white text (name :: numbers) -> List.length numbers = 3 -> Exists (fun f => forall n, ~ u32_field f n) numbers ->
    char_blame line EParse.

(* what is wrong with a line of unk.def *)
Inductive unk_blame (fields : nat) (line : str) : error_kind -> Prop :=
| blame_parts ps : parts_of 44%N line ps -> List.length ps <> fields -> unk_blame fields line EContent
| blame_unk_number name f1 f2 f3 rest : parts_of 44%N line (name :: f1 :: f2 :: f3 :: rest) -> List.length rest + 4 = fields ->
    (forall n, ~ u32_field f1 n) \/ (forall n, ~ u32_field f2 n) \/ (forall z, ~ i32_field f3 z) -> unk_blame fields line EParse.

(* the first wrong line of a text *)
Definition first_line {A} (says : str -> A -> Prop) (blame : str -> error_kind -> Prop) (content : str) (er : error_kind) : Prop :=
  exists pre line post, file_lines content (pre ++ line :: post) /\ Forall (fun l => exists x, says l x) pre /\ blame line er.

(** ** matrix.def *)

Inductive matrix_blame (content : str) : error_kind -> Prop :=
| blame_empty : content = [] -> matrix_blame content EContent
| blame_matrix_number ls line fs : file_lines content ls -> In line ls -> fields_of white line fs -> Exists (fun f => forall z, ~ i32_field f z) fs ->
    matrix_blame content EParse.

(* numbers everywhere, but too few on a line, or a cell outside the table *)
Definition matrix_crash (content : str) : Prop :=
  exists header data, file_lines content (header :: data) /\ Forall (fun l => exists zs, numbers_on l zs) (header :: data) /\
    ((exists zs, numbers_on header zs /\ List.length zs < 2) \/
     (exists fsize bsize rest line zs, numbers_on header (fsize :: bsize :: rest) /\ In line data /\ numbers_on line zs /\
        (List.length zs < 3 \/ exists f b c rest', zs = f :: b :: c :: rest' /\ ((b + f * bsize) mod 2 ^ 32 >= (fsize * bsize) mod 2 ^ 32)%Z))).

(** ** CSV files *)

(* the first file that cannot be read *)
Inductive csv_blame (be : build_env) (k : dictionary_kind) (dir : str) : error_kind -> Prop :=
| blame_glob er : be_glob be dir = Err er -> csv_blame be k dir er
| blame_no_csv pre files name post : be_glob be dir = Ok (pre ++ name :: post) -> Forall2 (csv_file be k dir) pre files ->
    missing be dir name -> csv_blame be k dir EIo
| blame_csv pre files name post bytes er : be_glob be dir = Ok (pre ++ name :: post) -> Forall2 (csv_file be k dir) pre files ->
    e_read (be_env be) (join_path dir name) = Some bytes ->
    e_csv (be_env be) (match k with IPADIC => be_transcode be bytes | _ => bytes end) = Err er -> csv_blame be k dir er
| blame_mixed pre files name post bytes rows : be_glob be dir = Ok (pre ++ name :: post) -> Forall2 (csv_file be k dir) pre files ->
    e_read (be_env be) (join_path dir name) = Some bytes ->
    e_csv (be_env be) (match k with IPADIC => be_transcode be bytes | _ => bytes end) = Ok rows ->
    k <> CcCedict -> ~ (exists n, Forall (fun r : row => List.length r = n) rows) -> csv_blame be k dir EContent.
(* the reader or glob itself panics *)
Definition csv_crash (be : build_env) (k : dictionary_kind) (dir : str) : Prop :=
  be_glob be dir = Panic \/
  exists names name bytes, be_glob be dir = Ok names /\ In name names /\ e_read (be_env be) (join_path dir name) = Some bytes /\
    e_csv (be_env be) (match k with IPADIC => be_transcode be bytes | _ => bytes end) = Panic.

Definition all_rows (be : build_env) (k : dictionary_kind) (dir : str) (rows : list row) : Prop :=
  exists names files, be_glob be dir = Ok names /\ Forall2 (csv_file be k dir) names files /\ rows = concat files.

(** ** Rows *)

Inductive rows_blame (k : dictionary_kind) (rows : list row) : error_kind -> Prop :=
| blame_row_number r : k <> CcCedict -> In r rows -> 4 <= List.length r -> (forall c l rr, ~ word_row r c l rr) -> rows_blame k rows EParse
| blame_row_size r : In r rows -> (N.of_nat (total (fun f => (1 + blen f)%nat) (sys_row_details (source_options k) r)) > 4294967296)%N ->
    Forall (fun r => 4 <= List.length r /\ (k = CcCedict \/ exists c l rr, word_row r c l rr)) rows -> rows_blame k rows ESerialize.
Definition rows_crash (rows : list row) : Prop := Exists (fun r : row => List.length r < 4) rows.

(** ** The whole dictionary *)

Definition char_fine (be : build_env) (k : dictionary_kind) (dir : str) : Prop := exists t ds, text_file be k dir "char.def" t /\ char_file t ds.
Definition unk_fine (be : build_env) (k : dictionary_kind) (dir : str) : Prop :=
  exists t us, text_file be k dir "unk.def" t /\ unk_file (unk_line_fields k) t us.
Definition rows_fine (be : build_env) (k : dictionary_kind) (dir : str) : Prop :=
  exists rows, all_rows be k dir rows /\ Forall (accepted_row k) rows.

Inductive build_blame (be : build_env) (k : dictionary_kind) (dir : str) : error_kind -> Prop :=
| blame_no_char : missing be dir (lit "char.def") -> build_blame be k dir EIo
| blame_char t er : text_file be k dir "char.def" t -> first_line line_says char_blame t er -> build_blame be k dir er
| blame_no_unk : char_fine be k dir -> missing be dir (lit "unk.def") -> build_blame be k dir EIo
| blame_unk t er : char_fine be k dir -> text_file be k dir "unk.def" t ->
    first_line (unk_says (unk_line_fields k)) (unk_blame (unk_line_fields k)) t er -> build_blame be k dir er
| blame_files er : char_fine be k dir -> unk_fine be k dir -> csv_blame be k dir er -> build_blame be k dir er
| blame_rows rows er : char_fine be k dir -> unk_fine be k dir -> all_rows be k dir rows -> rows_blame k rows er -> build_blame be k dir er
| blame_no_matrix : char_fine be k dir -> unk_fine be k dir -> rows_fine be k dir -> missing be dir (lit "matrix.def") -> build_blame be k dir EIo
| blame_matrix t er : char_fine be k dir -> unk_fine be k dir -> rows_fine be k dir -> text_file be k dir "matrix.def" t -> matrix_blame t er ->
    build_blame be k dir er.

Inductive build_crash (be : build_env) (k : dictionary_kind) (dir : str) : Prop :=
| crash_csv : char_fine be k dir -> unk_fine be k dir -> csv_crash be k dir -> build_crash be k dir
| crash_rows rows : char_fine be k dir -> unk_fine be k dir -> all_rows be k dir rows -> rows_crash rows -> build_crash be k dir
| crash_matrix t : char_fine be k dir -> unk_fine be k dir -> rows_fine be k dir -> text_file be k dir "matrix.def" t -> matrix_crash t -> build_crash be k dir.

(* yada gives no trie for keys out of the words of the rows *)
Definition trie_blame (be : build_env) (k : dictionary_kind) (dir : str) : Prop :=
  char_fine be k dir /\ unk_fine be k dir /\ exists rows ks, all_rows be k dir rows /\ Forall (accepted_row k) rows /\
    Forall (fun kv => exists w, In w (system_words k rows) /\ fst kv = utf8 w) ks /\ be_yada be ks = None.

(** ** User dictionaries *)

Inductive user_rows_blame (k : dictionary_kind) (rows : list row) : error_kind -> Prop :=
| blame_user_number r : In r rows -> 4 <= List.length r -> (forall c l rr, ~ user_row r c l rr) -> user_rows_blame k rows EParse
| blame_user_short r : In r rows -> List.length r <> 3 -> List.length r < full_fields k -> Forall (fun r => exists c l rr, user_row r c l rr) rows ->
    user_rows_blame k rows EContent.
Definition user_rows_crash (rows : list row) : Prop := Exists (fun r : row => List.length r < 3) rows.

Inductive user_blame (e : env) (k : dictionary_kind) (path : str) : error_kind -> Prop :=
| blame_user_missing : e_read e path = None -> user_blame e k path EIo
| blame_user_csv bytes er : e_read e path = Some bytes -> e_csv e bytes = Err er -> user_blame e k path er
| blame_user_mixed bytes rows : e_read e path = Some bytes -> e_csv e bytes = Ok rows -> k <> IPADIC -> k <> IPADICNEologd ->
    ~ (exists n, Forall (fun r : row => List.length r = n) rows) -> user_blame e k path EContent
| blame_user_rows rows er : user_csv e k path rows -> user_rows_blame k rows er -> user_blame e k path er.
Definition user_crash (e : env) (k : dictionary_kind) (path : str) : Prop :=
  (exists bytes, e_read e path = Some bytes /\ e_csv e bytes = Panic) \/ exists rows, user_csv e k path rows /\ user_rows_crash rows.

(* yada gives no trie for keys out of the words of the rows *)
Definition user_trie_blame (be : build_env) (k : dictionary_kind) (path : str) : Prop :=
  exists rows ks, user_csv (be_env be) k path rows /\ Forall (accepted_user_row k) rows /\
    Forall (fun kv => exists w, In w (user_words rows) /\ fst kv = utf8 w) ks /\ be_yada be ks = None.
