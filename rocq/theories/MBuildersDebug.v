(** A whole build in a debug build: as MBuilders.v, with the building steps of MBuildDebug.v. *)
From Coq Require Import String.
From Coq Require Import List NArith ZArith Bool.
From Verif Require Import MBase MUtf8 MText MCodec MDict MCharDef MUnk MBincode MTokenizer MBuild MConfig MBuilders MBuildDebug.
Import ListNotations.
Local Open Scope string_scope.
Local Open Scope list_scope.

(* lindera-dictionary-builder/src/chardef.rs:26-57 *)
Definition build_chardef_file_debug (be : build_env) (k : dictionary_kind) (dir : str) : res (char_definitions * list N) :=
  do text <- read_text be (kind_encoding k) (join_path dir (lit "char.def"));
  do cd <- char_def_of_debug text;
  do bytes <- written be (enc_chardef cd);
  Ok (cd, bytes).

(* lindera-dictionary-builder/src/dict.rs:45-257 *)
Definition build_dict_files_debug (be : build_env) (k : dictionary_kind) (dir : str) : res (list (str * list N)) :=
  do rows <- system_rows be k dir;
  do f <- build_dict_debug (kind_dict_options k) rows;
  do words <- written be (f_words f);
  do index <- written be (f_words_idx f);
  do da <- ok_or (be_yada be (f_da f)) EIo;
  do da <- written be da;
  do vals <- written be (f_vals f);
  Ok [(lit "dict.words", words); (lit "dict.wordsidx", index); (lit "dict.da", da); (lit "dict.vals", vals)].

(* lindera-dictionary-builder/src/cost_matrix.rs:27-80 *)
Definition build_matrix_file_debug (be : build_env) (k : dictionary_kind) (dir : str) : res (list N) :=
  do text <- read_text be (kind_encoding k) (join_path dir (lit "matrix.def"));
  do m <- build_matrix_debug text;
  written be m.

(* lindera-ipadic-builder/src/ipadic_builder.rs:36-47 and the four like it, as build_dictionary in MBuilders.v; unk.rs has no arithmetic *)
Definition build_dictionary_debug (be : build_env) (k : dictionary_kind) (dir : str) : res (list (str * list N)) :=
  do '(cd, chardef) <- unwrapped k (build_chardef_file_debug be k dir);
  do unk <- unwrapped k (build_unk_file be k dir cd);
  do dict <- unwrapped k (build_dict_files_debug be k dir);
  do matrix <- unwrapped k (build_matrix_file_debug be k dir);
  Ok ([(lit "char_def.bin", chardef); (lit "unk.bin", unk)] ++ dict ++ [(lit "matrix.mtx", matrix)]).

(* lindera-dictionary-builder/src/user_dict.rs:41-186 with lindera-ipadic-builder/src/ipadic_builder.rs:49-52, as build_user_file in MBuilders.v *)
Definition build_user_file_debug (be : build_env) (k : dictionary_kind) (path : str) : res (list N) :=
  do bytes <- read_file (be_env be) path;
  do rows <- csv_rows (be_env be) (kind_user_flexible k) bytes;
  do u <- build_user_debug (kind_user_options k) rows;
  do da <- ok_or (be_yada be (pd_da (u_dict u))) EIo;
  Ok (enc_user (UserFile da (pd_vals (u_dict u)) (pd_system (u_dict u)) (u_words_idx u) (u_words u))).
