(** Whole dictionary builds: the five *-builder crates, lindera-dictionary-builder, the embedded dictionaries and the build
    command of lindera-cli. *)
From Coq Require Import String.
From Coq Require Import List NArith ZArith Bool.
From Verif Require Import MBase MUtf8 MText MCodec MDict MCharDef MUnk MBincode MTokenizer MBuild MConfig.
Import ListNotations.
Local Open Scope list_scope.

(* ENCODING of the builders: "EUC-JP" for IPADIC (lindera-ipadic-builder/src/ipadic_builder.rs:19), otherwise the default "UTF-8" *)
Inductive encoding := EucJp | Utf8.
(* lindera-ipadic-builder/src/ipadic_builder.rs:19 *)
Definition kind_encoding (k : dictionary_kind) : encoding := match k with IPADIC => EucJp | _ => Utf8 end.

(* What the builders get from other crates and the operating system.  Creating directories and writing files succeeds.
   For lindera-dictionary-builder/src/dict.rs:44-100 and lindera-dictionary-builder/src/chardef.rs:27-56. *)
Record build_env := BuildEnv {
  be_env : env;                                 (* files and the CSV reader *)
  be_text : encoding -> list N -> str;          (* encoding_rs decode of a whole file *)
  be_transcode : list N -> list N;              (* encoding_rs_io DecodeReaderBytes: EUC-JP to UTF-8 *)
  be_glob : str -> res (list str);              (* glob: the names of the *.csv files of a directory *)
  be_yada : list (list N * N) -> option (list N);   (* yada DoubleArrayBuilder::build *)
  be_codecs : codecs;                           (* flate2 *)
  be_compress : bool                            (* the feature compress *)
}.

(* lindera-dictionary-builder/src/utils.rs:42-48 with lindera-core/src/file_util.rs:7-15; both encoding labels are known *)
Definition read_text (be : build_env) (enc : encoding) (path : str) : res str :=
  do bytes <- read_file (be_env be) path; Ok (be_text be enc bytes).

(* COMPRESS_ALGORITHM is Deflate in all builders.
   lindera-ipadic-builder/src/ipadic_builder.rs:17, and the same constant in the others. *)
Definition written (be : build_env) (buffer : list N) : res (list N) := compress_write (be_codecs be) (be_compress be) buffer Deflate.

(* lindera-dictionary-builder/src/chardef.rs:27-58 *)
Definition build_chardef_file (be : build_env) (k : dictionary_kind) (dir : str) : res (char_definitions * list N) :=
  do text <- read_text be (kind_encoding k) (join_path dir (lit "char.def"));
  do cd <- char_def_of text;
  do bytes <- written be (enc_chardef cd);
  Ok (cd, bytes).

(* lindera-dictionary-builder/src/unk.rs:29-59 *)
Definition build_unk_file (be : build_env) (k : dictionary_kind) (dir : str) (cd : char_definitions) : res (list N) :=
  do text <- read_text be (kind_encoding k) (join_path dir (lit "unk.def"));
  do u <- parse_unk (categories cd) text (unk_fields k);
  written be (enc_unknown u).

(* flexible_csv in build_dict of the builders: true for CC-CEDICT only (lindera-cc-cedict-builder/src/cc_cedict_builder.rs:80) *)
Definition kind_flexible (k : dictionary_kind) : bool := match k with CcCedict => true | _ => false end.

(* lindera-dictionary-builder/src/dict.rs:45-100: the rows of all CSV files; UTF-8 files are read as they are *)
Definition system_rows (be : build_env) (k : dictionary_kind) (dir : str) : res (list row) :=
  do names <- be_glob be dir;
  do rss <- mapM (fun name =>
    do bytes <- read_file (be_env be) (join_path dir name);
    csv_rows (be_env be) (kind_flexible k) (match kind_encoding k with EucJp => be_transcode be bytes | Utf8 => bytes end)) names;
  Ok (concat rss).

(* lindera-dictionary-builder/src/dict.rs:45-257: the four files, in the order in which they are written *)
Definition build_dict_files (be : build_env) (k : dictionary_kind) (dir : str) : res (list (str * list N)) :=
  do rows <- system_rows be k dir;
  do f <- build_dict (kind_dict_options k) rows;
  do words <- written be (f_words f);
  do index <- written be (f_words_idx f);
  do da <- ok_or (be_yada be (f_da f)) EIo;
  do da <- written be da;
  do vals <- written be (f_vals f);
  Ok [(lit "dict.words", words); (lit "dict.wordsidx", index); (lit "dict.da", da); (lit "dict.vals", vals)].

(* lindera-dictionary-builder/src/cost_matrix.rs:27-80 *)
Definition build_matrix_file (be : build_env) (k : dictionary_kind) (dir : str) : res (list N) :=
  do text <- read_text be (kind_encoding k) (join_path dir (lit "matrix.def"));
  do m <- build_matrix text;
  written be m.

(* .unwrap() instead of ? in build_dictionary of ko-dic (39-42) and CC-CEDICT (39-42).
   lindera-ko-dic-builder/src/ko_dic_builder.rs:39-42, lindera-cc-cedict-builder/src/cc_cedict_builder.rs:39-42. *)
Definition unwrapped {A} (k : dictionary_kind) (r : res A) : res A :=
  match k, r with
  | KoDic, Err _ => Panic
  | CcCedict, Err _ => Panic
  | _, _ => r
  end.

(* build_dictionary of the builders (lindera-ipadic-builder/src/ipadic_builder.rs:36-47, neologd 35-46, unidic 36-47, ko-dic 35-46, cc-cedict 35-46):
   the names and contents of the files written to the output directory *)
Definition build_dictionary (be : build_env) (k : dictionary_kind) (dir : str) : res (list (str * list N)) :=
  do '(cd, chardef) <- unwrapped k (build_chardef_file be k dir);
  do unk <- unwrapped k (build_unk_file be k dir cd);
  do dict <- unwrapped k (build_dict_files be k dir);
  do matrix <- unwrapped k (build_matrix_file be k dir);
  Ok ([(lit "char_def.bin", chardef); (lit "unk.bin", unk)] ++ dict ++ [(lit "matrix.mtx", matrix)]).

(* build_user_dictionary of the builders (lindera-ipadic-builder/src/ipadic_builder.rs:49-52) with lindera-dictionary-builder/src/user_dict.rs:164-186: the file written *)
Definition build_user_file (be : build_env) (k : dictionary_kind) (path : str) : res (list N) :=
  do u <- build_user_dict (be_env be) k path;
  do da <- ok_or (be_yada be (pd_da (u_dict u))) EIo;
  Ok (enc_user (UserFile da (pd_vals (u_dict u)) (pd_system (u_dict u)) (u_words_idx u) (u_words u))).

(* PathBuf::set_extension of a path that ends with this file name: the name without its extension, if it has one.
   lindera-cli/src/main.rs:288. *)
Definition file_stem (name : str) : str :=
  match rev (split_char 46%N name) with
  | _ :: p :: ps => if is_nil (join [46%N] (rev (p :: ps))) then name else join [46%N] (rev (p :: ps))
  | _ => name
  end.
(* lindera-cli/src/main.rs:288 *)
Definition with_extension (name ext : str) : str := file_stem name ++ 46%N :: ext.

(* lindera-cli/src/main.rs:84-93 and 282-297: the paths and contents of the files written *)
Definition cli_build (be : build_env) (user : bool) (k : dictionary_kind) (src dest : str) : res (list (str * list N)) :=
  if user then
    match file_name src with
    | Some name =>
      do bytes <- build_user_file be k src;
      Ok [(join_path dest (with_extension name (lit "bin")), bytes)]
    | None => Err EIo
    end
  else
    do files <- build_dictionary be k src;
    Ok (map (fun '(name, bytes) => (join_path dest name, bytes)) files).

(* lindera-ipadic/src/lib.rs:26-94 (and the four like it): the dictionary in the program; file gives the bytes that
   include_bytes! puts into it *)
Definition embedded_dictionary (e : env) (c : codecs) (feature : bool) (file : str -> list N) : res dictionary :=
  let data name := embedded_data c feature (file (lit name)) in
  do da <- data "dict.da"%string;
  do vals <- data "dict.vals"%string;
  do matrix <- data "matrix.mtx"%string;
  do m <- cm_load matrix;
  do chardef <- data "char_def.bin"%string;
  do cd <- load_chardef chardef;
  do unk <- data "unk.bin"%string;
  do u <- load_unknown unk;
  do idx <- data "dict.wordsidx"%string;
  do words <- data "dict.words"%string;
  Ok (Dictionary (PrefixDict (e_da e da) vals true) m cd u idx words).
