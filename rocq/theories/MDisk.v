(** What a build writes, step by step: lindera-dictionary-builder/src/{chardef,unk,dict,cost_matrix,user_dict}.rs and the
    build_dictionary functions of the five builder crates.  MBuilders.v has the files of a successful build only. *)
From Coq Require Import String.
From Coq Require Import List NArith ZArith Bool.
From Verif Require Import MBase MUtf8 MText MCodec MDict MCharDef MUnk MBincode MTokenizer MBuild MConfig MBuilders.
Import ListNotations.
Local Open Scope list_scope.

(* The output directory (lindera-dictionary-builder/src/dict.rs:108-118): the newest content of a name comes first. *)
Definition directory := list (str * list N).

(* What reading the file gives.  lindera-dictionary/src/lib.rs:127-129. *)
Definition content_of (d : directory) (name : str) : option (list N) :=
  match find (fun f => str_eqb (fst f) name) d with Some f => Some (snd f) | None => None end.

(* A step that writes: the directory after it, whether or not it succeeds (a file written before an error or a panic stays;
   a BufWriter that is dropped writes what it holds).  lindera-dictionary-builder/src/dict.rs:44-257. *)
Definition writer (A : Type) := directory -> directory * res A.
(* a step that writes nothing.  For instance lindera-dictionary-builder/src/dict.rs:122-170. *)
Definition quiet {A} (r : res A) : writer A := fun d => (d, r).
(* the operator ? between steps.  For instance lindera-ipadic-builder/src/ipadic_builder.rs:40-43. *)
Definition next {A B} (w : writer A) (f : A -> writer B) : writer B :=
  fun d => match w d with (d', Ok a) => f a d' | (d', Err k) => (d', Err k) | (d', Panic) => (d', Panic) end.
Notation "'then' x <- w ; k" := (next w (fun x => k)) (at level 200, x name, w at level 100, k at level 200).
Notation "'then' ' p <- w ; k" := (next w (fun p => k)) (at level 200, p strict pattern, w at level 100, k at level 200).

(* File::create: the file is there and empty.  lindera-dictionary-builder/src/dict.rs:108-118 and 172-182. *)
Definition create (name : str) : writer unit := fun d => ((name, []) :: d, Ok tt).
(* compress_write into a file that was just created.  lindera-dictionary-builder/src/utils.rs:14-40. *)
Definition save (be : build_env) (name : str) (buffer : list N) : writer unit :=
  then bytes <- quiet (written be buffer);
  fun d => ((name, bytes) :: d, Ok tt).

(* lindera-dictionary-builder/src/chardef.rs:27-57 *)
Definition write_chardef (be : build_env) (k : dictionary_kind) (dir : str) : writer char_definitions :=
  then text <- quiet (read_text be (kind_encoding k) (join_path dir (lit "char.def")));
  then cd <- quiet (char_def_of text);
  then u <- create (lit "char_def.bin");
  then u <- save be (lit "char_def.bin") (enc_chardef cd);
  quiet (Ok cd).

(* lindera-dictionary-builder/src/unk.rs:29-59 *)
Definition write_unk (be : build_env) (k : dictionary_kind) (dir : str) (cd : char_definitions) : writer unit :=
  then text <- quiet (read_text be (kind_encoding k) (join_path dir (lit "unk.def")));
  then u <- quiet (parse_unk (categories cd) text (unk_fields k));
  then v <- create (lit "unk.bin");
  save be (lit "unk.bin") (enc_unknown u).

(* lindera-dictionary-builder/src/dict.rs:44-257 *)
Definition write_dict (be : build_env) (k : dictionary_kind) (dir : str) : writer unit :=
  let o := kind_dict_options k in
  then rows <- quiet (system_rows be k dir);
  then keyed <- quiet (mapM (fun r => do s <- field r 0; Ok (sys_key o s, r)) rows);
  let rows := map snd (stable_sort (fun a b => str_leb (fst a) (fst b)) keyed) in
  then u <- create (lit "dict.da");
  then u <- create (lit "dict.vals");
  then m <- quiet (sys_entry_map o rows);
  then u <- create (lit "dict.words");
  then u <- create (lit "dict.wordsidx");
  then '(words, index) <- quiet (foldM (add_sys_words o) rows ([], []));
  then u <- save be (lit "dict.words") words;
  then u <- save be (lit "dict.wordsidx") index;
  then da <- quiet (ok_or (be_yada be (keyset_from 0 m)) EIo);
  then u <- save be (lit "dict.da") da;
  save be (lit "dict.vals") (entry_values m).

(* lindera-dictionary-builder/src/cost_matrix.rs:27-80 *)
Definition write_matrix (be : build_env) (k : dictionary_kind) (dir : str) : writer unit :=
  then text <- quiet (read_text be (kind_encoding k) (join_path dir (lit "matrix.def")));
  then m <- quiet (build_matrix text);
  then u <- create (lit "matrix.mtx");
  save be (lit "matrix.mtx") m.

(* .unwrap() instead of ?.  lindera-ko-dic-builder/src/ko_dic_builder.rs:39-42, lindera-cc-cedict-builder/src/cc_cedict_builder.rs:39-42. *)
Definition unwrapping {A} (k : dictionary_kind) (w : writer A) : writer A := fun d => let '(d', r) := w d in (d', unwrapped k r).

(* lindera-ipadic-builder/src/ipadic_builder.rs:36-47, and the same function of the others *)
Definition write_dictionary (be : build_env) (k : dictionary_kind) (dir : str) : writer unit :=
  then cd <- unwrapping k (write_chardef be k dir);
  then u <- unwrapping k (write_unk be k dir cd);
  then u <- unwrapping k (write_dict be k dir);
  unwrapping k (write_matrix be k dir).

(* lindera-ipadic-builder/src/ipadic_builder.rs:49-52 with lindera-dictionary-builder/src/user_dict.rs:164-186.  The file is
   created after everything that can fail. *)
Definition write_user (be : build_env) (k : dictionary_kind) (path name : str) : writer unit :=
  then bytes <- quiet (build_user_file be k path);
  then u <- create name;
  fun d => ((name, bytes) :: d, Ok tt).
