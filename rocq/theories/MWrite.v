(** Builds on a disk where creating and writing files can fail: the BufWriters of
    lindera-dictionary-builder/src/{chardef,unk,dict,cost_matrix,user_dict}.rs.  MDisk.v is the case without such failures. *)
From Coq Require Import String.
From Coq Require Import List NArith ZArith Bool.
From Verif Require Import MBase MUtf8 MText MCodec MDict MCharDef MUnk MBincode MTokenizer MBuild MConfig MBuilders MDisk.
Import ListNotations.
Local Open Scope list_scope.

(* The operating system and the libraries: arbitrary functions.  Whether the output directory (or the parent of the output
   file) can be made; whether a file can be created; of the bytes given to a file, how many get written before the
   writing fails (all of them: it does not fail); the capacity of a BufWriter (8192 in std); the pieces in which
   bincode::serialize_into hands over bytes.
   lindera-ipadic-builder/src/ipadic_builder.rs:37-38, lindera-dictionary-builder/src/dict.rs:108-118,
   lindera-dictionary-builder/src/utils.rs:14-40. *)
Record disk := Disk {
  dk_mkdir : bool;
  dk_create : directory -> str -> bool;
  dk_write : directory -> str -> list N -> nat;
  dk_capacity : N;
  dk_pieces : list N -> list (list N)
}.

(* The directory and what the BufWriters of the files hold back.  lindera-dictionary-builder/src/dict.rs:108-118. *)
Record world := World { w_files : directory; w_held : directory }.

(* the bytes under a name, none if it is not there.  lindera-dictionary-builder/src/dict.rs:108-118. *)
Definition bytes_of (d : directory) (name : str) : list N := match content_of d name with Some b => b | None => [] end.
(* lindera-dictionary-builder/src/dict.rs:108-118 *)
Definition set_held (name : str) (held : list N) (w : world) : world := World (w_files w) ((name, held) :: w_held w).

(* write_all of a File, in BufWriter: what is written before a failure stays.  lindera-dictionary-builder/src/utils.rs:14-40. *)
Definition file_write (dk : disk) (name : str) (bytes : list N) (d : directory) : directory * nat :=
  let n := Nat.min (dk_write dk d name bytes) (List.length bytes) in
  ((name, bytes_of d name ++ firstn n bytes) :: d, n).

(* BufWriter::flush_buf: after a failure the rest is still held.  lindera-dictionary-builder/src/dict.rs:217-222. *)
Definition flush_buf (dk : disk) (name : str) (w : world) : world * bool :=
  match bytes_of (w_held w) name with
  | [] => (w, true)
  | held =>
    let '(d, n) := file_write dk name held (w_files w) in
    (World d ((name, skipn n held) :: w_held w), Nat.eqb n (List.length held))
  end.

(* BufWriter::write_all.  lindera-dictionary-builder/src/utils.rs:14-40. *)
Definition buf_write (dk : disk) (name : str) (chunk : list N) (w : world) : world * bool :=
  let held := bytes_of (w_held w) name in
  let spare := (dk_capacity dk - N.of_nat (List.length held))%N in
  let size := N.of_nat (List.length chunk) in
  if (size <? spare)%N then (set_held name (held ++ chunk) w, true)
  else
    let '(w, ok) := if (spare <? size)%N then flush_buf dk name w else (w, true) in
    if ok then
      if (dk_capacity dk <=? size)%N then
        let '(d, n) := file_write dk name chunk (w_files w) in
        (World d (w_held w), Nat.eqb n (List.length chunk))
      else (set_held name (bytes_of (w_held w) name ++ chunk) w, true)
    else (w, false).
(* several calls of write_all with the operator ? between them.  lindera-dictionary-builder/src/utils.rs:21. *)
Fixpoint buf_writes (dk : disk) (name : str) (chunks : list (list N)) (w : world) : world * bool :=
  match chunks with
  | [] => (w, true)
  | c :: r => let '(w, ok) := buf_write dk name c w in if ok then buf_writes dk name r w else (w, false)
  end.

(* A step of a build.  lindera-dictionary-builder/src/dict.rs:44-257. *)
Definition wstep (A : Type) := world -> world * res A.
(* a step that touches no file.  For instance lindera-dictionary-builder/src/dict.rs:122-170. *)
Definition still {A} (r : res A) : wstep A := fun w => (w, r).
(* the operator ? between steps.  For instance lindera-ipadic-builder/src/ipadic_builder.rs:40-43. *)
Definition wnext {A B} (s : wstep A) (f : A -> wstep B) : wstep B :=
  fun w => match s w with (w', Ok a) => f a w' | (w', Err k) => (w', Err k) | (w', Panic) => (w', Panic) end.
Notation "'and' x <- s ; k" := (wnext s (fun x => k)) (at level 200, x name, s at level 100, k at level 200).
Notation "'and' ' p <- s ; k" := (wnext s (fun p => k)) (at level 200, p strict pattern, s at level 100, k at level 200).

(* .map_err(..)? after a step of a BufWriter.  lindera-dictionary-builder/src/dict.rs:217-222. *)
Definition or_fail (k : error_kind) (s : world -> world * bool) : wstep unit :=
  fun w => let '(w', ok) := s w in (w', if ok then Ok tt else Err k).

(* fs::create_dir_all.  lindera-ipadic-builder/src/ipadic_builder.rs:37-38. *)
Definition make_dir (dk : disk) : wstep unit := still (if dk_mkdir dk then Ok tt else Err EIo).
(* File::create and BufWriter::new.  lindera-dictionary-builder/src/dict.rs:108-118. *)
Definition open_file (dk : disk) (name : str) : wstep unit :=
  fun w => if dk_create dk (w_files w) name then (World ((name, []) :: w_files w) ((name, []) :: w_held w), Ok tt) else (w, Err EIo).
(* compress_write.  lindera-dictionary-builder/src/utils.rs:14-40. *)
Definition put_bytes (dk : disk) (be : build_env) (name : str) (buffer : list N) : wstep unit :=
  and bytes <- still (written be buffer);
  or_fail EIo (buf_writes dk name (if be_compress be then dk_pieces dk bytes else [bytes])).
(* BufWriter::flush.  lindera-dictionary-builder/src/dict.rs:217-222. *)
Definition flushed (dk : disk) (name : str) : wstep unit := or_fail EIo (flush_buf dk name).
(* The end of the scope of BufWriters, by whatever way: each tries to write what it still holds and ignores a failure; what
   is still held then is lost.  lindera-dictionary-builder/src/dict.rs:108-257. *)
Definition drop_writer (dk : disk) (name : str) (w : world) : world := set_held name [] (fst (flush_buf dk name w)).
(* lindera-dictionary-builder/src/dict.rs:108-257 *)
Definition scope {A} (dk : disk) (names : list str) (s : wstep A) : wstep A :=
  fun w => let '(w', r) := s w in (fold_left (fun w name => drop_writer dk name w) names w', r).

(* lindera-dictionary-builder/src/chardef.rs:27-57 *)
Definition put_chardef (dk : disk) (be : build_env) (k : dictionary_kind) (dir : str) : wstep char_definitions :=
  and text <- still (read_text be (kind_encoding k) (join_path dir (lit "char.def")));
  and cd <- still (char_def_of text);
  scope dk [lit "char_def.bin"] (
    and u <- open_file dk (lit "char_def.bin");
    and u <- put_bytes dk be (lit "char_def.bin") (enc_chardef cd);
    and u <- flushed dk (lit "char_def.bin");
    still (Ok cd)).

(* lindera-dictionary-builder/src/unk.rs:29-59 *)
Definition put_unk (dk : disk) (be : build_env) (k : dictionary_kind) (dir : str) (cd : char_definitions) : wstep unit :=
  and text <- still (read_text be (kind_encoding k) (join_path dir (lit "unk.def")));
  and u <- still (parse_unk (categories cd) text (unk_fields k));
  scope dk [lit "unk.bin"] (
    and v <- open_file dk (lit "unk.bin");
    and v <- put_bytes dk be (lit "unk.bin") (enc_unknown u);
    flushed dk (lit "unk.bin")).

(* lindera-dictionary-builder/src/dict.rs:44-257.  There is no flush of dict.da.  The writers are dropped in the reverse
   order of their declaration. *)
Definition put_dict (dk : disk) (be : build_env) (k : dictionary_kind) (dir : str) : wstep unit :=
  let o := kind_dict_options k in
  and rows <- still (system_rows be k dir);
  and keyed <- still (mapM (fun r => do s <- field r 0; Ok (sys_key o s, r)) rows);
  let rows := map snd (stable_sort (fun a b => str_leb (fst a) (fst b)) keyed) in
  scope dk [lit "dict.wordsidx"; lit "dict.words"; lit "dict.vals"; lit "dict.da"] (
    and u <- open_file dk (lit "dict.da");
    and u <- open_file dk (lit "dict.vals");
    and m <- still (sys_entry_map o rows);
    and u <- open_file dk (lit "dict.words");
    and u <- open_file dk (lit "dict.wordsidx");
    and '(words, index) <- still (foldM (add_sys_words o) rows ([], []));
    and u <- put_bytes dk be (lit "dict.words") words;
    and u <- put_bytes dk be (lit "dict.wordsidx") index;
    and u <- flushed dk (lit "dict.words");
    and u <- flushed dk (lit "dict.wordsidx");
    and da <- still (ok_or (be_yada be (keyset_from 0 m)) EIo);
    and u <- put_bytes dk be (lit "dict.da") da;
    and u <- put_bytes dk be (lit "dict.vals") (entry_values m);
    flushed dk (lit "dict.vals")).

(* lindera-dictionary-builder/src/cost_matrix.rs:27-80 *)
Definition put_matrix (dk : disk) (be : build_env) (k : dictionary_kind) (dir : str) : wstep unit :=
  and text <- still (read_text be (kind_encoding k) (join_path dir (lit "matrix.def")));
  and m <- still (build_matrix text);
  scope dk [lit "matrix.mtx"] (
    and u <- open_file dk (lit "matrix.mtx");
    and u <- put_bytes dk be (lit "matrix.mtx") m;
    flushed dk (lit "matrix.mtx")).

(* .unwrap() instead of ?.  lindera-ko-dic-builder/src/ko_dic_builder.rs:39-42, lindera-cc-cedict-builder/src/cc_cedict_builder.rs:39-42. *)
Definition wunwrapping {A} (k : dictionary_kind) (s : wstep A) : wstep A := fun w => let '(w', r) := s w in (w', unwrapped k r).

(* lindera-ipadic-builder/src/ipadic_builder.rs:36-47, and the same function of the others *)
Definition put_dictionary (dk : disk) (be : build_env) (k : dictionary_kind) (dir : str) : wstep unit :=
  and u <- make_dir dk;
  and cd <- wunwrapping k (put_chardef dk be k dir);
  and u <- wunwrapping k (put_unk dk be k dir cd);
  and u <- wunwrapping k (put_dict dk be k dir);
  wunwrapping k (put_matrix dk be k dir).

(* lindera-ipadic-builder/src/ipadic_builder.rs:49-52 with lindera-dictionary-builder/src/user_dict.rs:164-186; name is
   the output file.  That an output path without parent is refused is not modelled. *)
Definition put_user (dk : disk) (be : build_env) (k : dictionary_kind) (path name : str) : wstep unit :=
  and bytes <- still (build_user_file be k path);
  and u <- make_dir dk;
  scope dk [name] (
    and u <- open_file dk name;
    and u <- or_fail ESerialize (buf_writes dk name (dk_pieces dk bytes));
    flushed dk name).

(* a build starts with no writers.  lindera-ipadic-builder/src/ipadic_builder.rs:36-47. *)
Definition put_run {A} (s : wstep A) (d : directory) : directory * res A := let '(w, r) := s (World d []) in (w_files w, r).
