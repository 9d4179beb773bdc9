(** The dictionary builders in a debug build: as MBuild.v and MCharDef.v, but additions and products of u32 numbers outside of
    the type panic.  Casts (`as`) and shifts by 5 never panic; usize arithmetic on lengths is not checked. *)
From Coq Require Import List NArith ZArith Bool.
From Verif Require Import MBase MUtf8 MText MCodec MDict MCharDef MBuild MLattice MTokenizer MLattice32 MDebug.
Import ListNotations.

(* lindera-dictionary-builder/src/cost_matrix.rs:52-57: one data line; the product is computed first, then the sum *)
Definition set_matrix_line_debug (backward_size : N) (costs : list Z) (fields : list Z) : res (list Z) :=
  do f <- field_u32 fields 0;
  do b <- field_u32 fields 1;
  do c <- idx fields 2;
  do product <- checked_u32 (Z.of_N f * Z.of_N backward_size);
  do i <- checked_u32 (Z.of_N b + Z.of_N product);
  set_cost costs (2 + i) (wrap16 c).

(* lindera-dictionary-builder/src/cost_matrix.rs:27-73: the bytes of matrix.mtx before compression *)
Definition build_matrix_debug (content : str) : res (list N) :=
  do ls <- mapM parse_matrix_line (lines content);
  match ls with
  | [] => Err EContent
  | header :: data =>
    do fsize <- field_u32 header 0;
    do bsize <- field_u32 header 1;
    do cells <- checked_u32 (Z.of_N fsize * Z.of_N bsize);
    let costs := wrap16 (Z.of_N fsize) :: wrap16 (Z.of_N bsize) :: repeat i16_max (N.to_nat cells) in
    do costs <- foldM (set_matrix_line_debug bsize) data costs;
    Ok (flat_map i16_bytes costs)
  end.

(* lindera-dictionary-builder/src/dict.rs:225-233 / lindera-dictionary-builder/src/user_dict.rs:126-135: `id += len` is checked, also after
   the last key *)
Fixpoint keyset_debug (id : N) (m : entry_map) : res (list (list N * N)) :=
  match m with
  | [] => Ok []
  | (k, es) :: r =>
    let len := wrap_u 32 (Z.of_nat (length es)) in
    do next <- checked_u32 (Z.of_N id + Z.of_N len);
    do rest <- keyset_debug next r;
    Ok ((utf8 k, N.lor (wrap_u 32 (Z.of_N (N.shiftl id 5))) len) :: rest)
  end.

(* lindera-dictionary-builder/src/dict.rs:45-257, as build_dict in MBuild.v *)
Definition build_dict_debug (o : dict_options) (rows : list row) : res dict_files :=
  do keyed <- mapM (fun r => do s <- field r 0; Ok (sys_key o s, r)) rows;
  let rows := map snd (stable_sort (fun a b => str_leb (fst a) (fst b)) keyed) in
  do m <- sys_entry_map o rows;
  do '(words, index) <- foldM (add_sys_words o) rows ([], []);
  do keyset <- keyset_debug 0 m;
  do da <- ok_or (da_build keyset) EIo;
  Ok (DictFiles da (entry_values m) words index).

(* lindera-dictionary-builder/src/user_dict.rs:41-161, as build_user in MBuild.v *)
Definition build_user_debug (o : user_options) (rows : list row) : res user_dictionary :=
  do keyed <- mapM (fun r => do s <- field r 0; Ok (s, r)) rows;
  let rows := map snd (stable_sort (fun a b => str_leb (fst a) (fst b)) keyed) in
  do m <- user_entry_map o rows;
  do '(words, index) <- foldM (add_user_words o) rows ([], []);
  do keyset <- keyset_debug 0 m;
  do da <- ok_or (da_build keyset) EIo;
  Ok (UserDictionary (PrefixDict da (entry_values m) false) index words).

(* lindera-core/src/character_definition.rs:136-144 with `*high + 1u32` checked *)
Definition b_build_lookup_table_debug (b : builder) : res lookup_table :=
  do bounds <- mapM (fun '(low, high, _) => do next <- checked_u32 (Z.of_N high + 1); Ok [low; next]) (b_ranges b);
  let set := fold_left (fun s x => set_insert x s) (concat bounds) [] in
  Ok (lt_from_fn set (b_lookup_categories b)).

(* lindera-core/src/character_definition.rs:231-244 and lindera-dictionary-builder/src/chardef.rs:26-57, as char_def_of in MCharDef.v *)
Definition char_def_of_debug (content : str) : res char_definitions :=
  do b <- b_parse empty_builder content;
  do table <- b_build_lookup_table_debug b;
  Ok (CharDefinitions (b_definition b) (b_index b) table).
