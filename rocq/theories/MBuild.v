(** Dictionary builders: lindera-dictionary-builder/src/dict.rs, user_dict.rs, cost_matrix.rs.
    The CSV reader is external: a row is the list of its fields, at least one. *)
From Coq Require Import String.
From Coq Require Import List NArith ZArith Bool.
From Verif Require Import MBase MUtf8 MText MCodec MDict MCharDef MUnk MBincode MTokenizer.
Import ListNotations.
Local Open Scope list_scope.

(* csv::StringRecord: lindera-dictionary-builder/src/dict.rs:95-98, lindera-dictionary-builder/src/user_dict.rs:50-55. *)
Definition row := list str.

(* csv::StringRecord as Index<usize>: panics out of range.  lindera-dictionary-builder/src/dict.rs:102-169. *)
Definition field (r : row) (i : nat) : res str := idx r i.

(* <str as Ord>::cmp: lexicographic on the bytes.  le_bytes_str a b = (a <= b).
   lindera-dictionary-builder/src/dict.rs:102-106. *)
Fixpoint bytes_leb (a b : list N) : bool :=
  match a, b with
  | [], _ => true
  | _ :: _, [] => false
  | x :: a', y :: b' => if (x <? y)%N then true else if (y <? x)%N then false else bytes_leb a' b'
  end.
(* lindera-dictionary-builder/src/dict.rs:102-106, lindera-dictionary-builder/src/user_dict.rs:56. *)
Definition str_leb (a b : str) : bool := bytes_leb (utf8 a) (utf8 b).

(* slice::sort_by / sort_by_key: stable.  All stable sorts give the same result; this one inserts from the right.
   lindera-dictionary-builder/src/dict.rs:102-106, lindera-dictionary-builder/src/user_dict.rs:56. *)
Fixpoint insert_by {A} (leb : A -> A -> bool) (x : A) (l : list A) : list A :=
  match l with
  | [] => [x]
  | y :: r => if leb x y then x :: l else y :: insert_by leb x r
  end.
(* lindera-dictionary-builder/src/dict.rs:102-106, lindera-dictionary-builder/src/user_dict.rs:56. *)
Fixpoint stable_sort {A} (leb : A -> A -> bool) (l : list A) : list A :=
  match l with [] => [] | x :: r => insert_by leb x (stable_sort leb r) end.

(* BTreeMap<String, Vec<WordEntry>>: strictly sorted association list.  lindera-dictionary-builder/src/dict.rs:120. *)
Definition entry_map := list (str * list word_entry).

(* map.entry(key).or_default().push(e).
   lindera-dictionary-builder/src/dict.rs:159-169, lindera-dictionary-builder/src/user_dict.rs:84-89. *)
Fixpoint map_push (k : str) (e : word_entry) (m : entry_map) : entry_map :=
  match m with
  | [] => [(k, [e])]
  | (k', es) :: r =>
    if str_eqb k k' then (k', es ++ [e]) :: r
    else if str_leb k k' then (k, [e]) :: m
    else (k', es) :: map_push k e r
  end.

(* lindera-dictionary-builder/src/dict.rs:260-262: '―' to '—', '～' to '〜' *)
Definition normalize_char (c : char) : char :=
  let c := if (c =? 0x2015)%N then 0x2014%N else c in
  if (c =? 0xFF5E)%N then 0x301C%N else c.
(* lindera-dictionary-builder/src/dict.rs:260-262 *)
Definition normalize (s : str) : str := map normalize_char s.

(* lindera-dictionary-builder/src/dict.rs:26-41; flexible_csv, encoding and compress_algorithm do not matter here *)
Record dict_options := DictOptions { o_normalize : bool; o_skip_invalid : bool }.

(* lindera-dictionary-builder/src/dict.rs:102-106 and 159-163 *)
Definition sys_key (o : dict_options) (surface : str) : str := if o_normalize o then normalize surface else surface.

(* `match T::from_str(field.trim()) { Ok(v) => v, Err(_) => if skip { continue } else { return Err(Parse) } }`.
   lindera-dictionary-builder/src/dict.rs:123-158. *)
Definition parsed {A} (o : dict_options) (p : option A) : res (option A) :=
  match p with
  | Some v => Ok (Some v)
  | None => if o_skip_invalid o then Ok None else Err EParse
  end.

(* lindera-dictionary-builder/src/dict.rs:122-169, one row; None = `continue` *)
Definition sys_entry (o : dict_options) (row_id : N) (r : row) : res (option (str * word_entry)) :=
  do f3 <- field r 3;
  do cost <- parsed o (parse_i16 (trim f3));
  match cost with
  | None => Ok None
  | Some cost =>
    do f1 <- field r 1;
    do lid <- parsed o (parse_u16 (trim f1));
    match lid with
    | None => Ok None
    | Some lid =>
      do f2 <- field r 2;
      do rid <- parsed o (parse_u16 (trim f2));
      match rid with
      | None => Ok None
      | Some rid =>
        do f0 <- field r 0;
        Ok (Some (sys_key o f0, WordEntry (WordId (wrap_u 32 (Z.of_N row_id)) true) cost lid rid))
      end
    end
  end.

(* rows.iter().enumerate().  lindera-dictionary-builder/src/dict.rs:122, lindera-dictionary-builder/src/user_dict.rs:60. *)
Fixpoint number_from {A} (i : N) (l : list A) : list (N * A) :=
  match l with [] => [] | x :: r => (i, x) :: number_from (i + 1) r end.

(* lindera-dictionary-builder/src/dict.rs:120-170: the loop over the rows *)
Definition sys_entry_map (o : dict_options) (rows : list row) : res entry_map :=
  foldM (fun m '(i, r) =>
           do e <- sys_entry o i r;
           Ok (match e with Some (k, w) => map_push k w m | None => m end))
        (number_from 0 rows) [].

(* lindera-dictionary-builder/src/dict.rs:192-200: the details of a row *)
Definition sys_details (o : dict_options) (r : row) : list str :=
  if o_normalize o then map normalize (skipn 4 r) else skipn 4 r.

(* lindera-dictionary-builder/src/dict.rs:184-209: words_buffer and words_idx_buffer; `offset as u32` truncates (le_bytes 4) *)
Definition add_sys_words (o : dict_options) (st : list N * list N) (r : row) : res (list N * list N) :=
  let '(words, index) := st in
  let joined := utf8 (join [0%N] (sys_details o r)) in
  if (u32_max <? N.of_nat (length joined))%N then Err ESerialize
  else Ok (words ++ le_bytes 4 (N.of_nat (length joined)) ++ joined,
           index ++ le_bytes 4 (N.of_nat (length words))).

(* lindera-dictionary-builder/src/dict.rs:225-233 / lindera-dictionary-builder/src/user_dict.rs:126-135: the keys with their values; u32 arithmetic (release profile) *)
Fixpoint keyset_from (id : N) (m : entry_map) : list (list N * N) :=
  match m with
  | [] => []
  | (k, es) :: r =>
    let len := wrap_u 32 (Z.of_nat (length es)) in
    (utf8 k, N.lor (wrap_u 32 (Z.of_N (N.shiftl id 5))) len) :: keyset_from (wrap_u 32 (Z.of_N (id + len))) r
  end.

(* lindera-dictionary-builder/src/dict.rs:241-248 / lindera-dictionary-builder/src/user_dict.rs:140-148 *)
Definition entry_values (m : entry_map) : list N := flat_map (fun '(_, es) => flat_map we_serialize es) m.

(* yada DoubleArrayBuilder::build: external; on at least one key, sorted distinct keys without NUL bytes and values below 2^31 the result
   stands for the key set.  Outside of these conditions the model says nothing: the theorems assume them.
   lindera-dictionary-builder/src/dict.rs:235, lindera-dictionary-builder/src/user_dict.rs:136. *)
Definition da_build (keyset : list (list N * N)) : option double_array := Some keyset.

(* The files written by DictBuilder::build, before compression.  lindera-dictionary-builder/src/dict.rs:108-257. *)
Record dict_files := DictFiles { f_da : double_array; f_vals : list N; f_words : list N; f_words_idx : list N }.

(* lindera-dictionary-builder/src/dict.rs:45-257, after reading the CSV files *)
Definition build_dict (o : dict_options) (rows : list row) : res dict_files :=
  do keyed <- mapM (fun r => do s <- field r 0; Ok (sys_key o s, r)) rows;
  let rows := map snd (stable_sort (fun a b => str_leb (fst a) (fst b)) keyed) in
  do m <- sys_entry_map o rows;
  do '(words, index) <- foldM (add_sys_words o) rows ([], []);
  do da <- ok_or (da_build (keyset_from 0 m)) EIo;
  Ok (DictFiles da (entry_values m) words index).

(* PrefixDict::from_static_slice (lindera-core/src/prefix_dict.rs:23-33) *)
Definition loaded_dict (f : dict_files) : prefix_dict := PrefixDict (f_da f) (f_vals f) true.

(* lindera-dictionary-builder/src/user_dict.rs:20-38 *)
Record user_options := UserOptions {
  uo_simple_fields : nat;
  uo_detailed_fields : nat;
  uo_simple_cost : Z;
  uo_simple_context : N;
  uo_handler : option (row -> res (list str))
}.

(* lindera-dictionary-builder/src/user_dict.rs:62 and 95 *)
Definition is_simple (o : user_options) (r : row) : bool := Nat.eqb (length r) (uo_simple_fields o).

(* lindera-dictionary-builder/src/user_dict.rs:60-90, one row *)
Definition user_entry (o : user_options) (row_id : N) (r : row) : res (str * word_entry) :=
  do surface <- field r 0;
  do cost <- (if is_simple o r then Ok (uo_simple_cost o)
              else do f3 <- field r 3; ok_or (parse_i16 f3) EParse);
  do ids <- (if is_simple o r then Ok (uo_simple_context o, uo_simple_context o)
             else do f1 <- field r 1; do l <- ok_or (parse_u16 f1) EParse;
                  do f2 <- field r 2; do r <- ok_or (parse_u16 f2) EParse; Ok (l, r));
  let '(lid, rid) := ids in
  Ok (surface, WordEntry (WordId (wrap_u 32 (Z.of_N row_id)) false) cost lid rid).

(* lindera-dictionary-builder/src/user_dict.rs:59-91 *)
Definition user_entry_map (o : user_options) (rows : list row) : res entry_map :=
  foldM (fun m '(i, r) => do '(k, w) <- user_entry o i r; Ok (map_push k w m)) (number_from 0 rows) [].

(* lindera-dictionary-builder/src/user_dict.rs:96-117 *)
Definition user_details (o : user_options) (r : row) : res (list str) :=
  if is_simple o r then
    match uo_handler o with Some h => h r | None => Ok (skipn 1 r) end
  else if Nat.leb (uo_detailed_fields o) (length r) then Ok (skipn 4 r)
  else Err EContent.

(* lindera-dictionary-builder/src/user_dict.rs:93-124 *)
Definition add_user_words (o : user_options) (st : list N * list N) (r : row) : res (list N * list N) :=
  let '(words, index) := st in
  do details <- user_details o r;
  Ok (words ++ enc_vec enc_string details, index ++ le_bytes 4 (N.of_nat (length words))).

(* lindera-dictionary-builder/src/user_dict.rs:41-161, after reading the CSV file *)
Definition build_user (o : user_options) (rows : list row) : res user_dictionary :=
  do keyed <- mapM (fun r => do s <- field r 0; Ok (s, r)) rows;
  let rows := map snd (stable_sort (fun a b => str_leb (fst a) (fst b)) keyed) in
  do m <- user_entry_map o rows;
  do '(words, index) <- foldM (add_user_words o) rows ([], []);
  do da <- ok_or (da_build (keyset_from 0 m)) EIo;
  Ok (UserDictionary (PrefixDict da (entry_values m) false) index words).

(** ** The five dictionary kinds *)

(* lindera-dictionary/src/lib.rs:25-36 *)
Inductive dictionary_kind := IPADIC | IPADICNEologd | UniDic | KoDic | CcCedict.

(* "*": lindera-ipadic-builder/src/ipadic_builder.rs:108-120 *)
Definition star : str := [42%N].

(* *-builder/src/*_builder.rs, simple_userdic_details_handler (ipadic 108-120, neologd 103-115, unidic 103-123,
   ko-dic 102-113, cc-cedict 103-114) *)
Definition simple_details (k : dictionary_kind) (r : row) : res (list str) :=
  do f1 <- field r 1;
  match k with
  | IPADIC | IPADICNEologd =>
    do f0 <- field r 0; do f2 <- field r 2;
    Ok [f1; star; star; star; star; star; f0; f2; star]
  | UniDic =>
    do f2 <- field r 2;
    Ok [f1; star; star; star; star; star; f2; star; star; star; star; star; star; star; star; star; star]
  | KoDic =>
    do f2 <- field r 2;
    Ok [f1; star; star; f2; star; star; star; star]
  | CcCedict =>
    do f2 <- field r 2;
    Ok [f1; star; star; star; f2; star; star; star]
  end.

(* constants at the head of the builders: SIMPLE_USERDIC_FIELDS_NUM, DETAILED_USERDIC_FIELDS_NUM, SIMPLE_WORD_COST,
   SIMPLE_CONTEXT_ID.
   lindera-ipadic-builder/src/ipadic_builder.rs:16, lindera-ipadic-neologd-builder/src/ipadic_neologd_builder.rs:16, lindera-unidic-builder/src/unidic_builder.rs:17, lindera-ko-dic-builder/src/ko_dic_builder.rs:16, lindera-cc-cedict-builder/src/cc_cedict_builder.rs:16. *)
Definition detailed_fields (k : dictionary_kind) : nat :=
  match k with IPADIC => 13 | IPADICNEologd => 13 | UniDic => 21 | KoDic => 12 | CcCedict => 12 end.
(* lindera-ipadic-builder/src/ipadic_builder.rs:13-16 and 98-121, and the same lines of the others *)
Definition kind_user_options (k : dictionary_kind) : user_options :=
  UserOptions 3 (detailed_fields k) (-10000)%Z 0%N (Some (simple_details k)).

(* build_dict of the builders: normalize_details for the two IPADICs, skip_invalid_cost_or_id for CC-CEDICT.
   lindera-ipadic-builder/src/ipadic_builder.rs:86, lindera-ipadic-neologd-builder/src/ipadic_neologd_builder.rs:82, lindera-cc-cedict-builder/src/cc_cedict_builder.rs:82. *)
Definition kind_dict_options (k : dictionary_kind) : dict_options :=
  match k with
  | IPADIC | IPADICNEologd => DictOptions true false
  | UniDic | KoDic => DictOptions false false
  | CcCedict => DictOptions false true
  end.

(* UNK_FIELDS_NUM.
   lindera-ipadic-builder/src/ipadic_builder.rs:18, lindera-ipadic-neologd-builder/src/ipadic_neologd_builder.rs:18, lindera-unidic-builder/src/unidic_builder.rs:19, lindera-ko-dic-builder/src/ko_dic_builder.rs:18, lindera-cc-cedict-builder/src/cc_cedict_builder.rs:18. *)
Definition unk_fields (k : dictionary_kind) : nat :=
  match k with IPADIC => 11 | IPADICNEologd => 11 | UniDic => 10 | KoDic => 12 | CcCedict => 10 end.

(** ** matrix.def *)

(* lindera-dictionary-builder/src/cost_matrix.rs:33-41: one line *)
Definition parse_matrix_line (line : str) : res (list Z) :=
  mapM (fun f => ok_or (parse_i32 f) EParse) (split_whitespace line).

(* `fields[i] as u32`.  lindera-dictionary-builder/src/cost_matrix.rs:46-55. *)
Definition field_u32 (fields : list Z) (i : nat) : res N := do v <- idx fields i; Ok (wrap_u 32 v).

(* costs[i] = v, panics out of range; the index is an N.  lindera-dictionary-builder/src/cost_matrix.rs:50-56. *)
Definition set_cost (costs : list Z) (i : N) (v : Z) : res (list Z) :=
  if (i <? N.of_nat (length costs))%N then Ok (upd costs (N.to_nat i) v) else Panic.

(* lindera-dictionary-builder/src/cost_matrix.rs:52-57: one data line; the index is computed in u32 (release profile), then 2 is added as usize *)
Definition set_matrix_line (backward_size : N) (costs : list Z) (fields : list Z) : res (list Z) :=
  do f <- field_u32 fields 0;
  do b <- field_u32 fields 1;
  do c <- idx fields 2;
  set_cost costs (2 + wrap_u 32 (Z.of_N b + Z.of_N f * Z.of_N backward_size)) (wrap16 c).

(* lindera-dictionary-builder/src/cost_matrix.rs:27-73: the bytes of matrix.mtx before compression *)
Definition build_matrix (content : str) : res (list N) :=
  do ls <- mapM parse_matrix_line (lines content);
  match ls with
  | [] => Err EContent
  | header :: data =>
    do fsize <- field_u32 header 0;
    do bsize <- field_u32 header 1;
    let cells := wrap_u 32 (Z.of_N fsize * Z.of_N bsize) in
    let costs := wrap16 (Z.of_N fsize) :: wrap16 (Z.of_N bsize) :: repeat i16_max (N.to_nat cells) in
    do costs <- foldM (set_matrix_line bsize) data costs;
    Ok (flat_map i16_bytes costs)
  end.
