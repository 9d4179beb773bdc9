(** Prefix dictionary, connection matrix, dictionaries and their details: lindera-core. *)
From Coq Require Import List NArith ZArith Bool.
From Verif Require Import MBase MUtf8 MText MCodec.
Import ListNotations.

(* yada::DoubleArray.  External crate: a double array is represented by the key/value list it was built from.
   Keys are byte strings.  lindera-core/src/prefix_dict.rs:8-21. *)
Definition double_array := list (list N * N).

(* Equality of keys, for the search of lindera-core/src/prefix_dict.rs:36-75. *)
Fixpoint bytes_eqb (a b : list N) : bool :=
  match a, b with
  | [], [] => true
  | x :: a', y :: b' => (x =? y)%N && bytes_eqb a' b'
  | _, _ => false
  end.

(* DoubleArray::exact_match_search.  lindera-core/src/prefix_dict.rs:58. *)
Fixpoint exact_match_search (da : double_array) (key : list N) : option N :=
  match da with
  | [] => None
  | (k, v) :: r => if bytes_eqb k key then Some v else exact_match_search r key
  end.

(* DoubleArray::common_prefix_search: (value, length) of every key that is a non-empty prefix, shortest first.
   lindera-core/src/prefix_dict.rs:36-40. *)
Definition common_prefix_search (da : double_array) (key : list N) : list (N * nat) :=
  flat_map (fun n => match exact_match_search da (firstn n key) with
                     | Some v => [(v, n)]
                     | None => []
                     end)
           (seq 1 (length key)).

(* lindera-core/src/prefix_dict.rs:14-21 *)
Record prefix_dict := PrefixDict {
  pd_da : double_array;
  pd_vals : list N;
  pd_system : bool
}.

(* lindera-core/src/prefix_dict.rs:39-51 and 60-72: the entries behind one trie value *)
Definition pd_entries (d : prefix_dict) (offset_len : N) : res (list word_entry) :=
  let len := N.land offset_len 31 in
  let offset := N.shiftr offset_len 5 in
  do data <- slice_from (pd_vals d) (N.to_nat offset * serialized_len);
  mapM (fun i => do bs <- slice_from data (serialized_len * i); we_deserialize bs (pd_system d))
       (seq 0 (N.to_nat len)).

(* lindera-core/src/prefix_dict.rs:36-54.  The iterator is consumed completely by all callers. *)
Definition pd_prefix (d : prefix_dict) (s : str) : res (list (nat * word_entry)) :=
  do l <- mapM (fun '(offset_len, prefix_len) =>
                  do es <- pd_entries d offset_len;
                  Ok (map (fun e => (prefix_len, e)) es))
               (common_prefix_search (pd_da d) (utf8 s));
  Ok (concat l).

(* lindera-core/src/prefix_dict.rs:57-75 *)
Definition pd_find_surface (d : prefix_dict) (s : str) : res (list word_entry) :=
  match exact_match_search (pd_da d) (utf8 s) with
  | Some offset_len => pd_entries d offset_len
  | None => Ok []
  end.

(* lindera-core/src/connection.rs:6-10 *)
Record conn_matrix := ConnMatrix { cm_data : list N; cm_backward : N }.

(* lindera-core/src/connection.rs:13-27 (load_static and load build the same value); the i16 size is sign-extended to u32 *)
Definition cm_load (data : list N) : res conn_matrix :=
  do d <- slice data 2 4;
  do b <- read_i16 d;
  do c <- slice_from data 4;
  Ok (ConnMatrix c (wrap_u 32 b)).

(* lindera-core/src/connection.rs:29-32; u32 arithmetic wraps (release profile) *)
Definition cm_cost (m : conn_matrix) (forward_id backward_id : N) : res Z :=
  let cost_id := wrap_u 32 (Z.of_N backward_id + Z.of_N forward_id * Z.of_N (cm_backward m)) in
  let at_ := (2 * cost_id)%N in
  if (N.of_nat (length (cm_data m)) <? at_)%N then Panic   (* &costs_data[cost_id * 2..] *)
  else read_i16 (skipn (N.to_nat at_) (cm_data m)).
