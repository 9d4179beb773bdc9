(** Byte-level encodings: byteorder's LittleEndian and WordEntry. *)
From Coq Require Import List NArith ZArith Bool.
From Verif Require Import MBase MUtf8.
Import ListNotations.

(* byteorder LittleEndian::write_uN: n bytes of v, least significant first.  lindera-core/src/word_entry.rs:43-49. *)
Fixpoint le_bytes (n : nat) (v : N) : list N :=
  match n with
  | O => []
  | S k => (v mod 256)%N :: le_bytes k (v / 256)%N
  end.

(* The number with these bytes: lindera-core/src/word_entry.rs:51-62. *)
Fixpoint le_value (bs : list N) : N :=
  match bs with
  | [] => 0%N
  | b :: r => (b + 256 * le_value r)%N
  end.

(* LittleEndian::read_uN(buf): uses the first n bytes, panics if there are fewer.
   lindera-core/src/word_entry.rs:51-62, lindera-core/src/dictionary.rs:27. *)
Definition read_u (n : nat) (bs : list N) : res N :=
  if Nat.ltb (length bs) n then Panic else Ok (le_value (firstn n bs)).

(* write_i16 / read_i16.  lindera-core/src/word_entry.rs:45, lindera-dictionary-builder/src/cost_matrix.rs:68-73. *)
Definition i16_bytes (z : Z) : list N := le_bytes 2 (wrap_u 16 z).
(* lindera-core/src/word_entry.rs:53, lindera-core/src/connection.rs:14-32. *)
Definition read_i16 (bs : list N) : res Z :=
  do v <- read_u 2 bs; Ok (wrap16 (Z.of_N v)).

(* lindera-core/src/word_entry.rs:6-7, WordId *)
Record word_id := WordId { wid : N; wsys : bool }.

(* lindera-core/src/word_entry.rs:9-16 *)
Definition is_unknown (w : word_id) : bool := N.eqb (wid w) u32_max.
(* lindera-core/src/word_entry.rs:13-16. *)
Definition is_system (w : word_id) : bool := wsys w.

(* lindera-core/src/word_entry.rs:18-22 *)
Definition default_word_id : word_id := WordId u32_max true.

(* lindera-core/src/word_entry.rs:24-30 *)
Record word_entry := WordEntry {
  we_id : word_id;
  we_cost : Z;      (* i16 *)
  we_left : N;      (* u16 *)
  we_right : N      (* u16 *)
}.

(* derived Default, lindera-core/src/word_entry.rs:24 *)
Definition default_word_entry : word_entry := WordEntry default_word_id 0 0 0.

(* lindera-core/src/word_entry.rs:33 *)
Definition serialized_len : nat := 10.

(* lindera-core/src/word_entry.rs:43-49, writing into a Vec never fails *)
Definition we_serialize (e : word_entry) : list N :=
  le_bytes 4 (wid (we_id e)) ++ i16_bytes (we_cost e) ++ le_bytes 2 (we_left e) ++ le_bytes 2 (we_right e).

(* lindera-core/src/word_entry.rs:51-62 *)
Definition we_deserialize (data : list N) (is_sys : bool) : res word_entry :=
  do d0 <- slice data 0 4; do i <- read_u 4 d0;
  do d1 <- slice data 4 6; do c <- read_i16 d1;
  do d2 <- slice data 6 8; do l <- read_u 2 d2;
  do d3 <- slice data 8 10; do r <- read_u 2 d3;
  Ok (WordEntry (WordId i is_sys) c l r).
