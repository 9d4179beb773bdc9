(** Specification vocabulary: the details stored in any words files. *)
From Coq Require Import List NArith Bool.
From Verif Require Import MBase MUtf8 MText MDict MBincode.
Import ListNotations.

(* the number with these bytes, the least significant first *)
Fixpoint little (bs : list N) : N := match bs with [] => 0 | b :: r => b + 256 * little r end%N.

(* the bytes bs have, at position at, exactly these *)
Definition bytes_at (bs : list N) (at_ : N) (part : list N) : Prop :=
  exists a c, bs = a ++ part ++ c /\ N.of_nat (length a) = at_.
(* the number of k bytes there *)
Definition number_at (k : nat) (bs : list N) (at_ v : N) : Prop :=
  exists part, bytes_at bs at_ part /\ length part = k /\ v = little part.
Definition size (bs : list N) : N := N.of_nat (length bs).

(* the record of a word: its index entry says where it starts, its first four bytes how long it is *)
Definition record_at (idx words : list N) (id : N) (bytes : list N) : Prop :=
  exists i, number_at 4 idx (4 * id) i /\ number_at 4 words i (size bytes) /\ bytes_at words (i + 4) bytes.
(* fields separated by zero bytes *)
Definition fields_in (bytes : list N) (ds : list str) : Prop :=
  ds <> [] /\ Forall (fun s => valid_str s /\ ~ In 0%N s) ds /\ bytes = utf8 (join [0%N] ds).
(* the index entry is cut off, or the record it points at *)
Definition index_cut (idx : list N) (id : N) : Prop := (4 * id < size idx < 4 * id + 4)%N.
Definition record_cut (idx words : list N) (id : N) : Prop :=
  exists i, number_at 4 idx (4 * id) i /\ ((size words < i + 4)%N \/ exists n, number_at 4 words i n /\ (size words < i + 4 + n)%N).

(* strings as a user dictionary stores them: how many, and for each its number of bytes and its bytes *)
Inductive strings_in : list N -> list str -> list N -> Prop :=
| strings_end rest : strings_in rest [] rest
| strings_more len s bs ds rest : length len = 8 -> little len = size (utf8 s) -> valid_str s -> strings_in bs ds rest ->
    strings_in (len ++ utf8 s ++ bs) (s :: ds) rest.
Definition list_in (bs : list N) (ds : list str) : Prop :=
  exists count more rest, bs = count ++ more /\ length count = 8 /\ little count = N.of_nat (length ds) /\ strings_in more ds rest.
(* what there is from a position on *)
Definition tail_at (bs : list N) (at_ : N) (tail : list N) : Prop := exists a, bs = a ++ tail /\ N.of_nat (length a) = at_.
