(** When positions and edge numbers fit 32 bits. *)
From Coq Require Import List NArith ZArith Bool.
From Verif Require Import MBase MUtf8 MLattice STok SWork.
Import ListNotations.

(* the sentence has fewer than 2^32 bytes, and the words that may start at its characters, with the two ends, are at most 2^32 *)
Definition fits_u32 (A : adict) (s : str) : Prop :=
  (Z.of_nat (blen s) < 4294967296 /\ Z.of_nat (words_in A s) + 2 <= 4294967296)%Z.

(* every position and edge number kept in the lattice is a u32 *)
Definition is_u32_nat (n : nat) : Prop := (Z.of_nat n < 4294967296)%Z.
Definition fields_fit (l : lattice) : Prop :=
  (forall e, In e (edges l) -> is_u32_nat (e_start e) /\ is_u32_nat (e_stop e)) /\
  (forall ids id, In ids (starts_at l ++ ends_at l) -> In id ids -> is_u32_nat id).
