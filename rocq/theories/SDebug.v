(** When the arithmetic of the connection matrix fits 32 bits. *)
From Coq Require Import List NArith ZArith Bool.
From Verif Require Import MBase MDict STok.
Import ListNotations.

(* the largest cell number of a pair of connection ids that can be looked up is a u32 *)
Definition small_matrix (c : conn_matrix) (A : adict) : Prop :=
  (Z.of_N (a_bsize A) + Z.of_N (a_fsize A - 1) * Z.of_N (cm_backward c) <= 4294967296)%Z.
