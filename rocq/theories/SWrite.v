(** Specification vocabulary for builds on a disk where creating and writing files can fail. *)
From Coq Require Import List NArith Bool.
From Verif Require Import MBase MDisk MWrite.
Import ListNotations.

(* bincode hands over all bytes in order *)
Definition whole_pieces (dk : disk) : Prop := forall bytes, concat (dk_pieces dk bytes) = bytes.

(* nothing fails *)
Definition faultless (dk : disk) : Prop :=
  dk_mkdir dk = true /\ (forall d name, dk_create dk d name = true) /\ (forall d name bytes, List.length bytes <= dk_write dk d name bytes).

(* a prefix of the bytes, at most as many missing as a buffer holds *)
Definition almost (dk : disk) (bytes kept : list N) : Prop :=
  exists lost, bytes = kept ++ lost /\ (N.of_nat (List.length lost) <= dk_capacity dk)%N.
