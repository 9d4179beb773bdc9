(** When the arithmetic of the matrix builder fits 32 bits. *)
From Coq Require Import List NArith ZArith Bool.
Import ListNotations.

(* the number of cells and the cell number of every line are less than 2^32 *)
Definition cells_fit (fsize bsize : N) (entries : list (N * N * Z)) : Prop :=
  (fsize * bsize < 4294967296)%N /\ Forall (fun '(f, b, _) => (f * bsize + b < 4294967296)%N) entries.
