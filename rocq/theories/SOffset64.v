(** Specification vocabulary: offsets corrected with and without overflow checks. *)
From Coq Require Import List NArith ZArith.
From Verif Require Import MBase MUtf8 MCharDef MCharFilter MOffset64 SCharDef.

(* for every position up to the given one, whatever the binary search returns within its contract, the checks find nothing *)
Definition same_corrections (offs : list N) (diffs : list Z) (len upper : nat) : Prop :=
  forall search x, search_contract search -> x <= upper ->
    correct_offset_debug search (N.of_nat x) offs diffs (N.of_nat len) = correct_offset_with search (N.of_nat x) offs diffs (N.of_nat len).
