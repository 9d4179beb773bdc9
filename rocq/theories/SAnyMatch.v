(** Specification vocabulary: where a regular expression filter sends positions, whatever it matches and inserts. *)
From Coq Require Import List NArith ZArith Bool.
From Verif Require Import MBase MUtf8 SCharFilter.
Import ListNotations.

(* as source_of, but a position in the text that replaces an empty match goes to the byte before the match, which may be -1 *)
Fixpoint sent_to (segs : list segment) (x : nat) : Z :=
  match segs with
  | [] => Z.of_nat x
  | (i, o) :: r => if Nat.ltb x o then Z.min (Z.of_nat x) (Z.of_nat i - 1) else (Z.of_nat i + sent_to r (x - o))%Z
  end.

(* a number as usize *)
Definition as_usize (z : Z) : N := Z.to_N (z mod 18446744073709551616).

(* the text with each match replaced by what is meant for it *)
Fixpoint with_each (ps : pieces) (vs : list str) (tail : str) : str :=
  match ps, vs with
  | (gap, _) :: ps, v :: vs => gap ++ v ++ with_each ps vs tail
  | _, _ => tail
  end.

(* what the crate regex puts in place of each match *)
Definition put_in (rx : str -> nat * nat -> str -> str) (text r : str) (spans : list (nat * nat)) : list str :=
  map (fun m => if existsb (N.eqb 36) r then rx text m r else r) spans.
