(** Specification vocabulary: decisions with a margin. *)
From Coq Require Import List NArith ZArith Bool.
From Verif Require Import MBase MUtf8 MCodec MDict MCharDef MUnk MLattice MTokenizer STok.
Import ListNotations.

(* every other segmentation that the search may choose costs more than the answer by more than g *)
Definition clear (A : adict) (m : mode) (s : str) (g : Z) : Prop :=
  forall W Act x y, searched A m s W Act -> exact_answer A m s x -> seg W [] s y -> y <> x -> (seg_cost A m x + g < seg_cost A m y)%Z.

(* the numbers differ by at most d *)
Definition near (d x y : Z) : Prop := (Z.abs (x - y) <= d)%Z.

(* what changes by d of each word cost, connection cost and penalty can do to the difference of two segmentations: there
   are at most as many words as characters and one connection more than words *)
Definition slack (d : Z) (s : str) : Z := (2 * d * (3 * Z.of_nat (List.length s) + 1))%Z.

(* the words chosen by P cost about -c, all other words, the connections and the penalties about nothing *)
Definition two_levels (P : word_id -> bool) (c d : Z) (A : adict) (m : mode) : Prop :=
  (forall s k e, valid_str s -> candidate A s k e -> near d (we_cost e) (if P (we_id e) then - c else 0) /\ near d (surface_penalty m k) 0) /\
  (forall f b, (f < a_fsize A)%N -> (b < a_bsize A)%N -> near d (a_conn A f b) 0).

(* how many words of a segmentation are chosen by P *)
Definition word_count (P : word_id -> bool) (ws : list word) : nat := List.length (filter (fun w : word => P (we_id (snd w))) ws).
