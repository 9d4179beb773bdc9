(** Specification vocabulary for unk.def. *)
From Coq Require Import List NArith ZArith Bool.
From Verif Require Import MBase MUtf8 MText.
Import ListNotations.

(* one line of unk.def: the category name, the two context ids, the cost, and as many further fields as the schema has *)
Record unk_line := UnkLine { ul_name : str; ul_left : N; ul_right : N; ul_cost : Z }.

Definition reads_as (fields : nat) (line : str) (u : unk_line) : Prop :=
  length (split_char 44%N line) = fields /\
  exists f1 f2 f3 rest, split_char 44%N line = ul_name u :: f1 :: f2 :: f3 :: rest /\
    parse_u32 f1 = Some (ul_left u) /\ parse_u32 f2 = Some (ul_right u) /\ parse_i32 f3 = Some (ul_cost u).

Definition fits (u : unk_line) : Prop := is_u16 (ul_left u) /\ is_u16 (ul_right u) /\ is_i16 (ul_cost u).

(* the numbers of the lines about a category, first line 0 *)
Definition lines_about (name : str) (us : list unk_line) (ids : list N) : Prop :=
  (forall i j a b, i < j -> nth_error ids i = Some a -> nth_error ids j = Some b -> (a < b)%N) /\
  forall k, In k ids <-> exists u, nth_error us (N.to_nat k) = Some u /\ ul_name u = name.
