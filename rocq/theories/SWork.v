(** How much the search does. *)
From Coq Require Import List NArith ZArith Bool.
From Verif Require Import MBase MUtf8 MCodec MDict MCharDef MUnk MLattice MTokenizer STok.
Import ListNotations.

(* the words that may start where the text goes on with s: dictionary words, and each unknown-word entry of each category of
   the first character *)
Definition words_at (A : adict) (s : str) : nat :=
  match s with
  | [] => 0
  | c :: _ => length (prefix_words (a_usr A) s) + length (prefix_words (a_sys A) s) + list_sum (map (fun k => length (a_unk A k)) (a_cats A c))
  end.
(* at all places of the text *)
Fixpoint words_in (A : adict) (s : str) : nat :=
  match s with
  | [] => 0
  | _ :: r => words_at A s + words_in A r
  end.

(* how many pairs of a left and a right edge the costs are compared for *)
Definition comparisons (l : lattice) : nat :=
  list_sum (map (fun '(lefts, rights) => length lefts * length rights) (combine (ends_at l) (starts_at l))).

(* a dictionary has at most e entries for a surface, and no surface has more than n characters *)
Definition table_size (tbl : list (str * list word_entry)) (n e : nat) : Prop :=
  forall k, length (entries_of tbl k) <= e /\ (entries_of tbl k <> [] -> length k <= n).
Record dict_size (A : adict) (n e c u : nat) : Prop := {
  size_sys : table_size (a_sys A) n e;
  size_usr : table_size (a_usr A) n e;
  size_cats : forall ch, length (a_cats A ch) <= c;
  size_unk : forall k, length (a_unk A k) <= u
}.
