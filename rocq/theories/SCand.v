(** Specification vocabulary: the whole list of candidates at a position, and the tokens of several sentences. *)
From Coq Require Import List NArith ZArith Bool.
From Verif Require Import MBase MUtf8 MCodec MDict MCharDef MUnk MLattice MTokenizer STok.
Import ListNotations.

(* the unknown words that category k, which has rank ord at the first character of s, gives at the start of s: one for
   each of its entries, or none if the category is not to be invoked and a dictionary word starts here *)
Inductive unknown_block (A : adict) (s : str) (ord k : nat) : list word -> Prop :=
| block_made : forall w, a_invoke A k = true \/ no_dict_word A s -> unk_span A ord k s w -> unknown_block A s ord k (map (pair w) (a_unk A k))
| block_none : a_invoke A k = false -> ~ no_dict_word A s -> unknown_block A s ord k [].

(* one block for each category of the first character, by rank *)
Definition unknown_blocks (A : adict) (c : char) (r : str) (blocks : list (list word)) : Prop :=
  List.length blocks = List.length (a_cats A c) /\
  forall ord k, has_cat A ord k c -> exists b, nth_error blocks ord = Some b /\ unknown_block A (c :: r) ord k b.

(* the place after pre is strictly inside an unknown word span that starts before it *)
Definition under_unknown (A : adict) (text pre : str) : Prop :=
  exists pre' c r ord k w, text = pre' ++ c :: r /\ has_cat A ord k c /\ (a_invoke A k = true \/ no_dict_word A (c :: r)) /\
    unk_span A ord k (c :: r) w /\ blen pre' < blen pre < blen pre' + blen w.

(* the edge of that kind for the word *)
Definition edge_for (ty : edge_type) (pre : str) (w : word) (ed : edge) : Prop := e_type ed = ty /\ edge_over ed pre (fst w) (snd w).

(* the edges that start at byte p, in the order in which they were made *)
Definition starting_at (l : lattice) (p : nat) : list edge := filter (fun ed => Nat.eqb (e_start ed) p) (word_edges l).

(* the token lists of several texts, one text after the other *)
Fixpoint placed (tss : list (list token)) : list token :=
  match tss with
  | [] => []
  | ts :: r => ts ++ map (shift_token (end_of ts) (List.length ts)) (placed r)
  end.
