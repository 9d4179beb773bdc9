(** Specification vocabulary: the same dictionaries with other costs. *)
From Coq Require Import List NArith ZArith Bool.
From Verif Require Import MBase MUtf8 MCodec MDict MCharDef MUnk MLattice MTokenizer STok.
Import ListNotations.

(* the entry with the cost that c gives it *)
Definition priced (c : word_entry -> Z) (e : word_entry) : word_entry := WordEntry (we_id e) (c e) (we_left e) (we_right e).

(* A' is A with the word costs c and the connection costs conn *)
Record retuned (c : word_entry -> Z) (conn : N -> N -> Z) (A A' : adict) : Prop := {
  rt_sys : forall k, entries_of (a_sys A') k = map (priced c) (entries_of (a_sys A) k);
  rt_usr : forall k, entries_of (a_usr A') k = map (priced c) (entries_of (a_usr A) k);
  rt_unk : forall k, a_unk A' k = map (priced c) (a_unk A k);
  rt_cats : forall x, a_cats A' x = a_cats A x;
  rt_invoke : forall k, a_invoke A' k = a_invoke A k;
  rt_group : forall k, a_group A' k = a_group A k;
  rt_conn : forall f b, a_conn A' f b = conn f b
}.

(* the words chosen by P cost less by d, the others the same *)
Definition words_less (P : word_id -> bool) (d : Z) (e : word_entry) : Z := if P (we_id e) then (we_cost e - d)%Z else we_cost e.

(* the connections chosen by Q cost less by d, the others the same *)
Definition joins_less (Q : N -> N -> bool) (d : Z) (A : adict) (f b : N) : Z := if Q f b then (a_conn A f b - d)%Z else a_conn A f b.

(* how many of the tokens are words chosen by P *)
Definition token_count (P : word_id -> bool) (ts : list token) : nat := length (filter (fun t => P (tk_word t)) ts).

(* how many of the connections of a segmentation are chosen by Q, the ends of the sentence included *)
Fixpoint joins_from (Q : N -> N -> bool) (f : N) (ws : list word) : nat :=
  match ws with
  | [] => if Q f 0%N then 1 else 0
  | (_, e) :: r => (if Q f (we_left e) then 1 else 0) + joins_from Q (we_right e) r
  end.
Definition join_count (Q : N -> N -> bool) (ws : list word) : nat := joins_from Q 0%N ws.

(* by how much a surface of kanji alone, measured in three bytes, is longer than allowed *)
Definition kanji_excess (p : penalty) (k : str) : nat :=
  if forallb kanji k then blen k / 3 - N.to_nat (kanji_threshold p) else 0.
(* the same for other surfaces; they are measured only if they are longer than both thresholds *)
Definition other_excess (p : penalty) (k : str) : nat :=
  if forallb kanji k then 0
  else if Nat.leb (blen k / 3) (N.to_nat (kanji_threshold p)) then 0 else blen k / 3 - N.to_nat (other_threshold p).
(* summed over tokens *)
Definition excess (f : str -> nat) (ts : list token) : nat := list_sum (map (fun t => f (tk_text t)) ts).

(* the penalty values moved by x and y *)
Definition more_penalty (p : penalty) (x y : Z) : penalty :=
  Penalty (kanji_threshold p) (kanji_penalty p + x) (other_threshold p) (other_penalty p + y).

(* the penalty values multiplied by q *)
Definition scaled_mode (q : Z) (m : mode) : mode :=
  match m with
  | Normal => Normal
  | Decompose p => Decompose (Penalty (kanji_threshold p) (q * kanji_penalty p) (other_threshold p) (q * other_penalty p))
  end.
