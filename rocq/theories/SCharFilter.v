(** Specification vocabulary for the character filters. *)
From Coq Require Import List NArith ZArith Bool.
From Verif Require Import MBase MUtf8.
Import ListNotations.

(* A filter cuts its input into segments and replaces each: (bytes in the input, bytes in the output) from left to right *)
Definition segment := (nat * nat)%type.
Definition in_total (segs : list segment) : nat := fold_right (fun '(i, _) n => i + n) 0 segs.
Definition out_total (segs : list segment) : nat := fold_right (fun '(_, o) n => o + n) 0 segs.

(* the input position of an output position: inside a segment the position is counted from the segment's start, but stays
   before its last byte's end; a position at the end of segments is past all of them, also those without output *)
Fixpoint source_of (segs : list segment) (x : nat) : nat :=
  match segs with
  | [] => x
  | (i, o) :: r => if Nat.ltb x o then Nat.min x (i - 1) else i + source_of r (x - o)
  end.

(* lengths Rust can represent *)
Definition fits_isize (n : nat) : Prop := (N.of_nat n < 9223372036854775808)%N.

(* leftmost-longest replacement of the keys of m *)
Inductive replaced (m : list (str * str)) : str -> str -> list segment -> Prop :=
| replaced_end : replaced m [] [] []
| replaced_key k v rest out segs :
    In (k, v) m -> k <> [] ->
    (forall k' v' t, In (k', v') m -> k ++ rest = k' ++ t -> length k' <= length k) ->
    replaced m rest out segs ->
    replaced m (k ++ rest) (v ++ out) ((blen k, blen v) :: segs)
| replaced_char c rest out segs :
    (forall k v t, In (k, v) m -> c :: rest <> k ++ t) ->
    replaced m rest out segs ->
    replaced m (c :: rest) (c :: out) ((width c, width c) :: segs).

(* a text cut up at the matches of a regular expression: (text before the match, match) from left to right, and the rest *)
Definition pieces := list (str * str).
Definition whole (ps : pieces) (tail : str) : str := flat_map (fun '(gap, m) => gap ++ m) ps ++ tail.
Definition with_replaced (r : str) (ps : pieces) (tail : str) : str := flat_map (fun '(gap, _) => gap ++ r) ps ++ tail.
Fixpoint match_spans (start : nat) (ps : pieces) : list (nat * nat) :=
  match ps with
  | [] => []
  | (gap, m) :: r => (start + blen gap, start + blen gap + blen m) :: match_spans (start + blen gap + blen m) r
  end.
Definition match_segments (r : str) (ps : pieces) (tail : str) : list segment :=
  flat_map (fun '(gap, m) => [(blen gap, blen gap); (blen m, blen r)]) ps ++ [(blen tail, blen tail)].

(* what an offset correction has to do, for a filter that replaced these segments: every boundary of segments goes to the
   boundary in the input (behind the segments that were deleted there), the order is kept and the input is not left *)
Definition points_back (segs : list segment) (correct : nat -> res N) : Prop :=
  exists f : nat -> nat,
    (forall x, x <= out_total segs -> correct x = Ok (N.of_nat (f x)) /\ f x <= in_total segs) /\
    (forall p q, segs = p ++ q -> match q with [] => True | (_, o) :: _ => 0 < o end -> f (out_total p) = in_total p) /\
    (forall x y, x <= y -> f x <= f y).

(* the mappings meant: one value per key, at least one, keys not empty and without NUL (which yada cannot store) *)
Definition mapping_keys_ok (m : list (str * str)) : Prop :=
  m <> [] /\ NoDup (map fst m) /\ Forall (fun '(k, _) => k <> [] /\ valid_str k /\ ~ In 0%N k) m /\ (N.of_nat (length m) < 2147483648)%N.

(* each grapheme is replaced by its normal form *)
Definition grapheme_segments (form : str -> str) (gs : list str) : list segment := map (fun g => (blen g, blen (form g))) gs.

(** Kana and iteration marks *)

(* か/が to ほ/ぼ *)
Definition voiced_hiragana : list (N * N) :=
  [(0x304b, 0x304c); (0x304d, 0x304e); (0x304f, 0x3050); (0x3051, 0x3052); (0x3053, 0x3054);
   (0x3055, 0x3056); (0x3057, 0x3058); (0x3059, 0x305a); (0x305b, 0x305c); (0x305d, 0x305e);
   (0x305f, 0x3060); (0x3061, 0x3062); (0x3064, 0x3065); (0x3066, 0x3067); (0x3068, 0x3069);
   (0x306f, 0x3070); (0x3072, 0x3073); (0x3075, 0x3076); (0x3078, 0x3079); (0x307b, 0x307c)]%N.
(* カ/ガ to ホ/ボ *)
Definition voiced_katakana : list (N * N) :=
  [(0x30ab, 0x30ac); (0x30ad, 0x30ae); (0x30af, 0x30b0); (0x30b1, 0x30b2); (0x30b3, 0x30b4);
   (0x30b5, 0x30b6); (0x30b7, 0x30b8); (0x30b9, 0x30ba); (0x30bb, 0x30bc); (0x30bd, 0x30be);
   (0x30bf, 0x30c0); (0x30c1, 0x30c2); (0x30c4, 0x30c5); (0x30c6, 0x30c7); (0x30c8, 0x30c9);
   (0x30cf, 0x30d0); (0x30d2, 0x30d3); (0x30d5, 0x30d6); (0x30d8, 0x30d9); (0x30db, 0x30dc)]%N.

Definition voice (pairs : list (N * N)) (c : char) : char :=
  match find (fun '(a, _) => (a =? c)%N) pairs with Some (_, b) => b | None => c end.
Definition unvoice (pairs : list (N * N)) (c : char) : char :=
  match find (fun '(_, b) => (b =? c)%N) pairs with Some (a, _) => a | None => c end.

(* the marks 々 ゝ ゞ ヽ ヾ with the switch that enables them and what they do to the repeated character *)
Definition mark_action (kanji kana : bool) (mark : char) : option (char -> char) :=
  if (mark =? 0x3005)%N then (if kanji then Some (fun c => c) else None)
  else if (mark =? 0x309d)%N then (if kana then Some (unvoice voiced_hiragana) else None)
  else if (mark =? 0x309e)%N then (if kana then Some (voice voiced_hiragana) else None)
  else if (mark =? 0x30fd)%N then (if kana then Some (unvoice voiced_katakana) else None)
  else if (mark =? 0x30fe)%N then (if kana then Some (voice voiced_katakana) else None)
  else None.

(* positions s to s+n-1 are all the marks of a run *)
Definition is_mark_at (kanji kana : bool) (text : str) (p : nat) : Prop :=
  exists c f, nth_error text p = Some c /\ mark_action kanji kana c = Some f.
Definition mark_run (kanji kana : bool) (text : str) (s n : nat) : Prop :=
  (forall p, s <= p < s + n -> is_mark_at kanji kana text p) /\
  (s = 0 \/ ~ is_mark_at kanji kana text (s - 1)) /\
  ~ is_mark_at kanji kana text (s + n).

Definition marks_expanded (kanji kana : bool) (text out : str) : Prop :=
  length out = length text /\
  forall p c, nth_error text p = Some c ->
    match mark_action kanji kana c with
    | None => nth_error out p = Some c
    | Some f => exists s n c', mark_run kanji kana text s n /\ s <= p < s + n /\
                  nth_error text (p - Nat.min n s) = Some c' /\ nth_error out p = Some (f c')
    end.

(* the marks repeat characters of three bytes *)
Definition repeats_three_bytes (kanji kana : bool) (text : str) : Prop :=
  forall s n p c, mark_run kanji kana text s n -> s <= p < s + n -> nth_error text (p - Nat.min n s) = Some c -> width c = 3.
