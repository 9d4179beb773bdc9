(** Common vocabulary of the model: results with panics, machine integers, checked indexing. *)
From Coq Require Import List NArith ZArith Bool.
Import ListNotations.

(* lindera-core/src/error.rs:6-21, LinderaErrorKind.  The error messages are dropped. *)
Inductive error_kind :=
| EArgs | EContent | EDecode | EDeserialize | EIo | EParse | ESerialize | ECompress
| EDictionaryNotFound | EDictionaryLoad | EDictionaryBuild | EDictionaryKind
| EDictionarySourceType | EMode.

(* LinderaResult<T> (lindera-core/src/lib.rs), extended with the outcome "the thread panics". *)
Inductive res (A : Type) :=
| Ok (a : A)
| Err (k : error_kind)
| Panic.
Arguments Ok {A} _.
Arguments Err {A} _.
Arguments Panic {A}.

(* The operator ? and panics: every `?` of the code, for instance lindera-dictionary-builder/src/dict.rs:79-80; a panic is not caught. *)
Definition bind {A B} (r : res A) (f : A -> res B) : res B :=
  match r with Ok a => f a | Err k => Err k | Panic => Panic end.

Notation "'do' x <- r ; k" := (bind r (fun x => k))
  (at level 200, x name, r at level 100, k at level 200).
Notation "'do' ' p <- r ; k" := (bind r (fun p => k))
  (at level 200, p strict pattern, r at level 100, k at level 200).

(* `iter.map(f).collect()` for a fallible or panicking f, left to right.
   For instance lindera-core/src/prefix_dict.rs:29-51 and lindera-dictionary-builder/src/cost_matrix.rs:34-41. *)
Fixpoint mapM {A B} (f : A -> res B) (l : list A) : res (list B) :=
  match l with
  | [] => Ok []
  | x :: r => do y <- f x; do ys <- mapM f r; Ok (y :: ys)
  end.

(* A `for` loop over a list with mutable state.  For instance lindera-core/src/character_definition.rs:147-163. *)
Fixpoint foldM {A S} (f : S -> A -> res S) (l : list A) (s : S) : res S :=
  match l with
  | [] => Ok s
  | x :: r => do s' <- f s x; foldM f r s'
  end.

(* v[i]: panics out of range.
   For instance lindera-core/src/unknown_dictionary.rs:42-58 and lindera-core/src/character_definition.rs:89. *)
Definition idx {A} (l : list A) (i : nat) : res A :=
  match nth_error l i with Some x => Ok x | None => Panic end.

(* &v[i..]: panics if i > v.len().
   For instance lindera-core/src/prefix_dict.rs:43 and lindera-core/src/connection.rs:31. *)
Definition slice_from {A} (l : list A) (i : nat) : res (list A) :=
  if Nat.leb i (length l) then Ok (skipn i l) else Panic.

(* &v[a..b]: panics if a > b or b > v.len().
   For instance lindera-core/src/word_entry.rs:51-62 and lindera-core/src/dictionary.rs:27-35. *)
Definition slice {A} (l : list A) (a b : nat) : res (list A) :=
  if (Nat.leb a b && Nat.leb b (length l))%bool then Ok (firstn (b - a) (skipn a l)) else Panic.

(* v[i] = x as a pure function; no effect out of range (callers check).
   For instance lindera-core/src/viterbi.rs:264-267 and lindera-dictionary-builder/src/cost_matrix.rs:56. *)
Fixpoint upd {A} (l : list A) (i : nat) (x : A) : list A :=
  match l, i with
  | [], _ => []
  | _ :: r, 0 => x :: r
  | y :: r, S j => y :: upd r j x
  end.

(* Option::ok_or / unwrap_or style helpers.  For instance lindera-core/src/unknown_dictionary.rs:48-58. *)
Definition ok_or {A} (o : option A) (k : error_kind) : res A :=
  match o with Some a => Ok a | None => Err k end.

(* Two's complement truncation, as in `x as i32`, `x as i16`, and wrapping (release profile) arithmetic.
   For instance lindera-core/src/mode.rs:29-44 and lindera-core/src/viterbi.rs:255-263. *)
Definition wrap_i (bits : Z) (z : Z) : Z :=
  ((z + 2 ^ (bits - 1)) mod 2 ^ bits - 2 ^ (bits - 1))%Z.
(* i32 arithmetic: lindera-core/src/viterbi.rs:255-263 and lindera-core/src/mode.rs:29-44. *)
Definition wrap32 (z : Z) : Z := wrap_i 32 z.
(* `as i16`: lindera-core/src/unknown_dictionary.rs:96-113. *)
Definition wrap16 (z : Z) : Z := wrap_i 16 z.

(* Unsigned truncation, as in `x as u32`, `x as u16`, `x as usize`.
   For instance lindera-core/src/connection.rs:29-32 and lindera-dictionary-builder/src/cost_matrix.rs:52-57. *)
Definition wrap_u (bits : Z) (z : Z) : N := Z.to_N (z mod 2 ^ bits)%Z.

(* lindera-dictionary-builder/src/cost_matrix.rs:49: i16::MAX, and the costs of lindera-core/src/word_entry.rs:27. *)
Definition i16_max : Z := 32767%Z.
(* i32::MAX: lindera-core/src/viterbi.rs:29-38, path_cost of an edge. *)
Definition i32_max : Z := 2147483647%Z.
(* u32::MAX: lindera-core/src/word_entry.rs:11 and 20. *)
Definition u32_max : N := 4294967295%N.

(* Value ranges of the Rust integer types.  Costs: lindera-core/src/word_entry.rs:24-30. *)
Definition is_i16 (z : Z) : Prop := (-32768 <= z <= 32767)%Z.
(* Penalties and path costs: lindera-core/src/mode.rs:10-16 and lindera-core/src/viterbi.rs:26-38. *)
Definition is_i32 (z : Z) : Prop := (-2147483648 <= z <= 2147483647)%Z.
(* Context ids: lindera-core/src/word_entry.rs:24-30. *)
Definition is_u16 (n : N) : Prop := (n < 65536)%N.
(* Word ids: lindera-core/src/word_entry.rs:6-7. *)
Definition is_u32 (n : N) : Prop := (n < 4294967296)%N.
(* The data of a dictionary are bytes: lindera-core/src/dictionary.rs:13-21. *)
Definition is_byte (n : N) : Prop := (n < 256)%N.
