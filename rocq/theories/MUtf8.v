(** Rust strings: sequences of Unicode scalar values with UTF-8 byte offsets. *)
From Coq Require Import List NArith Bool.
From Verif Require Import MBase.
Import ListNotations.
Local Open Scope N_scope.

(* char: a Unicode scalar value.  str / String: a sequence of them.
   char: as in lindera-core/src/character_definition.rs:92-98. *)
Definition char := N.
(* str and String: as in lindera-tokenizer/src/tokenizer.rs:223. *)
Definition str := list char.

(* The values of the Rust type char (no surrogates): lindera-tokenizer/src/tokenizer.rs:231. *)
Definition valid_char (c : char) : Prop := c < 0xD800 \/ (0xE000 <= c /\ c < 0x110000).
(* The values of the Rust type str: lindera-tokenizer/src/tokenizer.rs:223. *)
Definition valid_str (s : str) : Prop := Forall valid_char s.

(* valid_char as a test, for the decoding of lindera-core/src/dictionary.rs:37. *)
Definition valid_charb (c : char) : bool := (c <? 0xD800) || ((0xE000 <=? c) && (c <? 0x110000)).

(* char::encode_utf8.
   Used by str::as_bytes in lindera-core/src/prefix_dict.rs:36-54 and lindera-dictionary-builder/src/dict.rs:225-233. *)
Definition utf8_char (c : char) : list N :=
  if c <? 0x80 then [c]
  else if c <? 0x800 then [0xC0 + c / 64; 0x80 + c mod 64]
  else if c <? 0x10000 then [0xE0 + c / 4096; 0x80 + (c / 64) mod 64; 0x80 + c mod 64]
  else [0xF0 + c / 262144; 0x80 + (c / 4096) mod 64; 0x80 + (c / 64) mod 64; 0x80 + c mod 64].

(* str::as_bytes.  lindera-core/src/prefix_dict.rs:37 and 58, lindera-dictionary-builder/src/dict.rs:225-233. *)
Definition utf8 (s : str) : list N := flat_map utf8_char s.

(* char::len_utf8.
   lindera-filter/src/token_filter/japanese_katakana_stem.rs:83 and lindera-filter/src/character_filter/japanese_iteration_mark.rs:157-190. *)
Definition width (c : char) : nat :=
  if c <? 0x80 then 1%nat
  else if c <? 0x800 then 2%nat
  else if c <? 0x10000 then 3%nat
  else 4%nat.

(* str::len, in bytes.  lindera-core/src/viterbi.rs:95 and lindera-tokenizer/src/tokenizer.rs:246-276. *)
Fixpoint blen (s : str) : nat :=
  match s with [] => 0%nat | c :: r => (width c + blen r)%nat end.

(* &s[n..]: panics past the end or inside a character.
   lindera-core/src/viterbi.rs:106 and lindera-filter/src/character_filter/mapping.rs:83-90. *)
Fixpoint str_from (s : str) (n : nat) : res str :=
  match n with
  | O => Ok s
  | S _ =>
    match s with
    | [] => Panic
    | c :: r => if Nat.ltb n (width c) then Panic else str_from r (n - width c)
    end
  end.

(* &s[..n]: panics past the end or inside a character.  lindera-core/src/viterbi.rs:117-131. *)
Fixpoint str_to (s : str) (n : nat) : res str :=
  match n with
  | O => Ok []
  | S _ =>
    match s with
    | [] => Panic
    | c :: r => if Nat.ltb n (width c) then Panic
                else do t <- str_to r (n - width c); Ok (c :: t)
    end
  end.

(* &s[a..b].
   lindera-tokenizer/src/tokenizer.rs:246-276 and lindera-filter/src/token_filter/japanese_katakana_stem.rs:80-84. *)
Definition str_range (s : str) (a b : nat) : res str :=
  if Nat.ltb b a then Panic else do t <- str_from s a; str_to t (b - a).

(* str equality.  lindera-core/src/unknown_dictionary.rs:69-84. *)
Fixpoint str_eqb (a b : str) : bool :=
  match a, b with
  | [], [] => true
  | x :: a', y :: b' => (x =? y) && str_eqb a' b'
  | _, _ => false
  end.

(* str::from_utf8: decoding of one character.  Overlong forms, surrogates and values above 0x10FFFF are rejected.
   A continuation byte.  lindera-core/src/dictionary.rs:37. *)
Definition cont (b : N) : bool := (0x80 <=? b) && (b <? 0xC0).
(* str::from_utf8, one character: lindera-core/src/dictionary.rs:37. *)
Definition utf8_decode1 (bs : list N) : option (char * list N) :=
  match bs with
  | [] => None
  | b0 :: r =>
    if b0 <? 0x80 then Some (b0, r)
    else if b0 <? 0xC2 then None
    else if b0 <? 0xE0 then
      match r with
      | b1 :: r1 => if cont b1 then Some ((b0 - 0xC0) * 64 + (b1 - 0x80), r1) else None
      | _ => None
      end
    else if b0 <? 0xF0 then
      match r with
      | b1 :: b2 :: r2 =>
        let c := (b0 - 0xE0) * 4096 + (b1 - 0x80) * 64 + (b2 - 0x80) in
        if cont b1 && cont b2 && (0x800 <=? c) && valid_charb c then Some (c, r2) else None
      | _ => None
      end
    else if b0 <? 0xF5 then
      match r with
      | b1 :: b2 :: b3 :: r3 =>
        let c := (b0 - 0xF0) * 262144 + (b1 - 0x80) * 4096 + (b2 - 0x80) * 64 + (b3 - 0x80) in
        if cont b1 && cont b2 && cont b3 && (0x10000 <=? c) && valid_charb c then Some (c, r3) else None
      | _ => None
      end
    else None
  end.

(* str::from_utf8(bytes).ok().  The fuel is the number of bytes; each step consumes at least one.
   lindera-core/src/dictionary.rs:37, and bincode for a String. *)
Fixpoint utf8_decode_fuel (fuel : nat) (bs : list N) : option str :=
  match bs with
  | [] => Some []
  | _ =>
    match fuel with
    | O => None
    | S f =>
      match utf8_decode1 bs with
      | None => None
      | Some (c, r) => match utf8_decode_fuel f r with Some s => Some (c :: s) | None => None end
      end
    end
  end.
(* str::from_utf8(bytes).ok(): lindera-core/src/dictionary.rs:37. *)
Definition utf8_decode (bs : list N) : option str := utf8_decode_fuel (length bs) bs.
