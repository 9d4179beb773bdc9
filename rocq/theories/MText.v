(** Models of the Rust standard library string functions that the parsers use. *)
From Coq Require Import List NArith ZArith Bool String Ascii.
From Verif Require Import MBase MUtf8.
Import ListNotations.
Local Open Scope N_scope.

(* A Rust string literal with ASCII characters only.  For instance lindera-dictionary/src/lib.rs:67-80. *)
Fixpoint lit (s : string) : str :=
  match s with
  | EmptyString => []
  | String a r => N_of_ascii a :: lit r
  end.

(* s.starts_with(p).  lindera-core/src/character_definition.rs:158. *)
Fixpoint starts_with (p s : str) : bool :=
  match p, s with
  | [], _ => true
  | x :: p', y :: s' => (x =? y) && starts_with p' s'
  | _ :: _, [] => false
  end.

(* s.ends_with(c) for a single character.  lindera-filter/src/token_filter/japanese_katakana_stem.rs:79. *)
Definition ends_with_char (s : str) (c : char) : bool :=
  match rev s with x :: _ => x =? c | [] => false end.

(* s.strip_prefix(p).  Used for split and trim_start_matches: lindera-core/src/character_definition.rs:25 and 169. *)
Fixpoint strip_prefix (p s : str) : option str :=
  match p, s with
  | [], _ => Some s
  | x :: p', y :: s' => if x =? y then strip_prefix p' s' else None
  | _ :: _, [] => None
  end.

(* s.split(f): pieces between the characters satisfying f; always at least one piece.
   lindera-core/src/dictionary.rs:36, lindera-core/src/character_definition.rs:168. *)
Fixpoint split_by (f : char -> bool) (s : str) : list str :=
  match s with
  | [] => [[]]
  | c :: r =>
    if f c then [] :: split_by f r
    else match split_by f r with
         | p :: ps => (c :: p) :: ps
         | [] => [[c]]
         end
  end.

(* s.split(c).  lindera-core/src/character_definition.rs:149, lindera-core/src/unknown_dictionary.rs:122. *)
Definition split_char (c : char) (s : str) : list str := split_by (N.eqb c) s.

(* s.split_inclusive(f): pieces ending after each character satisfying f; no empty piece at the end.
   lindera-tokenizer/src/tokenizer.rs:231. *)
Fixpoint split_inclusive (f : char -> bool) (s : str) : list str :=
  match s with
  | [] => []
  | c :: r =>
    if f c then [c] :: split_inclusive f r
    else match split_inclusive f r with
         | p :: ps => (c :: p) :: ps
         | [] => [[c]]
         end
  end.

(* s.split(p) for a non-empty string pattern p: leftmost non-overlapping occurrences.  The fuel is the length of s.
   lindera-core/src/character_definition.rs:169. *)
Fixpoint split_str_fuel (fuel : nat) (p s : str) (cur : str) : list str :=
  match fuel with
  | O => [rev cur]
  | S f =>
    match strip_prefix p s with
    | Some r => rev cur :: split_str_fuel f p r []
    | None => match s with
              | [] => [rev cur]
              | c :: r => split_str_fuel f p r (c :: cur)
              end
    end
  end.
(* s.split(p): lindera-core/src/character_definition.rs:169. *)
Definition split_str (p s : str) : list str := split_str_fuel (S (List.length s)) p s [].

(* str::lines: split after \n, drop the \n and a \r before it; no empty last line.
   lindera-core/src/character_definition.rs:147, lindera-core/src/unknown_dictionary.rs:121, lindera-dictionary-builder/src/cost_matrix.rs:34. *)
Definition strip_newline (l : str) : str :=
  match rev l with
  | 10 :: 13 :: r => rev r
  | 10 :: r => rev r
  | _ => l
  end.
(* lindera-core/src/character_definition.rs:147, lindera-core/src/unknown_dictionary.rs:121, lindera-dictionary-builder/src/cost_matrix.rs:34. *)
Definition lines (s : str) : list str := map strip_newline (split_inclusive (N.eqb 10) s).

(* char::is_whitespace: the Unicode property White_Space.
   For trim and split_whitespace: lindera-core/src/character_definition.rs:154 and 168. *)
Definition is_whitespace (c : char) : bool :=
  ((9 <=? c) && (c <=? 13)) || (c =? 0x20) || (c =? 0x85) || (c =? 0xA0) || (c =? 0x1680)
  || ((0x2000 <=? c) && (c <=? 0x200A)) || (c =? 0x2028) || (c =? 0x2029) || (c =? 0x202F)
  || (c =? 0x205F) || (c =? 0x3000).

(* u8::is_ascii_whitespace.  For split_ascii_whitespace: lindera-core/src/character_definition.rs:200. *)
Definition is_ascii_whitespace (c : char) : bool :=
  (c =? 9) || (c =? 10) || (c =? 12) || (c =? 13) || (c =? 0x20).

(* str::trim.
   lindera-core/src/character_definition.rs:154, lindera-dictionary-builder/src/dict.rs:123, lindera-cli/src/main.rs:254. *)
Fixpoint trim_start (s : str) : str :=
  match s with
  | c :: r => if is_whitespace c then trim_start r else s
  | [] => []
  end.
(* lindera-core/src/character_definition.rs:154, lindera-dictionary-builder/src/dict.rs:123-147, lindera-cli/src/main.rs:254. *)
Definition trim (s : str) : str := rev (trim_start (rev (trim_start s))).

(* is_empty: lindera-core/src/character_definition.rs:155. *)
Definition is_nil {A} (l : list A) : bool := match l with [] => true | _ => false end.

(* str::split_whitespace, str::split_ascii_whitespace.
   lindera-core/src/character_definition.rs:168 and lindera-dictionary-builder/src/cost_matrix.rs:36. *)
Definition split_whitespace (s : str) : list str :=
  filter (fun p => negb (is_nil p)) (split_by is_whitespace s).
(* lindera-core/src/character_definition.rs:200. *)
Definition split_ascii_whitespace (s : str) : list str :=
  filter (fun p => negb (is_nil p)) (split_by is_ascii_whitespace s).

(* s.trim_start_matches(p), p non-empty.  The fuel is the length of s.  lindera-core/src/character_definition.rs:25. *)
Fixpoint trim_start_matches_fuel (fuel : nat) (p s : str) : str :=
  match fuel with
  | O => s
  | S f => match strip_prefix p s with Some r => trim_start_matches_fuel f p r | None => s end
  end.
(* s.trim_start_matches(p): lindera-core/src/character_definition.rs:25. *)
Definition trim_start_matches (p s : str) : str := trim_start_matches_fuel (List.length s) p s.

(* char::to_digit.  For from_str and from_str_radix: lindera-core/src/character_definition.rs:26. *)
Definition to_digit (radix : Z) (c : char) : option Z :=
  let d :=
    if (48 <=? c) && (c <=? 57) then Some (Z.of_N (c - 48))
    else if (97 <=? c) && (c <=? 122) then Some (Z.of_N (c - 87))
    else if (65 <=? c) && (c <=? 90) then Some (Z.of_N (c - 55))
    else None in
  match d with
  | Some v => if (v <? radix)%Z then Some v else None
  | None => None
  end.

(* The value of the digits, or None for a character that is no digit: lindera-core/src/character_definition.rs:26, lindera-core/src/unknown_dictionary.rs:48-58. *)
Fixpoint digits_value (radix : Z) (acc : Z) (s : str) : option Z :=
  match s with
  | [] => Some acc
  | c :: r => match to_digit radix c with
              | Some d => digits_value radix (acc * radix + d)%Z r
              | None => None
              end
  end.

(* T::from_str_radix / T::from_str for an integer type with values lo..=hi.  A sign is allowed, '-' only for signed
   types; at least one digit is needed; a value out of range is an error.  The error itself is dropped.
   lindera-core/src/character_definition.rs:26, lindera-core/src/unknown_dictionary.rs:48-58, lindera-dictionary-builder/src/user_dict.rs:65-77. *)
Definition parse_int (radix lo hi : Z) (s : str) : option Z :=
  let signed := (lo <? 0)%Z in
  let v :=
    match s with
    | [] => None
    | [43] | [45] => None
    | 43 :: r => digits_value radix 0 r
    | 45 :: r => if signed then option_map Z.opp (digits_value radix 0 r) else None
    | _ => digits_value radix 0 s
    end in
  match v with
  | Some z => if ((lo <=? z) && (z <=? hi))%Z%bool then Some z else None
  | None => None
  end.

(* lindera-dictionary-builder/src/dict.rs:135 and 147, lindera-dictionary-builder/src/user_dict.rs:73-77. *)
Definition parse_u16 (s : str) : option N := option_map Z.to_N (parse_int 10 0 65535 s).
(* lindera-core/src/unknown_dictionary.rs:48-55, lindera-core/src/character_definition.rs:209-217. *)
Definition parse_u32 (s : str) : option N := option_map Z.to_N (parse_int 10 0 4294967295 s).
(* lindera-dictionary-builder/src/dict.rs:123, lindera-dictionary-builder/src/user_dict.rs:65. *)
Definition parse_i16 (s : str) : option Z := parse_int 10 (-32768) 32767 s.
(* lindera-core/src/unknown_dictionary.rs:56-58, lindera-dictionary-builder/src/cost_matrix.rs:37-40. *)
Definition parse_i32 (s : str) : option Z := parse_int 10 (-2147483648) 2147483647 s.
(* lindera-core/src/character_definition.rs:26. *)
Definition parse_u16_hex (s : str) : option N := option_map Z.to_N (parse_int 16 0 65535 s).

(* parts.join(sep).
   lindera-dictionary-builder/src/dict.rs:197-199, lindera-filter/src/token_filter/japanese_keep_tags.rs:95, lindera-cli/src/main.rs:146. *)
Fixpoint join (sep : str) (parts : list str) : str :=
  match parts with
  | [] => []
  | [p] => p
  | p :: r => p ++ sep ++ join sep r
  end.
