(** Character filters: lindera-filter/src/character_filter.rs and character_filter/*.rs *)
From Coq Require Import List NArith ZArith Bool.
From Verif Require Import MBase MUtf8 MText MCodec MDict MCharDef MBuild.
Import ListNotations.

(* The two vectors filled by a filter.  Offsets are usize (64 bits), diffs i64; byte lengths are below 2^63, so the i64
   arithmetic on them does not wrap and is done in Z (C109 shows that it does not); casts to usize are explicit.
   lindera-filter/src/character_filter.rs:59-104. *)
Definition offset_diffs := (list N * list Z)%type.

(* Vec::last.  lindera-filter/src/character_filter.rs:59-77. *)
Definition last_error {A} (l : list A) : option A := match rev l with x :: _ => Some x | [] => None end.
(* Vec::pop.  lindera-filter/src/character_filter.rs:59-77. *)
Definition pop {A} (l : list A) : list A := removelast l.

(* lindera-filter/src/character_filter.rs:59-77 *)
Definition add_offset_diff (st : offset_diffs) (offset : N) (diff : Z) : offset_diffs :=
  let '(offsets, diffs) := st in
  match last_error offsets with
  | Some last_offset =>
    if (last_offset =? offset)%N then (offsets, pop diffs ++ [diff])
    else (offsets ++ [offset], diffs ++ [diff])
  | None => (offsets ++ [offset], diffs ++ [diff])
  end.

(* lindera-filter/src/character_filter.rs:79-104, for a given binary_search.  The last line wraps (release profile). *)
Definition correct_offset_with (search : list N -> N -> search_result)
    (offset : N) (offsets : list N) (diffs : list Z) (text_len : N) : res N :=
  if is_nil offsets then Ok offset
  else
    let index := match search offsets offset with
                 | Found i => Some i
                 | NotFound (S i) => Some i
                 | NotFound 0 => if (text_len <=? 0)%N then Some (N.to_nat text_len) else None
                 end in
    match index with
    | None => Ok offset
    | Some i => do d <- idx diffs i; Ok (wrap_u 64 (Z.of_N offset + d))
    end.
(* lindera-filter/src/character_filter.rs:79-104, with the search of MCharDef.v. *)
Definition correct_offset := correct_offset_with binary_search.

(* The recording of one replacement: lindera-filter/src/character_filter/mapping.rs:93-116, lindera-filter/src/character_filter/regex.rs:71-92 and lindera-filter/src/character_filter/unicode_normalize.rs:84-105 are the same code.
   input_offset is the end of the replaced text in the input. *)
Definition record_diff (st : offset_diffs) (input_offset : N) (input_len replacement_len : nat) : offset_diffs :=
  let diff_len := (Z.of_nat input_len - Z.of_nat replacement_len)%Z in
  if (diff_len =? 0)%Z then st
  else
    let prev_diff := match last_error (snd st) with Some d => d | None => 0%Z end in
    if (0 <? diff_len)%Z then
      add_offset_diff st (wrap_u 64 (Z.of_N input_offset - diff_len - prev_diff)) (prev_diff + diff_len)%Z
    else
      let output_offset := wrap_u 64 (Z.of_N input_offset + - prev_diff) in
      fold_left (fun st extra_idx =>
                   add_offset_diff st (wrap_u 64 (Z.of_N output_offset + Z.of_nat extra_idx))
                                   (prev_diff - Z.of_nat extra_idx - 1)%Z)
                (seq 0 (Z.abs_nat diff_len)) st.

(* A filter: the new text, the offsets and the diffs.  lindera-filter/src/character_filter.rs:30. *)
Definition filter_result := (str * list N * list Z)%type.

(** ** mapping.rs *)

(* lindera-filter/src/character_filter/mapping.rs:14-17 and 41-45.  HashMap: an association list with distinct keys. *)
Record mapping_filter := MappingFilter { mf_mapping : list (str * str); mf_trie : double_array }.

(* HashMap as Index: panics if the key is missing.  lindera-filter/src/character_filter/mapping.rs:92-93. *)
Definition map_index (m : list (str * str)) (key : str) : res str :=
  match find (fun '(k, _) => str_eqb k key) m with Some (_, v) => Ok v | None => Panic end.

(* lindera-filter/src/character_filter/mapping.rs:48-64.  da_build as in MBuild.v. *)
Definition mapping_new (m : list (str * str)) : res mapping_filter :=
  let keys := stable_sort str_leb (map fst m) in
  let keyset := map (fun '(value, key) => (utf8 key, wrap_u 32 (Z.of_N value))) (number_from 0 keys) in
  do da <- ok_or (da_build keyset) EIo;
  Ok (MappingFilter m da).

(* lindera-filter/src/character_filter/mapping.rs:83-133: the while loop.  suffix = &text[input_start..] is carried along instead of being cut off again.
   The fuel is the number of characters of the text, each round consumes at least one; None = out of fuel. *)
Fixpoint mapping_loop (fuel : nat) (f : mapping_filter) (suffix : str) (input_start : N) (result : str) (st : offset_diffs)
  : option (res filter_result) :=
  match suffix with
  | [] => Some (Ok (result, fst st, snd st))
  | c :: r =>
    match fuel with
    | O => None
    | S fuel =>
      match last_error (common_prefix_search (mf_trie f) (utf8 suffix)) with
      | Some (_, input_len) =>
        match str_to suffix input_len, str_from suffix input_len with
        | Ok input_text, Ok rest =>
          match map_index (mf_mapping f) input_text with
          | Ok replacement_text =>
            let input_offset := (input_start + N.of_nat input_len)%N in
            mapping_loop fuel f rest input_offset (result ++ replacement_text)
                         (record_diff st input_offset input_len (blen replacement_text))
          | _ => Some Panic
          end
        | _, _ => Some Panic
        end
      | None => mapping_loop fuel f r (input_start + N.of_nat (width c))%N (result ++ [c]) st
      end
    end
  end.

(* lindera-filter/src/character_filter/mapping.rs:75-137 *)
Definition mapping_apply (f : mapping_filter) (text : str) : option (res filter_result) :=
  mapping_loop (length text) f text 0 [] ([], []).

(** ** unicode_normalize.rs *)

(* lindera-filter/src/character_filter/unicode_normalize.rs:70-115.  UnicodeSegmentation::graphemes(true) and the four normalization forms of a grapheme are
   external: arbitrary functions. *)
Definition normalize_apply (graphemes : str -> list str) (form : str -> str) (text : str) : filter_result :=
  let '(result, st, _) :=
    fold_left (fun '(result, st, input_start) c =>
                 let replacement_text := form c in
                 let input_offset := (input_start + N.of_nat (blen c))%N in
                 (result ++ replacement_text, record_diff st input_offset (blen c) (blen replacement_text), input_offset))
              (graphemes text) ([], ([], []), 0%N) in
  (result, fst st, snd st).

(** ** regex.rs *)

(* The regex crate: find_iter gives the start and end of each match, from left to right without overlaps; Replacer for
   &String expands $name and ${name} from the captures of a match if the replacement contains a '$' and is literal
   otherwise.  Both are external: arbitrary functions.  lindera-filter/src/character_filter/regex.rs:63-102. *)
Record regex := Regex {
  rx_find_iter : str -> list (nat * nat);
  rx_expand : str -> nat * nat -> str -> str     (* text, match, replacement *)
}.

(* Whether the replacement has a dollar sign: for the crate regex, as called in lindera-filter/src/character_filter/regex.rs:63-102. *)
Definition has_dollar (s : str) : bool := existsb (N.eqb 36) s.

(* Regex::replace_all: the text between the matches is copied.  lindera-filter/src/character_filter/regex.rs:96-99. *)
Fixpoint replace_from (rx : regex) (text : str) (replacement : str) (last : nat) (ms : list (nat * nat)) : res str :=
  match ms with
  | [] => str_from text last
  | (s, e) :: r =>
    do gap <- str_range text last s;
    do rest <- replace_from rx text replacement e r;
    Ok (gap ++ (if has_dollar replacement then rx_expand rx text (s, e) replacement else replacement) ++ rest)
  end.
(* lindera-filter/src/character_filter/regex.rs:96-99. *)
Definition replace_all (rx : regex) (text replacement : str) : res str :=
  replace_from rx text replacement 0 (rx_find_iter rx text).

(* lindera-filter/src/character_filter/regex.rs:63-102 *)
Definition regex_apply (rx : regex) (replacement : str) (text : str) : res filter_result :=
  let st := fold_left (fun st '(s, e) => record_diff st (N.of_nat e) (e - s) (blen replacement)) (rx_find_iter rx text) ([], []) in
  do new_text <- replace_all rx text replacement;
  Ok (new_text, fst st, snd st).

(** ** japanese_iteration_mark.rs *)

(* lindera-filter/src/character_filter/japanese_iteration_mark.rs:13-17 *)
Definition KANJI_ITERATION_MARK : char := 0x3005%N.
(* lindera-filter/src/character_filter/japanese_iteration_mark.rs:14 *)
Definition HIRAGANA_ITERATION_MARK : char := 0x309D%N.
(* lindera-filter/src/character_filter/japanese_iteration_mark.rs:15 *)
Definition HIRAGANA_DAKUON_ITERATION_MARK : char := 0x309E%N.
(* lindera-filter/src/character_filter/japanese_iteration_mark.rs:16 *)
Definition KATAKANA_ITERATION_MARK : char := 0x30FD%N.
(* lindera-filter/src/character_filter/japanese_iteration_mark.rs:17 *)
Definition KATAKANA_DAKUON_ITERATION_MARK : char := 0x30FE%N.

(* a range pattern lo..=hi.  lindera-filter/src/character_filter/japanese_iteration_mark.rs:19-59. *)
Definition in_range (lo hi c : N) : bool := ((lo <=? c) && (c <=? hi))%N.

(* lindera-filter/src/character_filter/japanese_iteration_mark.rs:19-28 *)
Definition hiragana_add_dakuon (c : char) : char :=
  (if in_range 0x304b 0x3062 c && (c mod 2 =? 1) then c + 1
   else if in_range 0x3064 0x3069 c && (c mod 2 =? 0) then c + 1
   else if in_range 0x306f 0x307d c && (c mod 3 =? 0) then c + 1
   else c)%N.

(* lindera-filter/src/character_filter/japanese_iteration_mark.rs:30-39 *)
Definition hiragana_remove_dakuon (c : char) : char :=
  (if in_range 0x304b 0x3062 c && (c mod 2 =? 0) then c - 1
   else if in_range 0x3064 0x3069 c && (c mod 2 =? 1) then c - 1
   else if in_range 0x306f 0x307d c && (c mod 3 =? 1) then c - 1
   else c)%N.

(* lindera-filter/src/character_filter/japanese_iteration_mark.rs:41-49 *)
Definition katakana_add_dakuon (c : char) : char :=
  (if in_range 0x30ab 0x30c2 c && (c mod 2 =? 1) then c + 1
   else if in_range 0x30c4 0x30c9 c && (c mod 2 =? 0) then c + 1
   else if in_range 0x30cf 0x30dd c && (c mod 3 =? 0) then c + 1
   else c)%N.

(* lindera-filter/src/character_filter/japanese_iteration_mark.rs:51-59 *)
Definition katakana_remove_dakuon (c : char) : char :=
  (if in_range 0x30ab 0x30c2 c && (c mod 2 =? 0) then c - 1
   else if in_range 0x30c4 0x30c9 c && (c mod 2 =? 1) then c - 1
   else if in_range 0x30cf 0x30dd c && (c mod 3 =? 1) then c - 1
   else c)%N.

(* lindera-filter/src/character_filter/japanese_iteration_mark.rs:61-65 *)
Record iteration_config := IterationConfig { ic_kanji : bool; ic_kana : bool }.

(* lindera-filter/src/character_filter/japanese_iteration_mark.rs:118-145: the replacement of one mark at position pos; `*iter_mark_pos - pos_diff` panics below 0 *)
Definition normalize_mark (cfg : iteration_config) (text_chars : list char) (pos_diff : nat) (m : nat * char) : res char :=
  let '(pos, mark) := m in
  if Nat.ltb pos pos_diff then Panic
  else
    let replacement := match nth_error text_chars (pos - pos_diff) with Some c => c | None => mark end in
    Ok (if (mark =? KANJI_ITERATION_MARK)%N && ic_kanji cfg then replacement
        else if (mark =? HIRAGANA_ITERATION_MARK)%N && ic_kana cfg then hiragana_remove_dakuon replacement
        else if (mark =? HIRAGANA_DAKUON_ITERATION_MARK)%N && ic_kana cfg then hiragana_add_dakuon replacement
        else if (mark =? KATAKANA_ITERATION_MARK)%N && ic_kana cfg then katakana_remove_dakuon replacement
        else if (mark =? KATAKANA_DAKUON_ITERATION_MARK)%N && ic_kana cfg then katakana_add_dakuon replacement
        else mark).

(* lindera-filter/src/character_filter/japanese_iteration_mark.rs:107-149.  The BTreeMap is filled in increasing order of positions. *)
Definition normalize_marks (cfg : iteration_config) (iter_marks : list (nat * char)) (text_chars : list char) : res str :=
  let first := match iter_marks with (k, _) :: _ => k | [] => 0 end in
  let pos_diff := if Nat.ltb first (length iter_marks) then first else length iter_marks in
  mapM (normalize_mark cfg text_chars pos_diff) iter_marks.

(* lindera-filter/src/character_filter/japanese_iteration_mark.rs:162-171: the match patterns that insert into iter_marks *)
Definition is_iteration_mark (cfg : iteration_config) (c : char) : bool :=
  ((c =? KANJI_ITERATION_MARK)%N && ic_kanji cfg) ||
  (((c =? HIRAGANA_ITERATION_MARK)%N || (c =? HIRAGANA_DAKUON_ITERATION_MARK)%N
    || (c =? KATAKANA_ITERATION_MARK)%N || (c =? KATAKANA_DAKUON_ITERATION_MARK)%N) && ic_kana cfg).

(* lindera-filter/src/character_filter/japanese_iteration_mark.rs:157-190; i is the position of the next character *)
Fixpoint iteration_loop (cfg : iteration_config) (text_chars rest : list char) (i : nat)
    (filtered : str) (iter_marks : list (nat * char)) : res str :=
  match rest with
  | [] => if is_nil iter_marks then Ok filtered
          else do n <- normalize_marks cfg iter_marks text_chars; Ok (filtered ++ n)
  | c :: r =>
    if is_iteration_mark cfg c then iteration_loop cfg text_chars r (S i) filtered (iter_marks ++ [(i, c)])
    else
      do n <- (if is_nil iter_marks then Ok [] else normalize_marks cfg iter_marks text_chars);
      iteration_loop cfg text_chars r (S i) (filtered ++ n ++ [c]) []
  end.
(* lindera-filter/src/character_filter/japanese_iteration_mark.rs:157-190: the offsets are empty *)
Definition iteration_apply (cfg : iteration_config) (text : str) : res filter_result :=
  do t <- iteration_loop cfg text text 0 [] []; Ok (t, [], []).
