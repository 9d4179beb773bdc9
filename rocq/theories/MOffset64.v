(** The offset arithmetic of the character filters in a debug build: `+`, `-` and unary `-` on i64 and usize panic on overflow
    instead of wrapping; casts (`as`) never panic. *)
From Coq Require Import List NArith ZArith Bool.
From Verif Require Import MBase MUtf8 MText MCodec MDict MCharDef MBuild MCharFilter.
Import ListNotations.

(* The result of an operation on i64.  For instance lindera-filter/src/character_filter.rs:103. *)
Definition checked_i64 (z : Z) : res Z :=
  if ((-9223372036854775808 <=? z) && (z <? 9223372036854775808))%Z then Ok z else Panic.
(* The result of an operation on usize.  For instance lindera-filter/src/character_filter/mapping.rs:96. *)
Definition checked_usize (z : Z) : res N :=
  if ((0 <=? z) && (z <? 18446744073709551616))%Z then Ok (Z.to_N z) else Panic.
(* `as i64` of a usize.  lindera-filter/src/character_filter/mapping.rs:95. *)
Definition as_i64 (n : N) : Z := wrap_i 64 (Z.of_N n).

(* lindera-filter/src/character_filter/mapping.rs:95-116, lindera-filter/src/character_filter/regex.rs:73-92 and lindera-filter/src/character_filter/unicode_normalize.rs:86-105,
   after input_offset has been computed. *)
Definition record_diff_debug (st : offset_diffs) (input_offset : N) (input_len replacement_len : nat) : res offset_diffs :=
  do diff_len <- checked_i64 (as_i64 (N.of_nat input_len) - as_i64 (N.of_nat replacement_len));
  if (diff_len =? 0)%Z then Ok st
  else
    let prev_diff := match last_error (snd st) with Some d => d | None => 0%Z end in
    if (0 <? diff_len)%Z then
      do x <- checked_i64 (as_i64 input_offset - diff_len);
      do y <- checked_i64 (x - prev_diff);
      do diff <- checked_i64 (prev_diff + diff_len);
      Ok (add_offset_diff st (wrap_u 64 y) diff)
    else
      do m <- checked_i64 (- prev_diff);
      do y <- checked_i64 (as_i64 input_offset + m);
      let output_offset := wrap_u 64 y in
      foldM (fun st extra_idx =>
               do offset <- checked_usize (Z.of_N output_offset + Z.of_nat extra_idx);
               do x <- checked_i64 (prev_diff - as_i64 (N.of_nat extra_idx));
               do diff <- checked_i64 (x - 1);
               Ok (add_offset_diff st offset diff))
            (seq 0 (Z.abs_nat diff_len)) st.

(* lindera-filter/src/character_filter.rs:79-104 *)
Definition correct_offset_debug (search : list N -> N -> search_result)
    (offset : N) (offsets : list N) (diffs : list Z) (text_len : N) : res N :=
  if is_nil offsets then Ok offset
  else
    let index := match search offsets offset with
                 | Found i => Some i
                 | NotFound (S i) => Some i
                 | NotFound 0 => if (text_len <=? 0)%N then Some (N.to_nat text_len) else None
                 end in
    match index with
    | None => Ok offset
    | Some i => do d <- idx diffs i; do z <- checked_i64 (as_i64 offset + d); Ok (wrap_u 64 z)
    end.

(* lindera-filter/src/character_filter/mapping.rs:83-133, as mapping_loop in MCharFilter.v.  `input_start + input_len` is computed for the
   slice, for input_offset and for the next start: the same sum, checked once. *)
Fixpoint mapping_loop_debug (fuel : nat) (f : mapping_filter) (suffix : str) (input_start : N) (result : str) (st : offset_diffs)
  : option (res filter_result) :=
  match suffix with
  | [] => Some (Ok (result, fst st, snd st))
  | c :: r =>
    match fuel with
    | O => None
    | S fuel =>
      match last_error (common_prefix_search (mf_trie f) (utf8 suffix)) with
      | Some (_, input_len) =>
        match checked_usize (Z.of_N input_start + Z.of_nat input_len) with
        | Ok input_offset =>
          match str_to suffix input_len, str_from suffix input_len with
          | Ok input_text, Ok rest =>
            match map_index (mf_mapping f) input_text with
            | Ok replacement_text =>
              match record_diff_debug st input_offset input_len (blen replacement_text) with
              | Ok st => mapping_loop_debug fuel f rest input_offset (result ++ replacement_text) st
              | _ => Some Panic
              end
            | _ => Some Panic
            end
          | _, _ => Some Panic
          end
        | _ => Some Panic
        end
      | None =>
        match checked_usize (Z.of_N input_start + Z.of_nat (width c)) with
        | Ok next => mapping_loop_debug fuel f r next (result ++ [c]) st
        | _ => Some Panic
        end
      end
    end
  end.

(* lindera-filter/src/character_filter/mapping.rs:75-137 *)
Definition mapping_apply_debug (f : mapping_filter) (text : str) : option (res filter_result) :=
  mapping_loop_debug (length text) f text 0 [] ([], []).

(* lindera-filter/src/character_filter/unicode_normalize.rs:70-115, as normalize_apply in MCharFilter.v. *)
Definition normalize_apply_debug (graphemes : str -> list str) (form : str -> str) (text : str) : res filter_result :=
  do s <- foldM (fun '(result, st, input_start) c =>
                   let replacement_text := form c in
                   do input_offset <- checked_usize (Z.of_N input_start + Z.of_nat (blen c));
                   do st <- record_diff_debug st input_offset (blen c) (blen replacement_text);
                   Ok (result ++ replacement_text, st, input_offset))
                (graphemes text) ([], ([], []), 0%N);
  let '(result, st, _) := s in
  Ok (result, fst st, snd st).

(* lindera-filter/src/character_filter/regex.rs:63-102, as regex_apply in MCharFilter.v. *)
Definition regex_apply_debug (rx : regex) (replacement : str) (text : str) : res filter_result :=
  do st <- foldM (fun st '(s, e) =>
                    do input_offset <- checked_usize (Z.of_nat s + Z.of_nat (e - s));
                    record_diff_debug st input_offset (e - s) (blen replacement))
                 (rx_find_iter rx text) ([], []);
  do new_text <- replace_all rx text replacement;
  Ok (new_text, fst st, snd st).
