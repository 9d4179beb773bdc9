(** Word details: lindera-core/src/dictionary.rs and lindera-tokenizer/src/token.rs *)
From Coq Require Import String.
From Coq Require Import List NArith ZArith Bool.
From Verif Require Import MBase MUtf8 MText MCodec MDict MBincode MTokenizer.
Import ListNotations.
Local Open Scope list_scope.

(* slice::split(|&b| b == 0): the pieces between the zero bytes.  lindera-core/src/dictionary.rs:36. *)
Definition split_zero (bs : list N) : list (list N) := split_by (N.eqb 0) bs.

(* all pieces decoded, or None (the `?` on str::from_utf8(..).ok()).  lindera-core/src/dictionary.rs:34-39. *)
Fixpoint decode_all (l : list (list N)) : option (list str) :=
  match l with
  | [] => Some []
  | b :: r => match utf8_decode b with
              | None => None
              | Some s => match decode_all r with None => None | Some ss => Some (s :: ss) end
              end
  end.

(* lindera-core/src/dictionary.rs:25-27 and 58-60: `&idx_data[4 * word_id..][..4]`, an u32.  The id is an N: it may be up to 2^32. *)
Definition read_index (idx_data : list N) (word_id : N) : res N :=
  do a <- slice_from idx_data (4 * N.to_nat word_id);
  do b <- slice a 0 4;
  read_u 4 b.

(* lindera-core/src/dictionary.rs:24-41.  usize has 64 bits, so try_into() succeeds. *)
Definition word_details (d : dictionary) (word_id : N) : res (option (list str)) :=
  if (N.of_nat (length (d_words_idx d)) <=? 4 * word_id)%N then Ok None
  else
    do i <- read_index (d_words_idx d) word_id;
    let i := N.to_nat i in
    do data <- slice_from (d_words d) i;
    do n <- read_u 4 data;
    do bytes <- slice (d_words d) (i + 4) (i + 4 + N.to_nat n);
    Ok (decode_all (split_zero bytes)).

(* lindera-core/src/dictionary.rs:57-67 *)
Definition user_word_details (u : user_dictionary) (word_id : N) : res (option (list str)) :=
  if (N.of_nat (length (u_words_idx u)) <=? 4 * word_id)%N then Ok None
  else
    do i <- read_index (u_words_idx u) word_id;
    do data <- slice_from (u_words u) (N.to_nat i);
    Ok (match dec_vec dec_string data with Some (details, _) => Some details | None => None end).

(* lindera-tokenizer/src/token.rs:7 *)
Definition UNK : list str := [lit "UNK"].

(* lindera-tokenizer/src/token.rs:78-97 on the state of the `details` field: the result and the new state of the field. *)
Definition get_details (d : dictionary) (u : option user_dictionary) (w : word_id) (cache : option (list str))
  : res (option (list str) * option (list str)) :=
  match cache with
  | Some v => Ok (Some v, Some v)
  | None =>
    if is_unknown w then Ok (Some UNK, Some UNK)
    else
      do r <- (if is_system w then word_details d (wid w)
               else match u with
                    | Some u => user_word_details u (wid w)
                    | None => Ok None
                    end);
      Ok (r, r)
  end.

(* lindera-tokenizer/src/token.rs:99-102 *)
Definition set_details (new : option (list str)) (cache : option (list str)) : option (list str) := new.
