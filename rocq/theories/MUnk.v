(** Unknown word dictionary (unk.def): lindera-core/src/unknown_dictionary.rs *)
From Coq Require Import List NArith ZArith Bool.
From Verif Require Import MBase MUtf8 MText MCodec.
Import ListNotations.

(* lindera-core/src/unknown_dictionary.rs:13-17 *)
Record unknown_dictionary := UnknownDictionary {
  ud_references : list (list N);
  ud_costs : list word_entry
}.

(* lindera-core/src/unknown_dictionary.rs:25-27 *)
Definition ud_word_entry (d : unknown_dictionary) (i : N) : res word_entry := idx (ud_costs d) (N.to_nat i).

(* lindera-core/src/unknown_dictionary.rs:29-31 *)
Definition ud_lookup_word_ids (d : unknown_dictionary) (category : nat) : res (list N) := idx (ud_references d) category.

(* lindera-core/src/unknown_dictionary.rs:34-40 *)
Record unk_entry := UnkEntry { ue_surface : str; ue_left : N; ue_right : N; ue_cost : Z }.

(* lindera-core/src/unknown_dictionary.rs:42-67; panics on fields[1..3] if expected_fields_len < 4 and the line has that many *)
Definition parse_dictionary_entry (fields : list str) (expected : nat) : res unk_entry :=
  if negb (Nat.eqb (length fields) expected) then Err EContent
  else
    do surface <- idx fields 0;
    do f1 <- idx fields 1; do l <- ok_or (parse_u32 f1) EParse;
    do f2 <- idx fields 2; do r <- ok_or (parse_u32 f2) EParse;
    do f3 <- idx fields 3; do c <- ok_or (parse_i32 f3) EParse;
    Ok (UnkEntry surface l r c).

(* lindera-core/src/unknown_dictionary.rs:69-84 *)
Fixpoint matching_from (i : N) (entries : list unk_entry) (target : str) : list N :=
  match entries with
  | [] => []
  | e :: r => if str_eqb (ue_surface e) target then i :: matching_from (i + 1) r target
              else matching_from (i + 1) r target
  end.
(* lindera-core/src/unknown_dictionary.rs:69-84 *)
Definition get_entry_id_matching_surface (entries : list unk_entry) (target : str) : list N :=
  matching_from 0 entries target.

(* lindera-core/src/unknown_dictionary.rs:86-94 *)
Definition make_category_references (cats : list str) (entries : list unk_entry) : list (list N) :=
  map (get_entry_id_matching_surface entries) cats.

(* lindera-core/src/unknown_dictionary.rs:96-113; the casts truncate.  The warning is dropped. *)
Definition make_costs_array (entries : list unk_entry) : list word_entry :=
  map (fun e => WordEntry (WordId u32_max true) (wrap16 (ue_cost e))
                          (wrap_u 16 (Z.of_N (ue_left e))) (wrap_u 16 (Z.of_N (ue_right e)))) entries.

(* lindera-core/src/unknown_dictionary.rs:115-133 *)
Definition parse_unk (cats : list str) (content : str) (expected : nat) : res unknown_dictionary :=
  do entries <- mapM (fun line => parse_dictionary_entry (split_char 44%N line) expected) (lines content);
  Ok (UnknownDictionary (make_category_references cats entries) (make_costs_array entries)).
