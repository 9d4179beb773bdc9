(** The construction of the lattice, with a counter of the calls of lookup_categories.  The functions repeat those of MLattice
    with one more component; LReads shows that forgetting it gives them back. *)
From Coq Require Import List NArith ZArith Bool.
From Verif Require Import MBase MUtf8 MText MCodec MDict MCharDef MUnk MLattice MTokenizer.
Import ListNotations.

(* lindera-core/src/viterbi.rs:193-203: one call of lookup_categories (line 194) in each turn of the loop, the last one included,
   which only finds that the word ends.  The length as in group_len, and the number of calls. *)
Fixpoint counted_group (cd : char_definitions) (category : category_id) (ord : nat) (s : str) : res (nat * nat) :=
  match s with
  | [] => Ok (0%nat, 0%nat)
  | c :: r =>
    do cats <- lookup_categories cd c;
    match nth_error cats ord with
    | Some k => if Nat.eqb k category then do '(n, calls) <- counted_group cd category ord r; Ok (S n, S calls) else Ok (0%nat, 1%nat)
    | None => Ok (0%nat, 1%nat)
    end
  end.

(* lindera-core/src/viterbi.rs:177-225 *)
Definition counted_unknown_word (cd : char_definitions) (ud : unknown_dictionary)
    (category : category_id) (ord : nat) (unknown_end : option nat)
    (start : nat) (suffix : str) (found : bool) (l : lattice) (total : nat) : res (lattice * option nat * nat) :=
  do data <- lookup_definition cd category;
  do '(n, calls) <- (if cd_invoke data || negb found then
             if cd_group data then do '(k, calls) <- counted_group cd category ord (tl suffix); Ok (S k, calls) else Ok (1%nat, 0%nat)
           else Ok (0%nat, 0%nat));
  if Nat.ltb 0 n then
    let unknown_word := firstn n suffix in
    do ids <- ud_lookup_word_ids ud category;
    do l' <- foldM (fun l id =>
               do entry <- ud_word_entry ud id;
               add_edge_in_lattice l
                 (Edge UNKNOWN entry i32_max None start (start + blen unknown_word) (is_kanji_only unknown_word)))
             ids l;
    Ok (l', Some (start + blen unknown_word), total + calls)
  else Ok (l, unknown_end, total + calls).

(* lindera-core/src/viterbi.rs:108-173, body of the loop over start; the call of line 158 counts as one *)
Definition counted_step (dict : prefix_dict) (user : option prefix_dict) (cd : char_definitions)
    (ud : unknown_dictionary) (text : str) (m : mode)
    (st : lattice * option nat * nat) (start : nat) : res (lattice * option nat * nat) :=
  let '(l, unknown_end, total) := st in
  do ends <- idx (ends_at l) start;
  match ends with
  | [] => Ok (l, unknown_end, total)
  | _ =>
    do suffix <- str_from text start;
    do '(l, found) <- match user with
                      | Some u => add_dict_edges u start suffix (l, false)
                      | None => Ok (l, false)
                      end;
    do '(l, found) <- add_dict_edges dict start suffix (l, found);
    if is_search m || match unknown_end with Some i => Nat.leb i start | None => true end then
      match suffix with
      | [] => Ok (l, unknown_end, total)
      | c :: _ =>
        do cats <- lookup_categories cd c;
        foldM (fun '(l, ue, total) '(ord, category) =>
                 counted_unknown_word cd ud category ord ue start suffix found l total)
              (enumerate cats) (l, unknown_end, S total)
      end
    else Ok (l, unknown_end, total)
  end.

(* lindera-core/src/viterbi.rs:86-174 *)
Definition counted_text (l : lattice) (dict : prefix_dict) (user : option prefix_dict) (cd : char_definitions)
    (ud : unknown_dictionary) (text : str) (m : mode) : res (lattice * nat) :=
  let len := blen text in
  let l := set_capacity l len in
  let '(start_id, l) := add_edge l default_edge in
  let '(end_id, l) := add_edge l default_edge in
  if negb (Nat.eqb end_id 1) then Panic else
  do t <- push_at (ends_at l) 0 start_id;
  do s <- push_at (starts_at l) len end_id;
  let l := Lattice (capacity l) (edges l) s t in
  do '(l, _, total) <- foldM (counted_step dict user cd ud text m) (seq 0 len) (l, None, 0%nat);
  Ok (l, total).
