(** The costs of a debug build: lindera-core/src/viterbi.rs, mode.rs and connection.rs as in MLattice32.v, but with the
    overflow checks of the debug profile: an addition, subtraction or product outside of its type panics instead of
    wrapping.  Casts (`as`) never panic.  lindera-core/src/viterbi.rs:86-239 (set_text) has no checked arithmetic on 32-bit
    numbers, so set_text32 is used as it is; usize arithmetic is not checked, since lengths of allocated memory are smaller. *)
From Coq Require Import List NArith ZArith Bool.
From Verif Require Import MBase MUtf8 MText MCodec MDict MCharDef MUnk MLattice MTokenizer MLattice32.
Import ListNotations.

(* the check of a debug build on the result of i32 arithmetic, for instance lindera-core/src/viterbi.rs:258-261 *)
Definition checked_i32 (z : Z) : res Z :=
  if (-2147483648 <=? z)%Z && (z <=? 2147483647)%Z then Ok z else Panic.

(* the check of a debug build on the result of u32 arithmetic, for instance lindera-core/src/connection.rs:30 *)
Definition checked_u32 (z : Z) : res N :=
  if (0 <=? z)%Z && (z <? 4294967296)%Z then Ok (Z.to_N z) else Panic.

(* lindera-core/src/viterbi.rs:40-45 *)
Definition num_chars_debug (e : edge) : res nat :=
  do d <- checked_u32 (Z.of_nat (e_stop e) - Z.of_nat (e_start e)); Ok (N.to_nat d / 3).

(* lindera-core/src/mode.rs:29-44; the subtractions cannot underflow, the casts to i32 wrap *)
Definition penalty_of_debug (p : penalty) (e : edge) : res Z :=
  do n <- num_chars_debug e;
  let n := N.of_nat n in
  if (n <=? kanji_threshold p)%N then Ok 0%Z
  else if e_kanji e then checked_i32 (wrap32 (Z.of_N (n - kanji_threshold p)) * kanji_penalty p)
  else if (other_threshold p <? n)%N then checked_i32 (wrap32 (Z.of_N (n - other_threshold p)) * other_penalty p)
  else Ok 0%Z.

(* lindera-core/src/mode.rs:61-66 *)
Definition penalty_cost_debug (m : mode) (e : edge) : res Z :=
  match m with Normal => Ok 0%Z | Decompose p => penalty_of_debug p e end.

(* lindera-core/src/connection.rs:29-32: the product is computed first, then the sum, both as u32 *)
Definition cm_cost_debug (m : conn_matrix) (forward_id backward_id : N) : res Z :=
  do product <- checked_u32 (Z.of_N forward_id * Z.of_N (cm_backward m));
  do cost_id <- checked_u32 (Z.of_N backward_id + Z.of_N product);
  let at_ := (2 * cost_id)%N in
  if (N.of_nat (length (cm_data m)) <? at_)%N then Panic
  else read_i16 (skipn (N.to_nat at_) (cm_data m)).

(* lindera-core/src/viterbi.rs:255-263 *)
Definition through_cost_debug (cm : conn_matrix) (m : mode) (es : list edge) (right : word_entry) (left_id : edge_id)
  : res (Z * edge_id) :=
  do le <- idx es left_id;
  do c <- cm_cost_debug cm (we_right (e_entry le)) (we_left right);
  do path_cost <- checked_i32 (e_path_cost le + c);
  do pen <- penalty_cost_debug m le;
  do path_cost <- checked_i32 (path_cost + pen);
  Ok (path_cost, left_id).

(* lindera-core/src/viterbi.rs:251-269, body of the loop over the right edges *)
Definition path_cost_step_debug (cm : conn_matrix) (m : mode) (lefts : list edge_id) (es : list edge) (right_id : edge_id)
  : res (list edge) :=
  do re <- idx es right_id;
  do cs <- mapM (through_cost_debug cm m es (e_entry re)) lefts;
  match min_by_cost cs with
  | Some (best, best_left) =>
    do cost <- checked_i32 (we_cost (e_entry re) + best);
    Ok (upd es right_id (Edge (e_type re) (e_entry re) cost (Some best_left) (e_start re) (e_stop re) (e_kanji re)))
  | None => Ok es
  end.

(* lindera-core/src/viterbi.rs:246-272 *)
Definition calculate_path_costs_debug (cm : conn_matrix) (m : mode) (l : lattice) : res lattice :=
  do es <- foldM (fun es i =>
             do lefts <- idx (ends_at l) i;
             do rights <- idx (starts_at l) i;
             foldM (path_cost_step_debug cm m lefts) rights es)
           (seq 0 (length (starts_at l))) (edges l);
  Ok (Lattice (capacity l) es (starts_at l) (ends_at l)).

(* lindera-tokenizer/src/tokenizer.rs:231-277, body of the loop over sentences *)
Definition tokenize_sentence_debug (t : tokenizer) (st : tok_state) (sentence : str) : option (res tok_state) :=
  let '(l, tokens, bp, p) := st in
  let d := t_dictionary t in
  match set_text32 l (d_dict d) (option_map u_dict (t_user t)) (d_chardef d) (d_unknown d) sentence (t_mode t) with
  | Ok l1 =>
    match calculate_path_costs_debug (d_matrix d) (t_mode t) l1 with
    | Ok l2 =>
      match tokens_offset l2 with
      | None => None
      | Some (Ok offsets) =>
        Some (do '(ts, bp', p') <- sentence_tokens sentence offsets bp p; Ok (l2, tokens ++ ts, bp', p'))
      | Some (Err k) => Some (Err k)
      | Some Panic => Some Panic
      end
    | Err k => Some (Err k)
    | Panic => Some Panic
    end
  | Err k => Some (Err k)
  | Panic => Some Panic
  end.

(* lindera-tokenizer/src/tokenizer.rs:231-277: the loop *)
Fixpoint tokenize_sentences_debug (t : tokenizer) (sentences : list str) (st : tok_state) : option (res tok_state) :=
  match sentences with
  | [] => Some (Ok st)
  | s :: r =>
    match tokenize_sentence_debug t st s with
    | Some (Ok st') => tokenize_sentences_debug t r st'
    | o => o
    end
  end.

(* lindera-tokenizer/src/tokenizer.rs:223-280 *)
Definition tokenize_debug (t : tokenizer) (text : str) : option (res (list token)) :=
  match tokenize_sentences_debug t (split_inclusive is_delimiter text) (default_lattice, [], 0%nat, 0%nat) with
  | None => None
  | Some r => Some (do '(_, ts, _, _) <- r; Ok ts)
  end.
