(** The lattice with its 32-bit fields: lindera-core/src/viterbi.rs, as MLattice.v, but with the casts `as u32` of byte
    positions and edge numbers.  Functions without such a cast are those of MLattice.v. *)
From Coq Require Import List NArith ZArith Bool.
From Verif Require Import MBase MUtf8 MText MCodec MDict MCharDef MUnk MLattice MTokenizer.
Import ListNotations.

(* `n as u32` of a usize (64 bits), for instance lindera-core/src/viterbi.rs:127-128 *)
Definition u32 (n : nat) : nat := N.to_nat (wrap_u 32 (Z.of_nat n)).

(* lindera-core/src/viterbi.rs:40-45; the difference of two u32 wraps (release profile) *)
Definition num_chars32 (e : edge) : nat := N.to_nat (wrap_u 32 (Z.of_nat (e_stop e) - Z.of_nat (e_start e))) / 3.

(* lindera-core/src/mode.rs:29-44 *)
Definition penalty_of32 (p : penalty) (e : edge) : Z :=
  let n := N.of_nat (num_chars32 e) in
  if (n <=? kanji_threshold p)%N then 0%Z
  else if e_kanji e then wrap32 (wrap32 (Z.of_N (n - kanji_threshold p)) * kanji_penalty p)
  else if (other_threshold p <? n)%N then wrap32 (wrap32 (Z.of_N (n - other_threshold p)) * other_penalty p)
  else 0%Z.

(* lindera-core/src/mode.rs:61-66 *)
Definition penalty_cost32 (m : mode) (e : edge) : Z :=
  match m with Normal => 0%Z | Decompose p => penalty_of32 p e end.

(* lindera-core/src/viterbi.rs:235-239: EdgeId(self.edges.len() as u32) *)
Definition add_edge32 (l : lattice) (e : edge) : edge_id * lattice :=
  (u32 (length (edges l)), Lattice (capacity l) (edges l ++ [e]) (starts_at l) (ends_at l)).

(* lindera-core/src/viterbi.rs:227-233 *)
Definition add_edge_in_lattice32 (l : lattice) (e : edge) : res lattice :=
  let '(id, l) := add_edge32 l e in
  do s <- push_at (starts_at l) (e_start e) id;
  do t <- push_at (ends_at l) (e_stop e) id;
  Ok (Lattice (capacity l) (edges l) s t).

(* lindera-core/src/viterbi.rs:123-131 and 140-148: start as u32, (start + prefix_len) as u32 *)
Definition dict_edge32 (start : nat) (suffix : str) (w : nat * word_entry) : res edge :=
  let '(prefix_len, entry) := w in
  do p <- str_to suffix prefix_len;
  Ok (Edge KNOWN entry i32_max None (u32 start) (u32 (start + prefix_len)) (is_kanji_only p)).

(* lindera-core/src/viterbi.rs:120-135 and 139-151 *)
Definition add_dict_edges32 (d : prefix_dict) (start : nat) (suffix : str) (st : lattice * bool) : res (lattice * bool) :=
  do ws <- pd_prefix d suffix;
  foldM (fun '(l, found) w =>
           do e <- dict_edge32 start suffix w;
           do l' <- add_edge_in_lattice32 l e;
           Ok (l', true)) ws st.

(* lindera-core/src/viterbi.rs:177-225; the end of the unknown word that is returned is a usize *)
Definition process_unknown_word32 (cd : char_definitions) (ud : unknown_dictionary)
    (category : category_id) (ord : nat) (unknown_end : option nat)
    (start : nat) (suffix : str) (found : bool) (l : lattice) : res (lattice * option nat) :=
  do data <- lookup_definition cd category;
  do n <- (if cd_invoke data || negb found then
             if cd_group data then do k <- group_len cd category ord (tl suffix); Ok (S k) else Ok 1%nat
           else Ok 0%nat);
  if Nat.ltb 0 n then
    let unknown_word := firstn n suffix in
    do ids <- ud_lookup_word_ids ud category;
    do l' <- foldM (fun l id =>
               do entry <- ud_word_entry ud id;
               add_edge_in_lattice32 l
                 (Edge UNKNOWN entry i32_max None (u32 start) (u32 (start + blen unknown_word)) (is_kanji_only unknown_word)))
             ids l;
    Ok (l', Some (start + blen unknown_word))
  else Ok (l, unknown_end).

(* lindera-core/src/viterbi.rs:108-173, body of the loop over start *)
Definition set_text_step32 (dict : prefix_dict) (user : option prefix_dict) (cd : char_definitions)
    (ud : unknown_dictionary) (text : str) (m : mode)
    (st : lattice * option nat) (start : nat) : res (lattice * option nat) :=
  let '(l, unknown_end) := st in
  do ends <- idx (ends_at l) start;
  match ends with
  | [] => Ok (l, unknown_end)
  | _ =>
    do suffix <- str_from text start;
    do '(l, found) <- match user with
                      | Some u => add_dict_edges32 u start suffix (l, false)
                      | None => Ok (l, false)
                      end;
    do '(l, found) <- add_dict_edges32 dict start suffix (l, found);
    if is_search m || match unknown_end with Some i => Nat.leb i start | None => true end then
      match suffix with
      | [] => Ok (l, unknown_end)
      | c :: _ =>
        do cats <- lookup_categories cd c;
        foldM (fun '(l, ue) '(ord, category) =>
                 process_unknown_word32 cd ud category ord ue start suffix found l)
              (enumerate cats) (l, unknown_end)
      end
    else Ok (l, unknown_end)
  end.

(* lindera-core/src/viterbi.rs:86-174 *)
Definition set_text32 (l : lattice) (dict : prefix_dict) (user : option prefix_dict) (cd : char_definitions)
    (ud : unknown_dictionary) (text : str) (m : mode) : res lattice :=
  let len := blen text in
  let l := set_capacity l len in
  let '(start_id, l) := add_edge32 l default_edge in
  let '(end_id, l) := add_edge32 l default_edge in
  if negb (Nat.eqb end_id 1) then Panic else
  do t <- push_at (ends_at l) 0 start_id;
  do s <- push_at (starts_at l) len end_id;
  let l := Lattice (capacity l) (edges l) s t in
  do '(l, _) <- foldM (set_text_step32 dict user cd ud text m) (seq 0 len) (l, None);
  Ok l.

(* lindera-core/src/viterbi.rs:255-263 *)
Definition through_cost32 (cm : conn_matrix) (m : mode) (es : list edge) (right : word_entry) (left_id : edge_id)
  : res (Z * edge_id) :=
  do le <- idx es left_id;
  do c <- cm_cost cm (we_right (e_entry le)) (we_left right);
  Ok (wrap32 (wrap32 (e_path_cost le + c) + penalty_cost32 m le), left_id).

(* lindera-core/src/viterbi.rs:251-269, body of the loop over the right edges *)
Definition path_cost_step32 (cm : conn_matrix) (m : mode) (lefts : list edge_id) (es : list edge) (right_id : edge_id)
  : res (list edge) :=
  do re <- idx es right_id;
  do cs <- mapM (through_cost32 cm m es (e_entry re)) lefts;
  match min_by_cost cs with
  | Some (best, best_left) =>
    Ok (upd es right_id (Edge (e_type re) (e_entry re) (wrap32 (we_cost (e_entry re) + best)) (Some best_left)
                              (e_start re) (e_stop re) (e_kanji re)))
  | None => Ok es
  end.

(* lindera-core/src/viterbi.rs:246-272 *)
Definition calculate_path_costs32 (cm : conn_matrix) (m : mode) (l : lattice) : res lattice :=
  do es <- foldM (fun es i =>
             do lefts <- idx (ends_at l) i;
             do rights <- idx (starts_at l) i;
             foldM (path_cost_step32 cm m lefts) rights es)
           (seq 0 (length (starts_at l))) (edges l);
  Ok (Lattice (capacity l) es (starts_at l) (ends_at l)).

(* lindera-tokenizer/src/tokenizer.rs:231-277, body of the loop over sentences *)
Definition tokenize_sentence32 (t : tokenizer) (st : tok_state) (sentence : str) : option (res tok_state) :=
  let '(l, tokens, bp, p) := st in
  let d := t_dictionary t in
  match set_text32 l (d_dict d) (option_map u_dict (t_user t)) (d_chardef d) (d_unknown d) sentence (t_mode t) with
  | Ok l1 =>
    match calculate_path_costs32 (d_matrix d) (t_mode t) l1 with
    | Ok l2 =>
      match tokens_offset l2 with
      | None => None
      | Some (Ok offsets) =>
        Some (do '(ts, bp', p') <- sentence_tokens sentence offsets bp p; Ok (l2, tokens ++ ts, bp', p'))
      | Some (Err k) => Some (Err k)
      | Some Panic => Some Panic
      end
    | Err k => Some (Err k)
    | Panic => Some Panic
    end
  | Err k => Some (Err k)
  | Panic => Some Panic
  end.

(* lindera-tokenizer/src/tokenizer.rs:231-277: the loop *)
Fixpoint tokenize_sentences32 (t : tokenizer) (sentences : list str) (st : tok_state) : option (res tok_state) :=
  match sentences with
  | [] => Some (Ok st)
  | s :: r =>
    match tokenize_sentence32 t st s with
    | Some (Ok st') => tokenize_sentences32 t r st'
    | o => o
    end
  end.

(* lindera-tokenizer/src/tokenizer.rs:223-280 *)
Definition tokenize32 (t : tokenizer) (text : str) : option (res (list token)) :=
  match tokenize_sentences32 t (split_inclusive is_delimiter text) (default_lattice, [], 0%nat, 0%nat) with
  | None => None
  | Some r => Some (do '(_, ts, _, _) <- r; Ok ts)
  end.
