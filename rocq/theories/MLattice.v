(** Lattice construction and Viterbi search: lindera-core/src/viterbi.rs and mode.rs *)
From Coq Require Import List NArith ZArith Bool.
From Verif Require Import MBase MUtf8 MCodec MDict MCharDef MUnk.
Import ListNotations.

(* lindera-core/src/viterbi.rs:14-21 *)
Inductive edge_type := KNOWN | UNKNOWN | USER | INSERTED.

(* lindera-core/src/viterbi.rs:23-24, EdgeId(u32).  Not truncated: fewer than 2^32 edges (MLattice32.v has the casts, see C98). *)
Definition edge_id := nat.

(* lindera-core/src/viterbi.rs:26-38.  Indices are not truncated to u32: texts below 4 GiB (MLattice32.v has the casts, see C98). *)
Record edge := Edge {
  e_type : edge_type;
  e_entry : word_entry;
  e_path_cost : Z;
  e_left : option edge_id;
  e_start : nat;
  e_stop : nat;
  e_kanji : bool
}.

(* derived Default, lindera-core/src/viterbi.rs:26 *)
Definition default_edge : edge := Edge KNOWN default_word_entry 0 None 0 0 false.

(* lindera-core/src/viterbi.rs:40-45 *)
Definition num_chars (e : edge) : nat := (e_stop e - e_start e) / 3.

(* lindera-core/src/viterbi.rs:55-62 *)
Definition is_kanji (c : char) : bool := (19968 <=? c)%N && (c <=? 40879)%N.
(* lindera-core/src/viterbi.rs:60-62 *)
Definition is_kanji_only (s : str) : bool := forallb is_kanji s.

(* lindera-core/src/mode.rs:10-16 *)
Record penalty := Penalty {
  kanji_threshold : N;
  kanji_penalty : Z;
  other_threshold : N;
  other_penalty : Z
}.

(* lindera-core/src/mode.rs:18-27 *)
Definition default_penalty : penalty := Penalty 2 3000 7 1700.

(* lindera-core/src/mode.rs:29-44; `as i32` truncates and the product wraps (release profile) *)
Definition penalty_of (p : penalty) (e : edge) : Z :=
  let n := N.of_nat (num_chars e) in
  if (n <=? kanji_threshold p)%N then 0%Z
  else if e_kanji e then wrap32 (wrap32 (Z.of_N (n - kanji_threshold p)) * kanji_penalty p)
  else if (other_threshold p <? n)%N then wrap32 (wrap32 (Z.of_N (n - other_threshold p)) * other_penalty p)
  else 0%Z.

(* lindera-core/src/mode.rs:46-52 *)
Inductive mode := Normal | Decompose (p : penalty).

(* lindera-core/src/mode.rs:55-60 *)
Definition is_search (m : mode) : bool := match m with Normal => false | Decompose _ => true end.

(* lindera-core/src/mode.rs:61-66 *)
Definition penalty_cost (m : mode) (e : edge) : Z :=
  match m with Normal => 0%Z | Decompose p => penalty_of p e end.

(* lindera-core/src/viterbi.rs:47-53 *)
Record lattice := Lattice {
  capacity : nat;
  edges : list edge;
  starts_at : list (list edge_id);
  ends_at : list (list edge_id)
}.
(* derived Default, lindera-core/src/viterbi.rs:47-53 *)
Definition default_lattice : lattice := Lattice 0 [] [] [].

(* lindera-core/src/viterbi.rs:65-73 *)
Definition clear (l : lattice) : lattice :=
  Lattice (capacity l) [] (map (fun _ => []) (starts_at l)) (map (fun _ => []) (ends_at l)).

(* Vec::resize with Vec::new().  lindera-core/src/viterbi.rs:75-83. *)
Definition resize (l : list (list edge_id)) (n : nat) : list (list edge_id) :=
  firstn n l ++ repeat [] (n - length l).

(* lindera-core/src/viterbi.rs:75-83 *)
Definition set_capacity (l : lattice) (text_len : nat) : lattice :=
  let l := clear l in
  if Nat.ltb (capacity l) text_len then
    Lattice text_len [] (resize (starts_at l) (text_len + 1)) (resize (ends_at l) (text_len + 1))
  else l.

(* lindera-core/src/viterbi.rs:235-239 *)
Definition add_edge (l : lattice) (e : edge) : edge_id * lattice :=
  (length (edges l), Lattice (capacity l) (edges l ++ [e]) (starts_at l) (ends_at l)).

(* v[i].push(x).  lindera-core/src/viterbi.rs:227-233. *)
Definition push_at (v : list (list edge_id)) (i : nat) (x : edge_id) : res (list (list edge_id)) :=
  do c <- idx v i; Ok (upd v i (c ++ [x])).

(* lindera-core/src/viterbi.rs:227-233 *)
Definition add_edge_in_lattice (l : lattice) (e : edge) : res lattice :=
  let '(id, l) := add_edge l e in
  do s <- push_at (starts_at l) (e_start e) id;
  do t <- push_at (ends_at l) (e_stop e) id;
  Ok (Lattice (capacity l) (edges l) s t).

(* lindera-core/src/viterbi.rs:117-131 and 136-148: the edge for a dictionary word *)
Definition dict_edge (start : nat) (suffix : str) (w : nat * word_entry) : res edge :=
  let '(prefix_len, entry) := w in
  do p <- str_to suffix prefix_len;
  Ok (Edge KNOWN entry i32_max None start (start + prefix_len) (is_kanji_only p)).

(* lindera-core/src/viterbi.rs:114-132 / 136-148: the loop over one dictionary; the flag is `found` *)
Definition add_dict_edges (d : prefix_dict) (start : nat) (suffix : str) (st : lattice * bool) : res (lattice * bool) :=
  do ws <- pd_prefix d suffix;
  foldM (fun '(l, found) w =>
           do e <- dict_edge start suffix w;
           do l' <- add_edge_in_lattice l e;
           Ok (l', true)) ws st.

(* lindera-core/src/viterbi.rs:193-203: number of further characters with this category at this rank *)
Fixpoint group_len (cd : char_definitions) (category : category_id) (ord : nat) (s : str) : res nat :=
  match s with
  | [] => Ok 0%nat
  | c :: r =>
    do cats <- lookup_categories cd c;
    match nth_error cats ord with       (* categories.len() > category_ord && categories[category_ord] == category *)
    | Some k => if Nat.eqb k category then do n <- group_len cd category ord r; Ok (S n) else Ok 0%nat
    | None => Ok 0%nat
    end
  end.

(* lindera-core/src/viterbi.rs:177-225.  CategoryData.length is not used by the code. *)
Definition process_unknown_word (cd : char_definitions) (ud : unknown_dictionary)
    (category : category_id) (ord : nat) (unknown_end : option nat)
    (start : nat) (suffix : str) (found : bool) (l : lattice) : res (lattice * option nat) :=
  do data <- lookup_definition cd category;
  do n <- (if cd_invoke data || negb found then
             if cd_group data then do k <- group_len cd category ord (tl suffix); Ok (S k) else Ok 1%nat
           else Ok 0%nat);
  if Nat.ltb 0 n then
    let unknown_word := firstn n suffix in
    do ids <- ud_lookup_word_ids ud category;
    do l' <- foldM (fun l id =>
               do entry <- ud_word_entry ud id;
               add_edge_in_lattice l
                 (Edge UNKNOWN entry i32_max None start (start + blen unknown_word) (is_kanji_only unknown_word)))
             ids l;
    Ok (l', Some (start + blen unknown_word))
  else Ok (l, unknown_end).

(* categories.iter().enumerate().  lindera-core/src/viterbi.rs:159. *)
Definition enumerate {A} (l : list A) : list (nat * A) := combine (seq 0 (length l)) l.

(* lindera-core/src/viterbi.rs:103-173, body of the loop over start *)
Definition set_text_step (dict : prefix_dict) (user : option prefix_dict) (cd : char_definitions)
    (ud : unknown_dictionary) (text : str) (m : mode)
    (st : lattice * option nat) (start : nat) : res (lattice * option nat) :=
  let '(l, unknown_end) := st in
  do ends <- idx (ends_at l) start;
  match ends with
  | [] => Ok (l, unknown_end)
  | _ =>
    do suffix <- str_from text start;
    do '(l, found) <- match user with
                      | Some u => add_dict_edges u start suffix (l, false)
                      | None => Ok (l, false)
                      end;
    do '(l, found) <- add_dict_edges dict start suffix (l, found);
    if is_search m || match unknown_end with Some i => Nat.leb i start | None => true end then
      match suffix with
      | [] => Ok (l, unknown_end)
      | c :: _ =>
        do cats <- lookup_categories cd c;
        foldM (fun '(l, ue) '(ord, category) =>
                 process_unknown_word cd ud category ord ue start suffix found l)
              (enumerate cats) (l, unknown_end)
      end
    else Ok (l, unknown_end)
  end.

(* lindera-core/src/viterbi.rs:86-174.  assert_eq!(EOS_NODE, end_edge_id) holds after clear. *)
Definition set_text (l : lattice) (dict : prefix_dict) (user : option prefix_dict) (cd : char_definitions)
    (ud : unknown_dictionary) (text : str) (m : mode) : res lattice :=
  let len := blen text in
  let l := set_capacity l len in
  let '(start_id, l) := add_edge l default_edge in
  let '(end_id, l) := add_edge l default_edge in
  if negb (Nat.eqb end_id 1) then Panic else
  do t <- push_at (ends_at l) 0 start_id;
  do s <- push_at (starts_at l) len end_id;
  let l := Lattice (capacity l) (edges l) s t in
  do '(l, _) <- foldM (set_text_step dict user cd ud text m) (seq 0 len) (l, None);
  Ok l.

(* lindera-core/src/viterbi.rs:255-263: the cost of reaching the right edge through a left edge, i32 wrapping *)
Definition through_cost (cm : conn_matrix) (m : mode) (es : list edge) (right : word_entry) (left_id : edge_id)
  : res (Z * edge_id) :=
  do le <- idx es left_id;
  do c <- cm_cost cm (we_right (e_entry le)) (we_left right);
  Ok (wrap32 (wrap32 (e_path_cost le + c) + penalty_cost m le), left_id).

(* Iterator::min_by_key(|&(cost, _)| cost): the first of the minimal elements.  lindera-core/src/viterbi.rs:264. *)
Fixpoint min_by_cost (l : list (Z * edge_id)) : option (Z * edge_id) :=
  match l with
  | [] => None
  | x :: r => match min_by_cost r with
              | None => Some x
              | Some y => if (fst x <=? fst y)%Z then Some x else Some y
              end
  end.

(* lindera-core/src/viterbi.rs:251-269, body of the loop over the right edges *)
Definition path_cost_step (cm : conn_matrix) (m : mode) (lefts : list edge_id) (es : list edge) (right_id : edge_id)
  : res (list edge) :=
  do re <- idx es right_id;
  do cs <- mapM (through_cost cm m es (e_entry re)) lefts;
  match min_by_cost cs with
  | Some (best, best_left) =>
    Ok (upd es right_id (Edge (e_type re) (e_entry re) (wrap32 (we_cost (e_entry re) + best)) (Some best_left)
                              (e_start re) (e_stop re) (e_kanji re)))
  | None => Ok es
  end.

(* lindera-core/src/viterbi.rs:246-272 *)
Definition calculate_path_costs (cm : conn_matrix) (m : mode) (l : lattice) : res lattice :=
  do es <- foldM (fun es i =>
             do lefts <- idx (ends_at l) i;
             do rights <- idx (starts_at l) i;
             foldM (path_cost_step cm m lefts) rights es)
           (seq 0 (length (starts_at l))) (edges l);
  Ok (Lattice (capacity l) es (starts_at l) (ends_at l)).

(* lindera-core/src/viterbi.rs:279-286: the loop along left_edge.  None = more steps than the fuel (the Rust loop would not end). *)
Fixpoint follow (fuel : nat) (es : list edge) (id : edge_id) : option (res (list (nat * word_id))) :=
  match fuel with
  | O => None
  | S f =>
    match nth_error es id with
    | None => Some Panic
    | Some e =>
      match e_left e with
      | None => Some (Ok [])
      | Some l =>
        match follow f es l with
        | None => None
        | Some r => Some (do t <- r; Ok ((e_start e, we_id (e_entry e)) :: t))
        end
      end
    end
  end.

(* lindera-core/src/viterbi.rs:274-290.  reverse, then pop drops the EOS entry.  The fuel is the number of positions plus two. *)
Definition tokens_offset (l : lattice) : option (res (list (nat * word_id))) :=
  match follow (S (S (length (starts_at l)))) (edges l) 1 with
  | None => None
  | Some r => Some (do t <- r; Ok (removelast (rev t)))
  end.
