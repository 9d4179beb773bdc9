(** Specification vocabulary: context ids outside the connection matrix. *)
From Coq Require Import List NArith ZArith Bool.
From Verif Require Import MBase MUtf8 MCodec MDict MCharDef MUnk MLattice MTokenizer STok.
Import ListNotations.

(* the cell of a pair of context ids, computed in 32 bits *)
Definition pair_cell (cm : conn_matrix) (f b : N) : N := ((b + f * cm_backward cm) mod 4294967296)%N.
(* the two bytes of the cell are not in the table *)
Definition outside (cm : conn_matrix) (f b : N) : Prop := (N.of_nat (length (cm_data cm)) < 2 * pair_cell cm f b + 2)%N.
(* the number in the cell, sixteen bits with sign; 0 outside *)
Definition table_cost (cm : conn_matrix) (f b : N) : Z :=
  match nth_error (cm_data cm) (N.to_nat (2 * pair_cell cm f b)), nth_error (cm_data cm) (N.to_nat (2 * pair_cell cm f b + 1)) with
  | Some lo, Some hi => ((Z.of_N (lo + 256 * hi) + 32768) mod 65536 - 32768)%Z
  | _, _ => 0%Z
  end.

(* the tokenizer t has the words and categories of A, with any context ids of 16 bits, and the costs of its own matrix, in
   whatever cells the ids lead to *)
Record means_words (t : tokenizer) (A : adict) : Prop := {
  mw_sys : dict_means (d_dict (t_dictionary t)) (a_sys A);
  mw_usr : match t_user t with
           | Some u => dict_means (u_dict u) (a_usr A)
           | None => a_usr A = []
           end;
  mw_cats : forall c, valid_char c -> lookup_categories (d_chardef (t_dictionary t)) c = Ok (a_cats A c);
  mw_def : forall c k, valid_char c -> In k (a_cats A c) ->
           exists len, lookup_definition (d_chardef (t_dictionary t)) k = Ok (CategoryData (a_invoke A k) (a_group A k) len);
  mw_unk : forall c k, valid_char c -> In k (a_cats A c) ->
           exists ids, ud_lookup_word_ids (d_unknown (t_dictionary t)) k = Ok ids
             /\ mapM (ud_word_entry (d_unknown (t_dictionary t))) ids = Ok (a_unk A k);
  mw_conn : forall f b, a_conn A f b = table_cost (d_matrix (t_dictionary t)) f b;
  mw_sizes : a_fsize A = 65536%N /\ a_bsize A = 65536%N;
  mw_sys_ok : table_ok A (a_sys A);
  mw_usr_ok : table_ok A (a_usr A);
  mw_unk_ok : forall c k e, valid_char c -> In k (a_cats A c) -> In e (a_unk A k) -> entry_ok A e
}.

(* a word of W with right context id f ends after pre, or the sentence starts there *)
Definition ends_with (W : str -> str -> str -> word_entry -> Prop) (pre : str) (f : N) : Prop :=
  (pre = [] /\ f = 0%N) \/ exists p k r e, pre = p ++ k /\ W p (k ++ r) k e /\ f = we_right e.
(* a word of W with left context id b starts after pre, or the sentence s ends there *)
Definition goes_on (W : str -> str -> str -> word_entry -> Prop) (s pre : str) (b : N) : Prop :=
  (pre = s /\ b = 0%N) \/ exists r k e, W pre r k e /\ b = we_left e.

(* somewhere in the sentence s two neighbouring words of the search, or a word and an end of the sentence, have their cell outside the table *)
Definition off_table (A : adict) (m : mode) (cm : conn_matrix) (s : str) : Prop :=
  exists W Act pre f b, searched A m s W Act /\ ends_with W pre f /\ goes_on W s pre b /\ outside cm f b.

(* the dictionary A with other user entries, whose context ids may be any of 16 bits *)
Definition with_any_user (A : adict) (tbl : list (str * list word_entry)) (cm : conn_matrix) : adict :=
  ADict (a_sys A) tbl (a_cats A) (a_invoke A) (a_group A) (a_unk A) (table_cost cm) 65536 65536.
