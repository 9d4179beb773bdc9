(** Specification vocabulary for the dictionary builders.  Nothing here calls the builders. *)
From Coq Require Import String.
From Coq Require Import List NArith ZArith Bool.
From Verif Require Import MBase MUtf8 MText MCodec MDict MBincode MTokenizer MDetails MBuild.
Import ListNotations.
Local Open Scope list_scope.

(* what yada's DoubleArrayBuilder asks of its input: keys not empty, without zero bytes, strictly increasing in
   byte order, values of at most 31 bits *)
Fixpoint bytes_lt (a b : list N) : Prop :=
  match a, b with
  | _, [] => False
  | [], _ :: _ => True
  | x :: a', y :: b' => (x < y)%N \/ (x = y /\ bytes_lt a' b')
  end.
Fixpoint increasing (l : list (list N)) : Prop :=
  match l with [] => True | x :: r => Forall (bytes_lt x) r /\ increasing r end.
Definition trie_input (da : list (list N * N)) : Prop :=
  da <> [] /\ Forall (fun '(k, v) => k <> [] /\ ~ In 0%N k /\ (v < 2147483648)%N) da /\ increasing (map fst da).

Definition no_nul (s : str) : Prop := ~ In 0%N s.

(* the sum of f over a list *)
Definition total {A} (f : A -> nat) (l : list A) : nat := fold_right (fun x n => (f x + n)%nat) 0%nat l.

(** ** System dictionaries *)

(* the cost and the left and right context ids of a row, if its second to fourth fields are such numbers *)
Definition sys_numbers (r : row) : option (Z * N * N) :=
  match r with
  | _ :: f1 :: f2 :: f3 :: _ =>
    match parse_i16 (trim f3), parse_u16 (trim f1), parse_u16 (trim f2) with
    | Some c, Some l, Some r => Some (c, l, r)
    | _, _, _ => None
    end
  | _ => None
  end.

(* two similar-looking characters are unified if asked *)
Definition unify_char (c : char) : char := if (c =? 0x2015)%N then 0x2014%N else if (c =? 0xFF5E)%N then 0x301C%N else c.
Definition unify (o : dict_options) (s : str) : str := if o_normalize o then map unify_char s else s.

Definition sys_surface (o : dict_options) (r : row) : str := unify o (hd [] r).

(* the rows with surface s and usable numbers, in file order *)
Definition sys_rows_for (o : dict_options) (s : str) (rows : list row) : list row :=
  filter (fun r => match sys_numbers r with Some _ => str_eqb (sys_surface o r) s | None => false end) rows.

(* the fields from the fifth on *)
Definition sys_row_details (o : dict_options) (r : row) : list str := map (unify o) (skipn 4 r).

(* a built dictionary gives e for the row r: its numbers, a system id, and details of that id that are those of the row *)
Definition sys_found (o : dict_options) (d : dictionary) (r : row) (e : word_entry) : Prop :=
  sys_numbers r = Some (we_cost e, we_left e, we_right e) /\ wsys (we_id e) = true /\ wid (we_id e) <> 4294967295%N /\
  word_details d (wid (we_id e)) = Ok (Some (sys_row_details o r)).

(* an upper bound of the bytes its details take *)
Definition sys_row_size (o : dict_options) (r : row) : nat := 4 + total (fun f => 1 + blen f) (sys_row_details o r).

(* what the file formats can hold *)
Record sys_limits (o : dict_options) (rows : list row) : Prop := {
  sl_some : Exists (fun r => sys_numbers r <> None) rows;              (* yada asks for a key *)
  sl_valid : Forall (Forall valid_str) rows;
  sl_details : Forall (fun r => 5 <= length r)%nat rows;             (* at least one detail *)
  sl_surface : Forall (fun r => hd [] r <> [] /\ no_nul (hd [] r)) rows;   (* for yada *)
  sl_nul : Forall (fun r => Forall no_nul (skipn 4 r)) rows;         (* NUL separates the details *)
  sl_count : (N.of_nat (length rows) < 67108864)%N;                  (* 2^26 *)
  sl_bytes : (N.of_nat (total (sys_row_size o) rows) < 4294967296)%N;
  sl_homographs : forall s, (length (sys_rows_for o s rows) <= 31)%nat
}.
(* the same with any number of rows per surface *)
Record sys_room (o : dict_options) (rows : list row) : Prop := {
  sr_some : Exists (fun r => sys_numbers r <> None) rows;
  sr_valid : Forall (Forall valid_str) rows;
  sr_details : Forall (fun r => 5 <= length r)%nat rows;
  sr_surface : Forall (fun r => hd [] r <> [] /\ no_nul (hd [] r)) rows;
  sr_nul : Forall (fun r => Forall no_nul (skipn 4 r)) rows;
  sr_count : (N.of_nat (length rows) < 67108864)%N;
  sr_bytes : (N.of_nat (total (sys_row_size o) rows) < 4294967296)%N
}.

(* what a five bit count leaves of a list: the remainder of its length by 32 many, in one piece, starting at most a 32th
   of the length in *)
Definition five_bits {A} (l l' : list A) : Prop :=
  exists j, (j <= length l / 32)%nat /\ l' = firstn (length l mod 32) (skipn j l).
(* the entries es are those of what a five bit count leaves of the rows: of all of them if there are at most 31 *)
Definition found_of {A B} (found : A -> B -> Prop) (rows : list A) (es : list B) : Prop :=
  exists left, five_bits rows left /\ Forall2 found left es.

(* the dictionary made of the built files and any other parts *)
Definition sys_dictionary (f : dict_files) (m : conn_matrix) (cd : MCharDef.char_definitions) (u : MUnk.unknown_dictionary) : dictionary :=
  Dictionary (loaded_dict f) m cd u (f_words_idx f) (f_words f).

(** ** User dictionaries *)

(* a row with the number of fields of a simple row *)
Definition simple_row (o : user_options) (r : row) : Prop := length r = uo_simple_fields o.

(* cost and context ids: the configured ones for a simple row, those in the row for others *)
Definition user_numbers (o : user_options) (r : row) : option (Z * N * N) :=
  if Nat.eqb (length r) (uo_simple_fields o) then Some (uo_simple_cost o, uo_simple_context o, uo_simple_context o)
  else match r with
       | _ :: f1 :: f2 :: f3 :: _ =>
         match parse_i16 f3, parse_u16 f1, parse_u16 f2 with
         | Some c, Some l, Some r => Some (c, l, r)
         | _, _, _ => None
         end
       | _ => None
       end.

Definition user_rows_for (s : str) (rows : list row) : list row := filter (fun r => str_eqb (hd [] r) s) rows.

(* the details of a row: from the handler for a simple row (or all fields after the surface), else from the fifth field on *)
Definition user_row_details (o : user_options) (r : row) : option (list str) :=
  if Nat.eqb (length r) (uo_simple_fields o) then
    match uo_handler o with
    | None => Some (skipn 1 r)
    | Some h => match h r with Ok ds => Some ds | _ => None end
    end
  else if Nat.leb (uo_detailed_fields o) (length r) then Some (skipn 4 r)
  else None.

Definition user_found (o : user_options) (d : user_dictionary) (r : row) (e : word_entry) : Prop :=
  user_numbers o r = Some (we_cost e, we_left e, we_right e) /\ wsys (we_id e) = false /\ wid (we_id e) <> 4294967295%N /\
  exists ds, user_row_details o r = Some ds /\ user_word_details d (wid (we_id e)) = Ok (Some ds).

Definition user_row_size (o : user_options) (r : row) : nat :=
  match user_row_details o r with
  | Some ds => 8 + total (fun f => 8 + blen f) ds
  | None => 0
  end.

Record user_limits (o : user_options) (rows : list row) : Prop := {
  ul_some : rows <> [];
  ul_surface : Forall (fun r => valid_str (hd [] r) /\ hd [] r <> [] /\ no_nul (hd [] r)) rows;
  ul_valid : Forall (fun r => forall ds, user_row_details o r = Some ds -> Forall valid_str ds) rows;
  ul_cost : is_i16 (uo_simple_cost o) /\ is_u16 (uo_simple_context o);
  ul_count : (N.of_nat (length rows) < 67108864)%N;
  ul_bytes : (N.of_nat (total (user_row_size o) rows) < 4294967296)%N;
  ul_homographs : forall s, (length (user_rows_for s rows) <= 31)%nat
}.
Record user_room (o : user_options) (rows : list row) : Prop := {
  ur_some : rows <> [];
  ur_surface : Forall (fun r => valid_str (hd [] r) /\ hd [] r <> [] /\ no_nul (hd [] r)) rows;
  ur_valid : Forall (fun r => forall ds, user_row_details o r = Some ds -> Forall valid_str ds) rows;
  ur_cost : is_i16 (uo_simple_cost o) /\ is_u16 (uo_simple_context o);
  ur_count : (N.of_nat (length rows) < 67108864)%N;
  ur_bytes : (N.of_nat (total (user_row_size o) rows) < 4294967296)%N
}.

(* the fields from which the code reads are there *)
Definition long_enough (o : user_options) (r : row) : Prop := r <> [] /\ (length r = uo_simple_fields o \/ (4 <= length r)%nat).

(* the numbers can be read and the number of fields is right *)
Definition row_acceptable (o : user_options) (r : row) : Prop := user_numbers o r <> None /\ user_row_details o r <> None.

(* where the reading and the base form are in the details, per kind: lindera-filter's token filters use these *)
Definition reading_index (k : dictionary_kind) : nat :=
  match k with IPADIC | IPADICNEologd => 7 | UniDic => 6 | KoDic => 3 | CcCedict => 4 end.

(* the number of fields of a row with everything given *)
Definition full_fields (k : dictionary_kind) : nat := match k with IPADIC | IPADICNEologd => 13 | UniDic => 21 | KoDic | CcCedict => 12 end.

(** ** Which of several bad rows decides *)

(* the first bad row when rows are taken in the order of their surfaces (by bytes), equal surfaces in the order of the file *)
Definition first_bad (key : row -> str) (bad : row -> Prop) (rows : list row) (r : row) : Prop :=
  bad r /\ exists pre post, rows = pre ++ r :: post /\
    (forall r', In r' pre -> bad r' -> bytes_lt (utf8 (key r)) (utf8 (key r'))) /\
    (forall r', In r' post -> bad r' -> ~ bytes_lt (utf8 (key r')) (utf8 (key r))).

(* rows that stop the builders: too few fields, or numbers that cannot be read; CC-CEDICT leaves the latter out *)
Definition sys_row_bad (o : dict_options) (r : row) : Prop :=
  (length r < 4)%nat \/ (o_skip_invalid o = false /\ sys_numbers r = None).
