(** Property theorems about the dictionary builders: C13 - C18. *)
From Coq Require Import String.
From Coq Require Import List NArith ZArith Bool Permutation Lia.
From Verif Require Import MBase MUtf8 MText MCodec MDict MCharDef MUnk MBincode MTokenizer MDetails MBuild STok SBuild
  LUtf8 LBuild LSysDict LUserDict LKinds LFirst XBuild.
Import ListNotations.
Local Open Scope string_scope.
Local Open Scope list_scope.

(** C13: lookup in a built system dictionary gives exactly the usable rows with that surface, in file order, each with its
    own numbers (and details); prefix search gives those of all prefixes.  The keys handed to yada are as it needs them. *)
Theorem C13_built_rows_found : forall o rows f, sys_limits o rows -> build_dict o rows = Ok f -> forall m cd u,
  exists tbl,
    dict_means (loaded_dict f) tbl /\
    trie_input (f_da f) /\
    (forall s, valid_str s -> pd_find_surface (loaded_dict f) s = Ok (entries_of tbl s)) /\
    (forall s, Forall2 (sys_found o (sys_dictionary f m cd u)) (sys_rows_for o s rows) (entries_of tbl s)).
Proof. exact sys_built. Qed.
Print Assumptions C13_built_rows_found.

(** C13: the build succeeds unless a row has fewer than four fields or, without skipping, unusable numbers. *)
Theorem C13_build_succeeds : forall o rows,
  (N.of_nat (total (sys_row_size o) rows) < 4294967296)%N ->
  Forall (fun r => r <> []) rows ->
  (Forall (fun r => 4 <= List.length r) rows -> o_skip_invalid o = true \/ Forall (fun r => sys_numbers r <> None) rows ->
     exists f, build_dict o rows = Ok f) /\
  (Forall (fun r => 4 <= List.length r) rows -> o_skip_invalid o = false -> Exists (fun r => sys_numbers r = None) rows ->
     build_dict o rows = Err EParse) /\
  (Exists (fun r => List.length r < 4) rows -> forall f, build_dict o rows <> Ok f).
Proof. exact sys_build_outcome. Qed.
Print Assumptions C13_build_succeeds.
Example C13_ex : sys_limits (DictOptions true true) sys_sample /\
  (exists f, build_dict (DictOptions true true) sys_sample = Ok f /\
     pd_find_surface (loaded_dict f) (lit "a") =
       Ok [WordEntry (WordId 0 true) 5 1 2; WordEntry (WordId 1 true) (-7) 3 4] /\
     pd_prefix (loaded_dict f) (lit "abc") =
       Ok [(1, WordEntry (WordId 0 true) 5 1 2); (1, WordEntry (WordId 1 true) (-7) 3 4); (2, WordEntry (WordId 2 true) 6 0 0)] /\
     (* the skipped row has no entry but keeps its number *)
     pd_find_surface (loaded_dict f) (lit "b") = Ok [] /\
     (* U+2015 is looked up as U+2014 *)
     pd_find_surface (loaded_dict f) [0x2014%N] = Ok [WordEntry (WordId 4 true) 1 0 0] /\
     pd_find_surface (loaded_dict f) [0x2015%N] = Ok []) /\
  build_dict (DictOptions true false) sys_sample = Err EParse.
Proof. split; [exact sys_sample_limits|]. split; [eexists; split; [vm_compute; reflexivity|]; repeat match goal with |- _ /\ _ => split end; vm_compute; reflexivity|vm_compute; reflexivity]. Qed.

(** C14: the same for user dictionaries. *)
Theorem C14_built_rows_found : forall o rows d, user_limits o rows -> build_user o rows = Ok d ->
  exists tbl,
    dict_means (u_dict d) tbl /\
    trie_input (pd_da (u_dict d)) /\
    (forall s, valid_str s -> pd_find_surface (u_dict d) s = Ok (entries_of tbl s)) /\
    (forall s, Forall2 (user_found o d) (user_rows_for s rows) (entries_of tbl s)).
Proof. exact user_built. Qed.
Print Assumptions C14_built_rows_found.
(** C14: the numbers of a simple row, and of the others, for each kind. *)
Theorem C14_simple_numbers : forall k surface pos reading,
  user_numbers (kind_user_options k) [surface; pos; reading] = Some ((-10000)%Z, 0%N, 0%N).
Proof. exact kind_numbers. Qed.
Print Assumptions C14_simple_numbers.
Theorem C14_own_numbers : forall k surface left right cost details l r c,
  parse_u16 left = Some l -> parse_u16 right = Some r -> parse_i16 cost = Some c ->
  user_numbers (kind_user_options k) (surface :: left :: right :: cost :: details) = Some (c, l, r).
Proof. exact kind_own_numbers. Qed.
Print Assumptions C14_own_numbers.
Example C14_ex : user_limits (kind_user_options IPADIC) user_sample /\
  (exists d, build_user (kind_user_options IPADIC) user_sample = Ok d /\
     pd_find_surface (u_dict d) (lit "tree") = Ok [WordEntry (WordId 2 false) (-10000) 0 0] /\
     pd_find_surface (u_dict d) (lit "sky") = Ok [WordEntry (WordId 0 false) 77 10 11; WordEntry (WordId 1 false) (-10000) 0 0] /\
     user_word_details d 2 = Ok (Some [lit "noun"; star; star; star; star; star; lit "tree"; lit "TREE"; star])).
Proof. split; [exact user_sample_limits|]. eexists; split; [vm_compute; reflexivity|]; repeat match goal with |- _ /\ _ => split end; vm_compute; reflexivity. Qed.

(** C15 is false: with 32 rows of the same surface none of them is found, with 33 only one, and not the first. *)
Theorem C15_system_homographs_refuted : exists o rows f,
  build_dict o rows = Ok f /\ List.length (sys_rows_for o (lit "a") rows) = 32%nat /\ pd_find_surface (loaded_dict f) (lit "a") = Ok [].
Proof.
  exists (DictOptions false false), (repeat [lit "a"; lit "0"; lit "0"; lit "0"; lit "noun"] 32).
  eexists. repeat match goal with |- _ /\ _ => split end; vm_compute; reflexivity.
Qed.
Print Assumptions C15_system_homographs_refuted.
Theorem C15_user_homographs_refuted : exists rows d,
  build_user (kind_user_options IPADIC) rows = Ok d /\ List.length (user_rows_for (lit "a") rows) = 33%nat /\
  pd_find_surface (u_dict d) (lit "a") = Ok [WordEntry (WordId 1 false) (-10000) 0 0].
Proof.
  exists (repeat [lit "a"; lit "noun"; lit "A"] 33).
  eexists. repeat match goal with |- _ /\ _ => split end; vm_compute; reflexivity.
Qed.
Print Assumptions C15_user_homographs_refuted.

(** C15: what is found instead. With n rows of a surface the search gives n mod 32 of them, in order and next to each other,
    starting at most n / 32 rows in; it never panics and never gives rows of another surface, and the dictionary still means
    one table of words, so all that C02 to C12 say about the search holds for it. *)
Theorem C15_system_found_partial : forall o rows f, sys_room o rows -> build_dict o rows = Ok f -> forall m cd u, exists tbl,
  dict_means (loaded_dict f) tbl /\
  trie_input (f_da f) /\
  (forall s, valid_str s -> pd_find_surface (loaded_dict f) s = Ok (entries_of tbl s)) /\
  (forall s, found_of (sys_found o (sys_dictionary f m cd u)) (sys_rows_for o s rows) (entries_of tbl s)).
Proof. exact sys_built_any. Qed.
Print Assumptions C15_system_found_partial.
Theorem C15_user_found_partial : forall o rows d, user_room o rows -> build_user o rows = Ok d -> exists tbl,
  dict_means (u_dict d) tbl /\
  trie_input (pd_da (u_dict d)) /\
  (forall s, valid_str s -> pd_find_surface (u_dict d) s = Ok (entries_of tbl s)) /\
  (forall s, found_of (user_found o d) (user_rows_for s rows) (entries_of tbl s)).
Proof. exact user_built_any. Qed.
Print Assumptions C15_user_found_partial.
Example C15_ex : user_room (kind_user_options IPADIC) (repeat [lit "a"; lit "noun"; lit "A"] 33) /\
  sys_room (DictOptions false false) (repeat [lit "a"; lit "0"; lit "0"; lit "0"; lit "noun"] 33) /\
  (exists d, build_user (kind_user_options IPADIC) (repeat [lit "a"; lit "noun"; lit "A"] 33) = Ok d) /\
  (exists f, build_dict (DictOptions false false) (repeat [lit "a"; lit "0"; lit "0"; lit "0"; lit "noun"] 33) = Ok f).
Proof. exact (conj user_many_room (conj sys_many_room (conj user_many_build sys_many_build))). Qed.

(** C15: the number of entries that are found; none when the number of rows is a multiple of 32. *)
Theorem C15_count_partial : forall o rows f s, sys_room o rows -> build_dict o rows = Ok f -> valid_str s ->
  exists es, pd_find_surface (loaded_dict f) s = Ok es /\ List.length es = (List.length (sys_rows_for o s rows) mod 32)%nat.
Proof. exact sys_found_count. Qed.
Print Assumptions C15_count_partial.
Theorem C15_user_count_partial : forall o rows d s, user_room o rows -> build_user o rows = Ok d -> valid_str s ->
  exists es, pd_find_surface (u_dict d) s = Ok es /\ List.length es = (List.length (user_rows_for s rows) mod 32)%nat.
Proof. exact user_found_count. Qed.
Print Assumptions C15_user_count_partial.

(** C16: the details of every id are those of its row (the rows in some order, the one of the sorted surfaces);
    there are none past the last row. *)
Theorem C16_details_by_id : forall o rows f m cd u, sys_room o rows -> build_dict o rows = Ok f ->
  exists sorted, Permutation rows sorted /\
    (forall i r, nth_error sorted i = Some r -> word_details (sys_dictionary f m cd u) (N.of_nat i) = Ok (Some (sys_row_details o r))) /\
    (forall id, (N.of_nat (List.length rows) <= id)%N -> word_details (sys_dictionary f m cd u) id = Ok None).
Proof. exact sys_details_by_id. Qed.
Print Assumptions C16_details_by_id.
Example C16_ex : sys_room (DictOptions true true) sys_sample /\
  exists f, build_dict (DictOptions true true) sys_sample = Ok f /\ forall m cd u,
    word_details (sys_dictionary f m cd u) 0 = Ok (Some [lit "noun"; lit "A"]) /\
    word_details (sys_dictionary f m cd u) 3 = Ok (Some [lit "skipped"]) /\
    word_details (sys_dictionary f m cd u) 4 = Ok (Some [[0x2014%N]; []]) /\
    word_details (sys_dictionary f m cd u) 5 = Ok None.
Proof. split; [exact (limits_room _ _ sys_sample_limits)|]. eexists; split; [vm_compute; reflexivity|]. intros. repeat match goal with |- _ /\ _ => split end; vm_compute; reflexivity. Qed.

(* a row of four fields has no details, but gets one empty detail *)
Theorem C16_four_fields : exists f, build_dict (DictOptions false false) [[lit "a"; lit "0"; lit "0"; lit "0"]] = Ok f /\
  forall m cd u, word_details (sys_dictionary f m cd u) 0 = Ok (Some [[]]).
Proof. eexists. split; [vm_compute; reflexivity|]. intros. vm_compute. reflexivity. Qed.
Print Assumptions C16_four_fields.

(** C17: the details of every user id are those of its row, in full for detailed rows, expanded for simple rows. *)
Theorem C17_details_by_id : forall o rows d, user_room o rows -> build_user o rows = Ok d ->
  exists sorted, Permutation rows sorted /\
    (forall i r, nth_error sorted i = Some r ->
       exists ds, user_row_details o r = Some ds /\ user_word_details d (N.of_nat i) = Ok (Some ds)) /\
    (forall id, (N.of_nat (List.length rows) <= id)%N -> user_word_details d id = Ok None).
Proof. exact user_details_by_id. Qed.
Print Assumptions C17_details_by_id.

(** C17: what the expansion of a simple row is, for each kind. *)
Theorem C17_simple_rows : forall k surface pos reading,
  exists ds, user_row_details (kind_user_options k) [surface; pos; reading] = Some ds /\
    nth_error ds 0 = Some pos /\ nth_error ds (reading_index k) = Some reading /\
    (k = IPADIC \/ k = IPADICNEologd -> nth_error ds 6 = Some surface) /\
    List.length ds = full_fields k - 4 /\
    (forall i d, nth_error ds i = Some d -> d = pos \/ d = reading \/ d = surface \/ d = lit "*").
Proof. exact kind_simple_details. Qed.
Print Assumptions C17_simple_rows.
Theorem C17_detailed_rows : forall k r, List.length r <> 3 -> full_fields k <= List.length r ->
  user_row_details (kind_user_options k) r = Some (skipn 4 r).
Proof. exact kind_detailed_details. Qed.
Print Assumptions C17_detailed_rows.
Theorem C17_short_rows : forall k r, List.length r <> 3 -> List.length r < full_fields k -> user_row_details (kind_user_options k) r = None.
Proof. exact kind_short_details. Qed.
Print Assumptions C17_short_rows.
Example C17_ex : user_room (kind_user_options IPADIC) user_sample /\
  exists d, build_user (kind_user_options IPADIC) user_sample = Ok d /\
    user_word_details d 0 = Ok (Some [lit "1"; lit "2"; lit "3"; lit "4"; lit "5"; lit "6"; lit "7"; lit "8"; lit "9"]) /\
    user_word_details d 1 = Ok (Some [lit "noun"; star; star; star; star; star; lit "sky"; lit "SKY"; star]) /\
    user_word_details d 3 = Ok None.
Proof. split; [exact (user_limits_room _ _ user_sample_limits)|]. eexists; split; [vm_compute; reflexivity|]. repeat match goal with |- _ /\ _ => split end; vm_compute; reflexivity. Qed.

(** C18: without rows of one or two fields the outcome is as it should be: a dictionary if all rows are acceptable, an error
    otherwise, a parse error if numbers cannot be read. *)
Theorem C18_build_outcome_partial : forall k rows,
  Forall (fun r : row => List.length r = 3 \/ 4 <= List.length r) rows ->
  (Forall (row_acceptable (kind_user_options k)) rows -> exists d, build_user (kind_user_options k) rows = Ok d) /\
  (Exists (fun r => user_numbers (kind_user_options k) r = None) rows -> build_user (kind_user_options k) rows = Err EParse) /\
  (Exists (fun r => ~ row_acceptable (kind_user_options k) r) rows -> exists e, build_user (kind_user_options k) rows = Err e).
Proof. exact kind_build_outcome. Qed.
Print Assumptions C18_build_outcome_partial.
Example C18_ex : row_acceptable (kind_user_options UniDic) [lit "a"; lit "b"; lit "c"] /\
  build_user (kind_user_options UniDic) [[lit "a"; lit "b"; lit "c"]; [lit "a"; lit "1"; lit "2"; lit "x"]] = Err EParse /\
  build_user (kind_user_options UniDic) [[lit "a"; lit "1"; lit "2"; lit "3"]] = Err EContent.
Proof. split; [split; discriminate|]. split; vm_compute; reflexivity. Qed.

(** C18 is false for rows with one or two fields: every kind panics. *)
Theorem C18_short_rows_refuted : forall k surface rest, List.length rest <= 1 ->
  build_user (kind_user_options k) [surface :: rest] = Panic.
Proof. exact short_row_panics. Qed.
Print Assumptions C18_short_rows_refuted.

(** C18: the outcome for all rows. The first row with unreadable or missing numbers decides, in the order of the surfaces: a
    panic if it has fewer than four fields, a parse error otherwise. Without such a row the number of fields decides. *)
Theorem C18_exact_partial : forall k rows, let o := kind_user_options k in let bad := fun r => user_numbers o r = None in
  Forall (fun r => r <> []) rows ->
  (Exists bad rows -> exists r, first_bad (hd []) bad rows r) /\
  (forall r, first_bad (hd []) bad rows r -> build_user o rows = if Nat.ltb (List.length r) 4 then Panic else Err EParse) /\
  (Forall (fun r => ~ bad r) rows -> Exists (fun r => user_row_details o r = None) rows -> build_user o rows = Err EContent) /\
  (Forall (row_acceptable o) rows -> exists d, build_user o rows = Ok d).
Proof. exact kind_build_exact. Qed.
Print Assumptions C18_exact_partial.
Example C18_exact_ex : let o := kind_user_options KoDic in let bad := fun r => user_numbers o r = None in
  let rows := [[lit "b"; lit "1"]; [lit "a"; lit "1"; lit "2"; lit "x"]; [lit "a"]] in
  first_bad (hd []) bad rows [lit "a"; lit "1"; lit "2"; lit "x"] /\ build_user o rows = Err EParse /\
  build_user o [[lit "b"; lit "1"; lit "2"; lit "x"]; [lit "a"]] = Panic.
Proof.
  cbv zeta. split; [|split; vm_compute; reflexivity]. split; [vm_compute; reflexivity|].
  exists [[lit "b"; lit "1"]], [[lit "a"]]. split; [reflexivity|]. split.
  - intros r [<-|[]] _. cbn. lia.
  - intros r [<-|[]] _. cbn. lia.
Qed.

(** C59: the same for the rows of a system dictionary. *)
Theorem C59_rows_partial : forall o rows, Forall (fun r => r <> []) rows ->
  (Exists (sys_row_bad o) rows -> exists r, first_bad (sys_surface o) (sys_row_bad o) rows r) /\
  (forall r, first_bad (sys_surface o) (sys_row_bad o) rows r -> build_dict o rows = if Nat.ltb (List.length r) 4 then Panic else Err EParse) /\
  (Forall (fun r => ~ sys_row_bad o r) rows -> (N.of_nat (total (sys_row_size o) rows) < 4294967296)%N -> exists f, build_dict o rows = Ok f) /\
  (Forall (fun r => ~ sys_row_bad o r) rows -> build_dict o rows <> Panic).
Proof. exact sys_build_exact. Qed.
Print Assumptions C59_rows_partial.
Example C59_rows_ex : let o := DictOptions false false in
  let rows := [[lit "b"; lit "1"]; [lit "a"; lit "1"; lit "2"; lit "x"]] in
  first_bad (sys_surface o) (sys_row_bad o) rows [lit "a"; lit "1"; lit "2"; lit "x"] /\ build_dict o rows = Err EParse /\
  build_dict (DictOptions false true) rows = Panic.
Proof.
  cbv zeta. split; [|split; vm_compute; reflexivity]. split; [right; split; vm_compute; reflexivity|].
  exists [[lit "b"; lit "1"]], []. split; [reflexivity|]. split.
  - intros r [<-|[]] _. cbn. lia.
  - intros r [].
Qed.
