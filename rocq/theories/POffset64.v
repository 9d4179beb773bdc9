(** The offset arithmetic of the character filters does not overflow. *)
From Coq Require Import String List NArith ZArith Bool.
From Verif Require Import MBase MUtf8 MText MCharDef MCharFilter MOffset64 SCharDef SCharFilter SAnyMatch SOffset64 LOffset64.
Import ListNotations.
Local Open Scope list_scope.

(** C109 *)
Theorem C109_mapping : forall f text out offs diffs, mapping_apply f text = Some (Ok (out, offs, diffs)) ->
  fits_isize (blen text) -> fits_isize (blen out) ->
  mapping_apply_debug f text = Some (Ok (out, offs, diffs)) /\ same_corrections offs diffs (blen out) (blen out).
Proof. exact mapping_fits. Qed.
Print Assumptions C109_mapping.

Theorem C109_normalization : forall graphemes form text out offs diffs, concat (graphemes text) = text ->
  normalize_apply graphemes form text = (out, offs, diffs) -> fits_isize (blen text) -> fits_isize (blen out) ->
  normalize_apply_debug graphemes form text = Ok (out, offs, diffs) /\ same_corrections offs diffs (blen out) (blen out).
Proof. exact normalize_fits. Qed.
Print Assumptions C109_normalization.

(* empty matches included *)
Theorem C109_regex : forall rx r ps tail out offs diffs, has_dollar r = false -> rx_find_iter rx (whole ps tail) = match_spans 0 ps ->
  regex_apply rx r (whole ps tail) = Ok (out, offs, diffs) -> fits_isize (blen (whole ps tail)) -> fits_isize (blen out) ->
  regex_apply_debug rx r (whole ps tail) = Ok (out, offs, diffs) /\ same_corrections offs diffs (blen out) (blen out).
Proof. exact regex_fits_plain. Qed.
Print Assumptions C109_regex.

(* replacements with a dollar sign: out_total is the length the filter reckons with, which is not that of the output *)
Theorem C109_regex_expanding : forall rx r ps tail, let text := whole ps tail in let segs := match_segments r ps tail in
  rx_find_iter rx text = match_spans 0 ps -> fits_isize (blen text) -> fits_isize (out_total segs) ->
  regex_apply_debug rx r text = regex_apply rx r text /\
  forall out offs diffs, regex_apply rx r text = Ok (out, offs, diffs) ->
  forall search x, search_contract search -> x <= out_total segs \/ fits_isize (blen text + x) -> out <> [] \/ out_total segs = 0 ->
    correct_offset_debug search (N.of_nat x) offs diffs (N.of_nat (blen out)) = correct_offset_with search (N.of_nat x) offs diffs (N.of_nat (blen out)).
Proof. exact regex_fits. Qed.
Print Assumptions C109_regex_expanding.

(* the checks only ever add a panic *)
Theorem C109_record_panics_or_agrees : forall st off i o, fits_isize i -> fits_isize o ->
  record_diff_debug st off i o = Panic \/ record_diff_debug st off i o = Ok (record_diff st off i o).
Proof. exact record_cases. Qed.
Print Assumptions C109_record_panics_or_agrees.

Theorem C109_correct_panics_or_agrees : forall search x offs diffs len,
  correct_offset_debug search x offs diffs len = Panic \/ correct_offset_debug search x offs diffs len = correct_offset_with search x offs diffs len.
Proof. exact correct_cases. Qed.
Print Assumptions C109_correct_panics_or_agrees.

(* "a" by "xyz" and "bcd" by "y": first longer, then shorter *)
Example C109_mapping_ex : exists f, mapping_new [(lit "a", lit "xyz"); (lit "bcd", lit "y")] = Ok f /\
  mapping_apply f (lit "abcd.a") = Some (Ok (lit "xyzy.xyz", [1; 2; 4; 6; 7]%N, [-1; -2; 0; -1; -2]%Z)) /\
  mapping_apply_debug f (lit "abcd.a") = Some (Ok (lit "xyzy.xyz", [1; 2; 4; 6; 7]%N, [-1; -2; 0; -1; -2]%Z)) /\
  map (fun x => correct_offset_debug binary_search (N.of_nat x) [1; 2; 4; 6; 7]%N [-1; -2; 0; -1; -2]%Z 8) (seq 0 9) =
  map Ok [0; 0; 0; 1; 4; 5; 5; 5; 6]%N.
Proof. eexists. split; [vm_compute; reflexivity|]. repeat match goal with |- _ /\ _ => split end; vm_compute; reflexivity. Qed.

Example C109_normalization_ex :
  let graphemes := map (fun c : char => [c]) in let form := fun g : str => if (blen g =? 3)%nat then [97%N] else g ++ g in
  concat (graphemes [0x30AC; 98]%N) = [0x30AC; 98]%N /\
  normalize_apply graphemes form [0x30AC; 98]%N = ([97; 98; 98]%N, [1; 2]%N, [2; 1]%Z) /\
  normalize_apply_debug graphemes form [0x30AC; 98]%N = Ok ([97; 98; 98]%N, [1; 2]%N, [2; 1]%Z).
Proof. cbv zeta. repeat match goal with |- _ /\ _ => split end; vm_compute; reflexivity. Qed.

(* an empty match at the start: -1 as usize is no overflow, so debug builds return 2^64 - 1 as well *)
Example C109_regex_ex : let rx := Regex (fun _ => [(0, 0); (1, 1)]) (fun _ _ r => r) in let ps := [([], []); (lit "a", [])] in
  rx_find_iter rx (whole ps []) = match_spans 0 ps /\
  regex_apply_debug rx (lit "z") (lit "a") = Ok (lit "zaz", [0; 2]%N, [-1; -2]%Z) /\
  correct_offset_debug binary_search 0 [0; 2]%N [-1; -2]%Z 3 = Ok 18446744073709551615%N.
Proof. cbv zeta. repeat match goal with |- _ /\ _ => split end; vm_compute; reflexivity. Qed.

(* the checks are there: numbers no text leads to *)
Example C109_panic_ex :
  record_diff_debug ([0%N], [9223372036854775807%Z]) 9 5 3 = Panic /\
  record_diff_debug ([0%N], [(-9223372036854775808)%Z]) 9 3 5 = Panic /\
  record_diff_debug ([0%N], [(-9223372036854775807)%Z]) 0 3 5 = Panic /\
  correct_offset_debug binary_search 9223372036854775807 [0%N] [1%Z] 5 = Panic /\
  correct_offset_with binary_search 9223372036854775807 [0%N] [1%Z] 5 = Ok 9223372036854775808%N /\
  checked_usize 18446744073709551616 = Panic /\ checked_usize (-1) = Panic.
Proof. repeat split; vm_compute; reflexivity. Qed.
