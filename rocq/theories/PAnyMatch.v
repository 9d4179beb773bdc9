(** The regular expression filter, for all matches and all replacements. *)
From Coq Require Import String List NArith ZArith Bool.
From Verif Require Import MBase MUtf8 MText MCharDef MCharFilter SCharDef SCharFilter SAnyMatch LCharDef LAnyMatch.
Import ListNotations.
Local Open Scope list_scope.

(** C26 *)
Theorem C26_any_match : forall rx r ps tail, let text := whole ps tail in rx_find_iter rx text = match_spans 0 ps ->
  let out := with_each ps (put_in (rx_expand rx) text r (match_spans 0 ps)) tail in let segs := match_segments r ps tail in
  fits_isize (blen text) -> fits_isize (out_total segs) ->
  exists offs diffs, regex_apply rx r text = Ok (out, offs, diffs) /\
  forall search x, search_contract search -> out <> [] -> (N.of_nat x < 18446744073709551616)%N ->
    correct_offset_with search (N.of_nat x) offs diffs (N.of_nat (blen out)) = Ok (as_usize (sent_to segs x)).
Proof. exact regex_any. Qed.
Print Assumptions C26_any_match.
Theorem C26_any_end : forall rx r ps tail, let text := whole ps tail in rx_find_iter rx text = match_spans 0 ps ->
  let segs := match_segments r ps tail in
  forall out offs diffs, regex_apply rx r text = Ok (out, offs, diffs) -> out <> [] ->
  fits_isize (blen text) -> fits_isize (out_total segs) -> fits_isize (blen out) ->
  forall search, search_contract search ->
  (correct_offset_with search (N.of_nat (blen out)) offs diffs (N.of_nat (blen out)) = Ok (N.of_nat (blen text)) <-> blen out = out_total segs).
Proof. exact regex_any_end. Qed.
Print Assumptions C26_any_end.
Theorem C26_exactly : forall rx r ps tail, has_dollar r = false -> let text := whole ps tail in rx_find_iter rx text = match_spans 0 ps ->
  let segs := match_segments r ps tail in
  forall out offs diffs, regex_apply rx r text = Ok (out, offs, diffs) -> fits_isize (blen text) -> fits_isize (blen out) ->
  forall search, search_contract search ->
  (points_back segs (fun x => correct_offset_with search (N.of_nat x) offs diffs (N.of_nat (blen out))) <->
   Forall (fun '(_, m) => m <> []) ps \/ r = []).
Proof. exact regex_any_iff. Qed.
Print Assumptions C26_exactly.
(* x* in "ab", replaced by "zz": both bytes of an inserted text go to the byte before it *)
Example C26_any_ex : let rx := Regex (fun _ => [(0, 0); (1, 1); (2, 2)]) (fun _ _ r => r) in
  let ps := [([], []); (lit "a", []); (lit "b", [])] in
  rx_find_iter rx (whole ps []) = match_spans 0 ps /\ whole ps [] = lit "ab" /\
  regex_apply rx (lit "zz") (lit "ab") = Ok (lit "zzazzbzz", [0; 1; 3; 4; 6; 7]%N, [-1; -2; -3; -4; -5; -6]%Z) /\
  map (sent_to (match_segments (lit "zz") ps [])) (seq 0 9) = [-1; -1; 0; 0; 0; 1; 1; 1; 2]%Z /\
  map (fun x => correct_offset (N.of_nat x) [0; 1; 3; 4; 6; 7]%N [-1; -2; -3; -4; -5; -6]%Z 8) (seq 0 9) =
  map Ok [18446744073709551615; 18446744073709551615; 0; 0; 0; 1; 1; 1; 2]%N.
Proof. cbv zeta. repeat match goal with |- _ /\ _ => split end; vm_compute; reflexivity. Qed.
(* (.)b replaced by $1 in "abab": the lengths recorded are those of the two characters "$1", so nothing is recorded and the end goes to 2 *)
Example C26_any_dollar_ex : let rx := Regex (fun _ => [(0, 2); (2, 4)]) (fun t '(s, e) _ => firstn 1 (skipn s t)) in
  let ps := [([], lit "ab"); ([], lit "ab")] in
  rx_find_iter rx (whole ps []) = match_spans 0 ps /\
  with_each ps (put_in (rx_expand rx) (whole ps []) (lit "$1") (match_spans 0 ps)) [] = lit "aa" /\
  regex_apply rx (lit "$1") (lit "abab") = Ok (lit "aa", [], []) /\
  out_total (match_segments (lit "$1") ps []) = 4 /\ correct_offset 2 [] [] 2 = Ok 2%N.
Proof. cbv zeta. repeat match goal with |- _ /\ _ => split end; vm_compute; reflexivity. Qed.
