(** Property theorems about the character filters and the analyzer: C24 - C30. *)
From Coq Require Import String.
From Coq Require Import List NArith ZArith Bool.
From Verif Require Import MBase MUtf8 MText MCodec MDict MCharDef MUnk MLattice MTokenizer MDetails MBuild MCharFilter MAnalyzer
  STok SBuild SCharDef SCharFilter SAnalyzer LUtf8 LCharDef LOffset LMapping LCharFilter LKana LAnalyzer LFilterProps XSample.
Import ListNotations.
Local Open Scope string_scope.
Local Open Scope list_scope.

Definition kana_mapping : list (str * str) :=     (* ｶ -> カ, ｶﾞ -> ガ, ab -> (nothing), c -> xyz *)
  [([0xFF76], [0x30AB]); ([0xFF76; 0xFF9E], [0x30AC]); ([97; 98], []); ([99], [120; 121; 122])]%N.
Lemma kana_mapping_ok : mapping_keys_ok kana_mapping.
Proof. apply mapping_keys_okb_spec. vm_compute. reflexivity. Qed.

(** C24 *)
Theorem C24_leftmost_longest : forall m text, mapping_keys_ok m -> valid_str text ->
  exists f, mapping_new m = Ok f /\ trie_input (mf_trie f) /\
  exists out offs diffs segs, mapping_apply f text = Some (Ok (out, offs, diffs)) /\ replaced m text out segs.
Proof. exact mapping_filter_spec. Qed.
Print Assumptions C24_leftmost_longest.
Theorem C24_one_answer : forall m text out segs out' segs', NoDup (map fst m) ->
  replaced m text out segs -> replaced m text out' segs' -> out = out' /\ segs = segs'.
Proof. exact replaced_one. Qed.
Print Assumptions C24_one_answer.
Example C24_ex : mapping_keys_ok kana_mapping /\ exists f, mapping_new kana_mapping = Ok f /\
  mapping_apply f [0xFF76; 0xFF76; 0xFF9E; 97; 98; 99; 100]%N =
    Some (Ok ([0x30AB; 0x30AC; 120; 121; 122; 100]%N, [6; 7; 8]%N, [5; 4; 3]%Z)).
Proof. split; [exact kana_mapping_ok|]. eexists. split; [vm_compute; reflexivity|]. vm_compute. reflexivity. Qed.

(** C25 *)
Theorem C25_mapping : forall m text f out offs diffs segs, mapping_keys_ok m -> valid_str text -> mapping_new m = Ok f ->
  mapping_apply f text = Some (Ok (out, offs, diffs)) -> replaced m text out segs -> fits_isize (blen text) -> fits_isize (blen out) ->
  in_total segs = blen text /\ out_total segs = blen out /\
  forall search, search_contract search ->
  points_back segs (fun x => correct_offset_with search (N.of_nat x) offs diffs (N.of_nat (blen out))).
Proof. exact mapping_points_back. Qed.
Print Assumptions C25_mapping.
Theorem C25_normalization : forall graphemes form text out offs diffs,
  concat (graphemes text) = text -> Forall (fun g => g <> []) (graphemes text) ->
  normalize_apply graphemes form text = (out, offs, diffs) -> fits_isize (blen text) -> fits_isize (blen out) ->
  let segs := grapheme_segments form (graphemes text) in
  out = flat_map form (graphemes text) /\ in_total segs = blen text /\ out_total segs = blen out /\
  forall search, search_contract search ->
  points_back segs (fun x => correct_offset_with search (N.of_nat x) offs diffs (N.of_nat (blen out))).
Proof. exact normalize_points_back. Qed.
Print Assumptions C25_normalization.
Theorem C25_binary_search : search_contract binary_search.
Proof. exact binary_search_contract. Qed.
Print Assumptions C25_binary_search.
(* characters as graphemes; every full-width digit becomes an ASCII digit and ㍑ becomes リットル *)
Example C25_ex :
  let form g := match g with
                | [c] => if ((0xFF10 <=? c) && (c <=? 0xFF19))%N then [(c - 0xFF10 + 48)%N]
                         else if (c =? 0x3351)%N then [0x30EA; 0x30C3; 0x30C8; 0x30EB]%N else [c]
                | _ => g end in
  normalize_apply (map (fun c => [c])) form [0xFF11; 0xFF10; 0x3351]%N =
    ([49; 48; 0x30EA; 0x30C3; 0x30C8; 0x30EB]%N, [1; 2; 5; 6; 7; 8; 9; 10; 11; 12; 13]%N, [2; 4; 3; 2; 1; 0; -1; -2; -3; -4; -5]%Z) /\
  map (fun x => correct_offset x [1; 2; 5; 6; 7; 8; 9; 10; 11; 12; 13]%N [2; 4; 3; 2; 1; 0; -1; -2; -3; -4; -5]%Z 14%N) [0; 1; 2; 14]%N =
    [Ok 0; Ok 3; Ok 6; Ok 9]%N.
Proof. split; vm_compute; reflexivity. Qed.

(** C26 *)
Theorem C26_regex : forall rx r ps tail, has_dollar r = false -> let text := whole ps tail in
  rx_find_iter rx text = match_spans 0 ps -> Forall (fun '(_, m) => m <> []) ps \/ r = [] ->
  let out := with_replaced r ps tail in let segs := match_segments r ps tail in fits_isize (blen text) -> fits_isize (blen out) ->
  in_total segs = blen text /\ out_total segs = blen out /\
  exists offs diffs, regex_apply rx r text = Ok (out, offs, diffs) /\
  forall search, search_contract search ->
  points_back segs (fun x => correct_offset_with search (N.of_nat x) offs diffs (N.of_nat (blen out))).
Proof. exact regex_points_back. Qed.
Print Assumptions C26_regex.
(* the matches of x in axxb, replaced by yz *)
Example C26_ex : exists rx, rx_find_iter rx (lit "axxb") = match_spans 0 [(lit "a", lit "x"); ([], lit "x")] /\
  whole [(lit "a", lit "x"); ([], lit "x")] (lit "b") = lit "axxb" /\
  regex_apply rx (lit "yz") (lit "axxb") = Ok (lit "ayzyzb", [2; 4]%N, [-1; -2]%Z).
Proof. exists (Regex (fun _ => [(1, 2); (2, 3)]) (fun _ _ r => r)). repeat match goal with |- _ /\ _ => split end; vm_compute; reflexivity. Qed.
(* x* matches the empty string before and after a; the place before it is sent to 2^64 - 1 *)
Theorem C26_empty_match_refuted : exists rx r ps tail out offs diffs, has_dollar r = false /\
  rx_find_iter rx (whole ps tail) = match_spans 0 ps /\ regex_apply rx r (whole ps tail) = Ok (out, offs, diffs) /\
  correct_offset 0 offs diffs (N.of_nat (blen out)) = Ok 18446744073709551615%N.
Proof.
  exists (Regex (fun _ => [(0, 0); (1, 1)]) (fun _ _ r => r)), (lit "b"), [([], []); (lit "a", [])], [], (lit "bab"), [0; 2]%N, [-1; -2]%Z.
  repeat match goal with |- _ /\ _ => split end; vm_compute; reflexivity.
Qed.
Print Assumptions C26_empty_match_refuted.
(* replacing a by $0 changes nothing, but the end of the text is sent before its last character *)
Theorem C26_expansion_refuted : exists rx r ps tail offs diffs, Forall (fun '(_, m) => m <> []) ps /\
  rx_find_iter rx (whole ps tail) = match_spans 0 ps /\ rx_expand rx (whole ps tail) (0, 1) r = lit "a" /\
  regex_apply rx r (whole ps tail) = Ok (whole ps tail, offs, diffs) /\
  whole ps tail = lit "ab" /\ correct_offset 2 offs diffs 2 = Ok 1%N.
Proof.
  exists (Regex (fun _ => [(0, 1)]) (fun t '(s, e) _ => firstn (e - s) (skipn s t))), (lit "$0"), [([], lit "a")], (lit "b"), [1]%N, [-1]%Z.
  split; [repeat constructor; discriminate|]. repeat match goal with |- _ /\ _ => split end; vm_compute; reflexivity.
Qed.
Print Assumptions C26_expansion_refuted.

(** C27 *)
Theorem C27_marks_expanded : forall cfg text, exists out,
  iteration_apply cfg text = Ok (out, [], []) /\ marks_expanded (ic_kanji cfg) (ic_kana cfg) text out.
Proof. exact iteration_spec. Qed.
Print Assumptions C27_marks_expanded.
Theorem C27_one_answer : forall kanji kana text out out', marks_expanded kanji kana text out -> marks_expanded kanji kana text out' -> out = out'.
Proof. exact marks_expanded_unique. Qed.
Print Assumptions C27_one_answer.
(* ところゞゝゝゞゝゝ *)
Example C27_ex : iteration_apply (IterationConfig true true) [0x3068; 0x3053; 0x308D; 0x309E; 0x309D; 0x309D; 0x309E; 0x309D; 0x309D]%N =
  Ok ([0x3068; 0x3053; 0x308D; 0x3069; 0x3053; 0x308D; 0x309E; 0x309D; 0x309D]%N, [], []) /\
  iteration_apply (IterationConfig false true) [0x6642; 0x3005; 0x30AB; 0x30FE]%N = Ok ([0x6642; 0x3005; 0x30AB; 0x30AC]%N, [], []).
Proof. split; vm_compute; reflexivity. Qed.

(** C28: the filter returns no offsets, so positions are kept as they are. *)
Theorem C28_offsets_kept : forall cfg text, repeats_three_bytes (ic_kanji cfg) (ic_kana cfg) text ->
  exists out, iteration_apply cfg text = Ok (out, [], []) /\ List.length out = List.length text /\
  forall p len, correct_offset (N.of_nat (blen (firstn p out))) [] [] len = Ok (N.of_nat (blen (firstn p text))).
Proof. exact iteration_keeps_offsets. Qed.
Print Assumptions C28_offsets_kept.
Theorem C28_exactly : forall cfg text out, iteration_apply cfg text = Ok (out, [], []) ->
  (repeats_three_bytes (ic_kanji cfg) (ic_kana cfg) text <->
   forall p len, correct_offset (N.of_nat (blen (firstn p out))) [] [] len = Ok (N.of_nat (blen (firstn p text)))).
Proof. exact iteration_exactly. Qed.
Print Assumptions C28_exactly.
Example C28_ex : repeats_three_bytes true true [0x6642; 0x3005; 97]%N.
Proof. exact repeats_sample. Qed.
(* ?ゝ and 𠮷々: the end of the text is sent into the middle of a character, or beyond the end *)
Theorem C28_short_refuted : exists cfg text out, iteration_apply cfg text = Ok (out, [], []) /\ text = [63; 0x309D]%N /\
  correct_offset (N.of_nat (blen out)) [] [] (N.of_nat (blen out)) = Ok 2%N /\ blen text = 4 /\
  forall p, blen (firstn p text) <> 2.
Proof. exact iteration_short. Qed.
Print Assumptions C28_short_refuted.
Theorem C28_long_refuted : exists cfg text out, iteration_apply cfg text = Ok (out, [], []) /\ text = [0x20BB7; 0x3005]%N /\
  correct_offset (N.of_nat (blen out)) [] [] (N.of_nat (blen out)) = Ok 8%N /\ blen text = 7.
Proof.
  exists (IterationConfig true true), [0x20BB7; 0x3005]%N, [0x20BB7; 0x20BB7]%N.
  repeat match goal with |- _ /\ _ => split end; vm_compute; reflexivity.
Qed.
Print Assumptions C28_long_refuted.

(** C29 *)
Theorem C29_hiragana : forall c, hiragana_add_dakuon c = voice voiced_hiragana c /\ hiragana_remove_dakuon c = unvoice voiced_hiragana c.
Proof. exact (fun c => conj (hiragana_add c) (hiragana_remove c)). Qed.
Print Assumptions C29_hiragana.
Theorem C29_katakana : forall c, katakana_add_dakuon c = voice voiced_katakana c /\ katakana_remove_dakuon c = unvoice voiced_katakana c.
Proof. exact (fun c => conj (katakana_add c) (katakana_remove c)). Qed.
Print Assumptions C29_katakana.
Theorem C29_laws : forall pairs, pairs = voiced_hiragana \/ pairs = voiced_katakana -> forall c,
  voice pairs (voice pairs c) = voice pairs c /\ unvoice pairs (unvoice pairs c) = unvoice pairs c /\
  unvoice pairs (voice pairs c) = unvoice pairs c /\ voice pairs (unvoice pairs c) = voice pairs c /\
  width (voice pairs c) = width c /\ width (unvoice pairs c) = width c /\
  (valid_char c -> valid_char (voice pairs c) /\ valid_char (unvoice pairs c)).
Proof. exact voicing_laws_both. Qed.
Print Assumptions C29_laws.
Theorem C29_shift : forall c, (0x3041 <= c <= 0x3096)%N ->
  katakana_add_dakuon (c + 0x60)%N = (hiragana_add_dakuon c + 0x60)%N /\
  katakana_remove_dakuon (c + 0x60)%N = (hiragana_remove_dakuon c + 0x60)%N.
Proof. exact voicing_shift. Qed.
Print Assumptions C29_shift.
Example C29_ex : (hiragana_add_dakuon 0x304B = 0x304C /\ katakana_remove_dakuon 0x30C5 = 0x30C4 /\ hiragana_add_dakuon 0x3042 = 0x3042)%N.
Proof. repeat split. Qed.

(** C30 *)
Theorem C30_offsets_undone : forall a text out segss tmp tokens tokens',
  filtered (an_char_filters a) text out segss -> tokenize (an_tokenizer a) out = Some (Ok tmp) ->
  mapM (analyzed_token (an_tokenizer a)) tmp = Ok tokens -> foldM (fun ts f => f ts) (an_token_filters a) tokens = Ok tokens' ->
  Forall (fun tk => (ft_start tk <= N.of_nat (blen out))%N /\ (ft_end tk <= N.of_nat (blen out))%N) tokens' ->
  analyze a text = Some (Ok (map (fun tk =>
    with_offsets tk (undone segss (N.to_nat (ft_start tk))) (undone segss (N.to_nat (ft_end tk)))) tokens')).
Proof. exact analyze_offsets. Qed.
Print Assumptions C30_offsets_undone.
Theorem C30_boundaries : forall segss x y, boundaries segss x y -> undone segss x = y.
Proof. exact boundaries_undone. Qed.
Print Assumptions C30_boundaries.
Theorem C30_side_by_side : forall t A fs text out segss tokens, represents t A -> valid_str out -> covered A out ->
  filtered fs text out segss -> analyze (Analyzer fs t []) text = Some (Ok tokens) ->
  side_by_side (N.of_nat (undone segss 0)) (N.of_nat (blen text)) tokens /\ flat_map ft_text tokens = out.
Proof. exact analyze_sides. Qed.
Print Assumptions C30_side_by_side.
Theorem C30_mapping_records : forall m f text out segs, mapping_keys_ok m -> valid_str text -> mapping_new m = Ok f ->
  replaced m text out segs -> fits_isize (blen text) -> fits_isize (blen out) -> filter_records (mapping_apply f) text out segs.
Proof. exact mapping_records. Qed.
Print Assumptions C30_mapping_records.
Theorem C30_normalization_records : forall graphemes form text,
  concat (graphemes text) = text -> Forall (fun g => g <> []) (graphemes text) ->
  fits_isize (blen text) -> fits_isize (blen (flat_map form (graphemes text))) ->
  filter_records (fun t => Some (Ok (normalize_apply graphemes form t))) text
                 (flat_map form (graphemes text)) (grapheme_segments form (graphemes text)).
Proof. exact normalize_records. Qed.
Print Assumptions C30_normalization_records.
Theorem C30_regex_records : forall rx r ps tail, let text := whole ps tail in
  has_dollar r = false -> rx_find_iter rx text = match_spans 0 ps ->
  Forall (fun '(_, m) => m <> []) ps \/ r = [] -> fits_isize (blen text) -> fits_isize (blen (with_replaced r ps tail)) ->
  filter_records (fun t => Some (regex_apply rx r t)) text (with_replaced r ps tail) (match_segments r ps tail).
Proof. exact regex_records. Qed.
Print Assumptions C30_regex_records.
(* two filters: q -> xx, then xx -> y; the newline of the text is at byte 4 of the original *)
Example C30_ex : exists f1 f2 segss, mapping_new [(lit "q", lit "xx")] = Ok f1 /\ mapping_new [(lit "xx", lit "y")] = Ok f2 /\
  let a := Analyzer [mapping_apply f1; mapping_apply f2] (sample Normal [sample_unk]) [] in
  filtered (an_char_filters a) (lit "zqxx" ++ [10%N] ++ lit "qz") (lit "zyy" ++ [10%N] ++ lit "yz") segss /\
  boundaries segss 3 4 /\
  analyze a (lit "zqxx" ++ [10%N] ++ lit "qz") = Some (Ok
    [FToken (lit "zyy" ++ [10%N]) 0 5 0 1 (WordId u32_max true) [lit "UNK"];
     FToken (lit "yz") 5 7 1 1 (WordId u32_max true) [lit "UNK"]]).
Proof. exact two_filters. Qed.
