(** What a configured filter does, by its name and arguments. *)
From Coq Require Import String.
From Coq Require Import List NArith ZArith Bool.
From Verif Require Import MBase MUtf8 MText MBuild MCharFilter MAnalyzer MConfig SCharFilter STokenFilter SNumber SConfig.
Import ListNotations.
Local Open Scope list_scope.

(** Token filters *)

Definition convert_text (f : str -> str) (tk tk' : ftoken) : Prop := only_text tk tk' /\ ft_text tk' = f (ft_text tk).

(* numerals become decimal numbers, in text without units every digit is replaced, and other text is read as C74 says *)
Definition numbers_converted (text text' : str) : Prop :=
  read_as None text text' /\
  (forall v, numeral text v -> is_decimal text' /\ decimal_value text' = v) /\
  (Forall (fun c => ~ is_unit c) text -> Forall2 glyph_image text text').

Inductive token_filter_effect (e : env) : str -> list (str * value) -> list ftoken -> list ftoken -> Prop :=
| effect_base_form fs v k ts out : has fs "kind" v -> means_name kind_names v k -> Forall2 (detail_result (base_place k)) ts out ->
    token_filter_effect e (lit "japanese_base_form") fs ts out
| effect_reading_form fs v k ts out : has fs "kind" v -> means_name kind_names v k -> Forall2 (detail_result (reading_place k)) ts out ->
    token_filter_effect e (lit "japanese_reading_form") fs ts out
| effect_compound fs v k w tags new_tag parts ts out :
    has fs "kind" v -> means_name kind_names v k -> has fs "tags" w -> means_strings w tags -> maybe means_string fs "new_tag" new_tag ->
    match new_tag, parts with Some a, Some ps => comma_parts ps a | None, None => True | _, _ => False end ->
    compounded (has_tag tags) (new_details k parts) ts out ->
    token_filter_effect e (lit "japanese_compound_word") fs ts out
| effect_kana fs v k ts out : has fs "kind" v -> means_name kana_names v k -> Forall2 (convert_text (e_kana e k)) ts out ->
    token_filter_effect e (lit "japanese_kana") fs ts out
| effect_stem fs n ts out :
    (exists v, has fs "min" v /\ means_size v n) \/ (lacks fs "min" /\ n = 3%N) ->
    Forall2 (fun tk tk' => only_text tk tk' /\ stemmed (N.to_nat n) (ft_text tk) (ft_text tk')) ts out ->
    token_filter_effect e (lit "japanese_katakana_stem") fs ts out
| effect_keep_tags fs v tags ts out : has fs "tags" v -> means_strings v tags -> selected (has_tag tags) ts out ->
    token_filter_effect e (lit "japanese_keep_tags") fs ts out
| effect_stop_tags fs v tags ts out : has fs "tags" v -> means_strings v tags -> selected (fun tk => ~ has_tag tags tk) ts out ->
    token_filter_effect e (lit "japanese_stop_tags") fs ts out
| effect_number fs v tags ts out : has fs "tags" v -> means_strings v tags ->
    Forall2 (fun tk tk' => only_text tk tk' /\ (has_tag tags tk -> numbers_converted (ft_text tk) (ft_text tk')) /\
                           (~ has_tag tags tk -> ft_text tk' = ft_text tk)) ts out ->
    token_filter_effect e (lit "japanese_number") fs ts out
| effect_number_all fs ts out : (forall l, ~ has fs "tags" (VArr l)) ->
    Forall2 (fun tk tk' => only_text tk tk' /\ numbers_converted (ft_text tk) (ft_text tk')) ts out ->
    token_filter_effect e (lit "japanese_number") fs ts out
| effect_keep_words fs v ws ts out : has fs "words" v -> means_strings v ws -> selected (fun tk => In (ft_text tk) ws) ts out ->
    token_filter_effect e (lit "keep_words") fs ts out
| effect_stop_words fs v ws ts out : has fs "words" v -> means_strings v ws -> selected (fun tk => ~ In (ft_text tk) ws) ts out ->
    token_filter_effect e (lit "stop_words") fs ts out
| effect_korean_keep fs v tags ts out : has fs "tags" v -> means_strings v tags ->
    selected (fun tk => In (hd [] (ft_details tk)) tags) ts out -> token_filter_effect e (lit "korean_keep_tags") fs ts out
| effect_korean_stop fs v tags ts out : has fs "tags" v -> means_strings v tags ->
    selected (fun tk => ~ In (hd [] (ft_details tk)) tags) ts out -> token_filter_effect e (lit "korean_stop_tags") fs ts out
| effect_korean_reading fs ts out : Forall2 (detail_result (Some 3)) ts out -> token_filter_effect e (lit "korean_reading_form") fs ts out
| effect_length fs a b ts out : maybe means_size fs "min" a -> maybe means_size fs "max" b ->
    selected (length_ok (option_map N.to_nat a) (option_map N.to_nat b)) ts out -> token_filter_effect e (lit "length") fs ts out
| effect_lowercase fs ts out : Forall2 (convert_text (e_lower e)) ts out -> token_filter_effect e (lit "lowercase") fs ts out
| effect_uppercase fs ts out : Forall2 (convert_text (e_upper e)) ts out -> token_filter_effect e (lit "uppercase") fs ts out
| effect_mapping fs v m ts out : has fs "mapping" v -> means_map v m ->
    Forall2 (fun tk tk' => only_text tk tk' /\ exists segs, replaced m (ft_text tk) (ft_text tk') segs) ts out ->
    token_filter_effect e (lit "mapping") fs ts out.

(* filters that may remove tokens *)
Definition removes (d : token_filter_def) : bool :=
  match d with
  | TFKeepTags _ | TFStopTags _ | TFKeepWords _ | TFStopWords _ | TFKoreanKeepTags _ | TFKoreanStopTags _ | TFLength _ _ => true
  | _ => false
  end.

(* tokens with details; those on which some filters panic are left out (see C74, C36, C37, C38) *)
Record tokens_suit (e : env) (name : str) (fs : list (str * value)) (ts : list ftoken) : Prop := {
  suit_details : Forall (fun tk => ft_details tk <> [] /\ valid_str (ft_text tk)) ts;
  suit_stem : name = lit "japanese_katakana_stem" ->
    blocks_ok (e_block e) /\ Forall (fun tk => Forall (fun c => e_block e c <> None) (ft_text tk)) ts;
  suit_base : name = lit "japanese_base_form" -> forall v k, has fs "kind" v -> means_name kind_names v k -> Forall (details_cover (base_place k)) ts;
  suit_reading : name = lit "japanese_reading_form" -> forall v k, has fs "kind" v -> means_name kind_names v k -> Forall (details_cover (reading_place k)) ts;
  suit_korean : name = lit "korean_reading_form" -> Forall (details_cover (Some 3)) ts;
  suit_number : name = lit "japanese_number" -> 
    Forall (fun tk => (forall v tags, has fs "tags" v -> means_strings v tags -> has_tag tags tk) -> ~ crowded (ft_text tk)) ts;
  suit_mapping : name = lit "mapping" -> forall v m, has fs "mapping" v -> means_map v m -> mapping_keys_ok m
}.

(** Character filters *)

(* the new text, and the replaced segments that the filter records; the iteration mark filter replaces character by character *)
Inductive char_filter_effect (e : env) : str -> list (str * value) -> str -> str -> list segment -> Prop :=
| effect_iteration fs a b text out : has fs "normalize_kanji" (VBool a) -> has fs "normalize_kana" (VBool b) -> marks_expanded a b text out ->
    char_filter_effect e (lit "japanese_iteration_mark") fs text out (map (fun c => (width c, width c)) text)
| effect_char_mapping fs v m text out segs : has fs "mapping" v -> means_map v m -> replaced m text out segs ->
    char_filter_effect e (lit "mapping") fs text out segs
| effect_regex fs p r rx ps tail : has fs "pattern" (VStr p) -> has fs "replacement" (VStr r) -> e_regex e p = Some rx ->
    rx_find_iter rx (whole ps tail) = match_spans 0 ps ->
    char_filter_effect e (lit "regex") fs (whole ps tail) (with_replaced r ps tail) (match_segments r ps tail)
| effect_normalize fs v k text : has fs "kind" v -> means_name form_names v k ->
    char_filter_effect e (lit "unicode_normalize") fs text (flat_map (e_form e k) (e_graphemes e text))
      (grapheme_segments (e_form e k) (e_graphemes e text)).

(* texts and arguments for which the filters are right (see C24 - C28) *)
Record text_suits (e : env) (name : str) (fs : list (str * value)) (text : str) : Prop := {
  suit_text : valid_str text /\ fits_isize (blen text);
  suit_iteration : name = lit "japanese_iteration_mark" -> forall a b, has fs "normalize_kanji" (VBool a) -> has fs "normalize_kana" (VBool b) ->
    repeats_three_bytes a b text;
  suit_char_mapping : name = lit "mapping" -> forall v m, has fs "mapping" v -> means_map v m ->
    mapping_keys_ok m /\ forall out segs, replaced m text out segs -> fits_isize (blen out);
  suit_regex : name = lit "regex" -> forall p r rx, has fs "pattern" (VStr p) -> has fs "replacement" (VStr r) -> e_regex e p = Some rx ->
    has_dollar r = false /\
    exists ps tail, text = whole ps tail /\ rx_find_iter rx text = match_spans 0 ps /\ (Forall (fun '(_, m) => m <> []) ps \/ r = []) /\
      fits_isize (blen (with_replaced r ps tail));
  suit_normalize : name = lit "unicode_normalize" -> concat (e_graphemes e text) = text /\ Forall (fun g => g <> []) (e_graphemes e text) /\
    forall form, fits_isize (blen (flat_map (e_form e form) (e_graphemes e text)))
}.

(** Chains of filters, each a name and the fields of its arguments *)

Inductive text_chain (e : env) : list (str * list (str * value)) -> str -> str -> list (list segment) -> Prop :=
| text_chain_nil text : text_chain e [] text text []
| text_chain_cons name fs cs text mid out segs segss : char_filter_effect e name fs text mid segs -> text_chain e cs mid out segss ->
    text_chain e ((name, fs) :: cs) text out (segs :: segss).
Inductive token_chain (e : env) : list (str * list (str * value)) -> list ftoken -> list ftoken -> Prop :=
| token_chain_nil ts : token_chain e [] ts ts
| token_chain_cons name fs cs ts mid out : token_filter_effect e name fs ts mid -> token_chain e cs mid out ->
    token_chain e ((name, fs) :: cs) ts out.

(* what each filter is given suits it *)
Fixpoint texts_suit (e : env) (cs : list (str * list (str * value))) (text : str) : Prop :=
  match cs with
  | [] => True
  | (name, fs) :: cs => text_suits e name fs text /\ forall mid segs, char_filter_effect e name fs text mid segs -> texts_suit e cs mid
  end.
Fixpoint all_tokens_suit (e : env) (cs : list (str * list (str * value))) (ts : list ftoken) : Prop :=
  match cs with
  | [] => True
  | (name, fs) :: cs => tokens_suit e name fs ts /\ forall mid, token_filter_effect e name fs ts mid -> all_tokens_suit e cs mid
  end.

(** Where an analyzer stops *)

(* the same error, or a panic in both *)
Inductive same_failure {A B} : res A -> res B -> Prop :=
| same_error k : same_failure (Err k) (Err k)
| same_panic : same_failure Panic Panic.
(* the character filters give texts one after the other *)
Inductive texts_given : list char_filter -> str -> str -> Prop :=
| texts_none text : texts_given [] text text
| texts_step (f : char_filter) fs text mid offsets diffs out : f text = Some (Ok (mid, offsets, diffs)) -> texts_given fs mid out -> texts_given (f :: fs) text out.
Inductive tokens_given : list (list ftoken -> res (list ftoken)) -> list ftoken -> list ftoken -> Prop :=
| tokens_none tokens : tokens_given [] tokens tokens
| tokens_step (f : list ftoken -> res (list ftoken)) fs tokens mid out : f tokens = Ok mid -> tokens_given fs mid out -> tokens_given (f :: fs) tokens out.
