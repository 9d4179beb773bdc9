(** Theorems about the dictionary files: matrix.def, char.def, unk.def, saved dictionaries, compression, token details. *)
From Coq Require Import String.
From Coq Require Import List NArith ZArith Bool.
From Verif Require Import MBase MUtf8 MText MCodec MDict MCharDef MUnk MBincode MTokenizer MDetails MBuild
  SMatrix SCharDef SUnk SData LUtf8 LMatrix LCharDef LUnkDef LBincode LData XSample XBuild XData.
Import ListNotations.
Local Open Scope string_scope.
Local Open Scope list_scope.

(** C19: after building matrix.def and loading it, the cost of a pair is the cost on the last line naming it, or i16::MAX. *)
Theorem C19_matrix_round_trip : forall fsize bsize : N, (fsize <= 32767)%N -> (bsize <= 32767)%N ->
  forall content entries, matrix_def content fsize bsize entries -> entries_fit fsize bsize entries ->
  exists bytes m, build_matrix content = Ok bytes /\ cm_load bytes = Ok m /\
    forall f b, (f < fsize)%N -> (b < bsize)%N -> cm_cost m f b = Ok (matrix_cost entries f b).
Proof. exact matrix_round_trip. Qed.
Print Assumptions C19_matrix_round_trip.
Example C19_ex : matrix_def matrix_text 2 3 matrix_entries /\ entries_fit 2 3 matrix_entries /\
  exists bytes m, build_matrix matrix_text = Ok bytes /\ cm_load bytes = Ok m /\
    cm_cost m 1 2 = Ok (-8)%Z /\ cm_cost m 0 1 = Ok 32767%Z.
Proof.
  split; [exact matrix_text_def|]. split; [exact matrix_entries_fit|].
  eexists; eexists; split; [vm_compute; reflexivity|]. split; [vm_compute; reflexivity|]. split; vm_compute; reflexivity.
Qed.

(** C19 is false for larger backward sizes: the size is read back with its sign extended, and looking up the first cell of the
    second row panics. *)
Theorem C19_large_backward_refuted : forall content fsize bsize entries bytes,
  (2 <= fsize <= 32767)%N -> (32768 <= bsize <= 65535)%N ->
  matrix_def content fsize bsize entries -> build_matrix content = Ok bytes ->
  exists m, cm_load bytes = Ok m /\ cm_backward m = (bsize + 4294901760)%N /\ cm_cost m 1 0 = Panic.
Proof. exact matrix_large_backward. Qed.
Print Assumptions C19_large_backward_refuted.
Example C19_large_ex : exists bytes, matrix_def (lit "2 32768") 2 32768 [] /\ build_matrix (lit "2 32768") = Ok bytes.
Proof. exact matrix_large_example. Qed.

(** A line whose backward id is out of range is not rejected: it overwrites the cost of another pair. *)
Example C19_stray_line_ex : exists bytes m, build_matrix stray_text = Ok bytes /\ cm_load bytes = Ok m /\ cm_cost m 1 0 = Ok 7%Z /\
  matrix_def stray_text 2 2 [(0, 2, 7%Z)]%N /\ matrix_cost [(0, 2, 7%Z)]%N 1 0 = 32767%Z.
Proof.
  eexists; eexists; split; [vm_compute; reflexivity|]. split; [vm_compute; reflexivity|]. split; [vm_compute; reflexivity|].
  split; [exact stray_text_def|vm_compute; reflexivity].
Qed.

(** C20: the categories of a code point are those of all ranges containing it, in file order without repeats, or DEFAULT if there is
    none and DEFAULT is mentioned; whatever index binary_search returns within its contract. *)
Theorem C20_categories : forall content ds, directives content = Ok ds ->
  exists cd, char_def_of content = Ok cd /\ categories cd = nub (flat_map mentions ds) /\
    forall search c, search_contract search ->
      exists ids, lt_eval_with search (cds_mapping cd) c = Ok ids /\ mapM (category_name cd) ids = Ok (categories_of ds c).
Proof. exact char_def_categories. Qed.
Print Assumptions C20_categories.

(** C20: the search used by lookup_categories meets the contract, and a file whose lines cannot be read is rejected. *)
Theorem C20_search : search_contract binary_search /\ forall cd c, lookup_categories cd c = lt_eval_with binary_search (cds_mapping cd) c.
Proof. exact (conj binary_search_contract (fun _ _ => eq_refl)). Qed.
Print Assumptions C20_search.
Theorem C20_rejected : forall content, match directives content with
  | Ok _ => True | Err e => char_def_of content = Err e | Panic => char_def_of content = Panic end.
Proof. exact char_def_fails. Qed.
Print Assumptions C20_rejected.
Example C20_ex : directives char_text = Ok char_directives /\
  categories_of char_directives 0x41 = [lit "ALPHA"; lit "HEX"] /\ categories_of char_directives 0x5A = [lit "ALPHA"] /\
  categories_of char_directives 0x5B = [lit "DEFAULT"] /\ directives (lit "0xZZ A") = Err EParse.
Proof. repeat match goal with |- _ /\ _ => split end; vm_compute; reflexivity. Qed.

(** C21: if every category mentioned is defined by exactly one line, before any other mention, each category has the definition written
    on its line. *)
Theorem C21_definitions : forall content ds cd, directives content = Ok ds -> defined_first ds -> char_def_of content = Ok cd ->
  categories cd = map fst (flat_map defines ds) /\
  forall id name data, nth_error (flat_map defines ds) id = Some (name, data) ->
    category_name cd id = Ok name /\ lookup_definition cd id = Ok data.
Proof. exact char_def_definitions. Qed.
Print Assumptions C21_definitions.
Example C21_ex : defined_first char_directives /\ exists cd, char_def_of char_text = Ok cd /\
  category_name cd 2 = Ok (lit "HEX") /\ lookup_definition cd 2 = Ok (CategoryData false true 2).
Proof. split; [exact char_defined_first|]. eexists. split; [vm_compute; reflexivity|]. split; vm_compute; reflexivity. Qed.

(** C21 is false in general: a category mentioned before its line gets the definition of another one. *)
Theorem C21_mention_first_refuted : exists content ds cd, directives content = Ok ds /\ char_def_of content = Ok cd /\
  NoDup (map fst (flat_map defines ds)) /\ In (lit "B", CategoryData false true 2) (flat_map defines ds) /\
  category_name cd 0 = Ok (lit "B") /\ lookup_definition cd 0 = Ok (CategoryData true false 0).
Proof. exact char_misaligned. Qed.
Print Assumptions C21_mention_first_refuted.

(** C22: the unknown word entries of a category are the lines of unk.def about it, in order, with the numbers on the line. *)
Theorem C22_unknown_entries : forall cats content n us, Forall2 (reads_as n) (lines content) us -> Forall fits us ->
  exists d, parse_unk cats content n = Ok d /\
    (forall c name, nth_error cats c = Some name -> exists ids, ud_lookup_word_ids d c = Ok ids /\ lines_about name us ids) /\
    (forall k u, nth_error us (N.to_nat k) = Some u -> exists e, ud_word_entry d k = Ok e /\
       we_cost e = ul_cost u /\ we_left e = ul_left u /\ we_right e = ul_right u /\ is_unknown (we_id e) = true /\ is_system (we_id e) = true).
Proof. exact unk_def_spec. Qed.
Print Assumptions C22_unknown_entries.
Example C22_ex : Forall2 (reads_as 5) (lines unk_text) unk_lines /\ Forall fits unk_lines /\
  exists d, parse_unk [lit "ALPHA"; lit "DEFAULT"] unk_text 5 = Ok d /\ ud_lookup_word_ids d 0 = Ok [0; 2]%N /\
    ud_lookup_word_ids d 1 = Ok [1%N].
Proof.
  split; [exact unk_text_lines|]. split; [exact unk_lines_fit|]. eexists. split; [vm_compute; reflexivity|]. split; vm_compute; reflexivity.
Qed.

(** C23: what bincode writes for the three dictionaries it reads back, and nothing else is consumed. *)
Theorem C23_unknown_dictionary : forall d rest, unknown_in_range d ->
  dec_unknown (enc_unknown d ++ rest) = Some (d, rest) /\ load_unknown (enc_unknown d) = Ok d.
Proof. exact unknown_reload. Qed.
Print Assumptions C23_unknown_dictionary.
Theorem C23_character_definitions : forall d rest, chardef_in_range d ->
  dec_chardef (enc_chardef d ++ rest) = Some (d, rest) /\ load_chardef (enc_chardef d) = Ok d.
Proof. exact chardef_reload. Qed.
Print Assumptions C23_character_definitions.
Theorem C23_user_dictionary : forall d rest, user_in_range d ->
  dec_user (enc_user d ++ rest) = Some (d, rest) /\ load_user (enc_user d) = Ok d.
Proof. exact user_reload. Qed.
Print Assumptions C23_user_dictionary.
Example C23_ex : unknown_in_range unknown_sample /\ chardef_in_range chardef_sample /\ user_in_range user_file_sample.
Proof. exact samples_in_range. Qed.

(** C40: decompression undoes compression, Raw stores the data, and the embedded data is what was given to compress_write. *)
Theorem C40_round_trip : forall k data a c, codecs_inverse k -> compress k data a = Some c -> decompress k c = Some data.
Proof. exact decompress_compress. Qed.
Print Assumptions C40_round_trip.
Theorem C40_raw : forall k data, compress k data Raw = Some (CompressedData Raw data) /\ decompress k (CompressedData Raw data) = Some data.
Proof. exact raw_stored. Qed.
Print Assumptions C40_raw.
Theorem C40_embedded : forall k feature a buffer bytes, codecs_inverse k -> codecs_bytes k -> Forall is_byte buffer -> short buffer ->
  compress_write k feature buffer a = Ok bytes -> embedded_data k feature bytes = Ok buffer.
Proof. exact embedded_written. Qed.
Print Assumptions C40_embedded.
Example C40_ex : codecs_inverse codecs_sample /\ codecs_bytes codecs_sample /\
  compress_write codecs_sample true [1; 2]%N Zlib = Ok [1; 0; 0; 0; 3; 0; 0; 0; 0; 0; 0; 0; 7; 1; 2]%N /\
  embedded_data codecs_sample true [1; 0; 0; 0; 3; 0; 0; 0; 0; 0; 0; 0; 7; 1; 2]%N = Ok [1; 2]%N.
Proof. split; [exact codecs_sample_inverse|]. split; [exact codecs_sample_bytes|]. split; vm_compute; reflexivity. Qed.

(** C41: the details come from the dictionary the word id names, unknown words have the details UNK, and repeated calls agree. *)
Theorem C41_unknown : forall d u w, is_unknown w = true -> get_details d u w None = Ok (Some [lit "UNK"], Some [lit "UNK"]).
Proof. exact details_of_unknown. Qed.
Print Assumptions C41_unknown.
Theorem C41_system : forall d u w, is_unknown w = false -> is_system w = true ->
  get_details d u w None = do r <- word_details d (wid w); Ok (r, r).
Proof. exact details_of_system. Qed.
Print Assumptions C41_system.
Theorem C41_user : forall d u w, is_unknown w = false -> is_system w = false ->
  get_details d (Some u) w None = do r <- user_word_details u (wid w); Ok (r, r).
Proof. exact details_of_user. Qed.
Print Assumptions C41_user.
Theorem C41_again : forall d u w cache r cache', get_details d u w cache = Ok (r, cache') ->
  get_details d u w cache' = Ok (r, cache') /\ (forall v, cache = Some v -> r = Some v).
Proof. exact details_again. Qed.
Print Assumptions C41_again.
Theorem C41_set : forall d u w cache v, get_details d u w (set_details (Some v) cache) = Ok (Some v, Some v).
Proof. exact details_set. Qed.
Print Assumptions C41_set.
Example C41_ex : is_unknown (WordId u32_max true) = true /\ is_unknown (WordId 1 false) = false /\
  exists u, build_user (kind_user_options IPADIC) user_sample = Ok u /\
    forall d, get_details d (Some u) (WordId 1 false) None =
      Ok (Some [lit "noun"; star; star; star; star; star; lit "sky"; lit "SKY"; star],
          Some [lit "noun"; star; star; star; star; star; lit "sky"; lit "SKY"; star]).
Proof.
  split; [reflexivity|]. split; [reflexivity|]. eexists. split; [vm_compute; reflexivity|]. intros d. vm_compute. reflexivity.
Qed.
