(** Properties C67 - C69: numbers, lines and fields of the source files, and their formats. *)
From Coq Require Import String.
From Coq Require Import List NArith ZArith Bool Lia ZifyBool ZifyNat ZifyN.
From Verif Require Import MBase MUtf8 MText MCodec MDict MCharDef MUnk MLattice MBuild STok SText SMatrix SUnk SCharDef SSource LText LSource XData.
Import ListNotations.
Local Open Scope string_scope.
Local Open Scope list_scope.

(** * C67: numbers *)

Theorem C67_i16 : forall s z, parse_i16 s = Some z <-> signed 10 s z /\ (-32768 <= z <= 32767)%Z.
Proof. exact parse_i16_spec. Qed.
Print Assumptions C67_i16.
Theorem C67_i32 : forall s z, parse_i32 s = Some z <-> signed 10 s z /\ (-2147483648 <= z <= 2147483647)%Z.
Proof. exact parse_i32_spec. Qed.
Print Assumptions C67_i32.
Theorem C67_u16 : forall s n, parse_u16 s = Some n <-> unsigned 10 s (Z.of_N n) /\ (n <= 65535)%N.
Proof. exact parse_u16_spec. Qed.
Print Assumptions C67_u16.
Theorem C67_u32 : forall s n, parse_u32 s = Some n <-> unsigned 10 s (Z.of_N n) /\ (n <= 4294967295)%N.
Proof. exact parse_u32_spec. Qed.
Print Assumptions C67_u32.
Theorem C67_hex : forall s c, parse_hex_codepoint s = Ok c <-> hex_point s c.
Proof. exact (fun s c => iff_sym (hex_point_spec s c)). Qed.
Print Assumptions C67_hex.
Theorem C67_every_number : forall radix z, (2 <= radix <= 36)%Z -> (0 <= z)%Z -> exists s, digits radix s z.
Proof. exact digits_exist. Qed.
Print Assumptions C67_every_number.
Theorem C67_one_number : forall radix s v w, digits radix s v -> digits radix s w -> v = w.
Proof. exact digits_unique. Qed.
Print Assumptions C67_one_number.
Example C67_ex : signed 10 (lit "-12") (-12) /\ unsigned 10 (lit "+07") 7 /\ hex_point (lit "0x00fF") 255 /\
  parse_i16 (lit "32768") = None /\ parse_u16 (lit "-0") = None /\ parse_i16 (lit "-32768") = Some (-32768)%Z /\ parse_i16 (lit "- 1") = None /\
  parse_u32 (lit "") = None /\ parse_u32 (lit "+") = None /\ parse_hex_codepoint (lit "0x12345") = Err EParse.
Proof.
  split; [apply parse_i32_spec; vm_compute; reflexivity|]. split; [apply (parse_u32_spec _ 7); vm_compute; reflexivity|]. split; [apply hex_point_spec; vm_compute; reflexivity|].
  vm_compute. repeat split.
Qed.

(** * C68: lines and fields *)

Theorem C68_lines : forall s ls, lines s = ls <-> file_lines s ls.
Proof. exact lines_spec. Qed.
Print Assumptions C68_lines.
Theorem C68_fields : forall s fs, split_whitespace s = fs <-> fields_of white s fs.
Proof. exact split_whitespace_spec. Qed.
Print Assumptions C68_fields.
Theorem C68_ascii_fields : forall s fs, split_ascii_whitespace s = fs <-> fields_of ascii_white s fs.
Proof. exact split_ascii_whitespace_spec. Qed.
Print Assumptions C68_ascii_fields.
Theorem C68_parts : forall c s ps, split_char c s = ps <-> parts_of c s ps.
Proof. exact split_char_spec. Qed.
Print Assumptions C68_parts.
Theorem C68_pieces : forall p s ps, p <> [] -> (split_str p s = ps <-> pieces_of p s ps).
Proof. exact split_str_spec. Qed.
Print Assumptions C68_pieces.
Theorem C68_trim : forall s t, trim s = t <-> trimmed s t.
Proof. exact trim_spec. Qed.
Print Assumptions C68_trim.
Theorem C68_prefix : forall p s, (starts_with p s = true <-> exists r, s = p ++ r) /\ forall r, strip_prefix p s = Some r <-> s = p ++ r.
Proof. exact (fun p s => conj (starts_with_spec p s) (strip_prefix_spec p s)). Qed.
Print Assumptions C68_prefix.
Theorem C68_stripped : forall p s r, p <> [] -> (trim_start_matches p s = r <-> stripped p s r).
Proof. exact trim_start_matches_spec. Qed.
Print Assumptions C68_stripped.
Example C68_ex : file_lines [97; 13; 10; 10; 98]%N [[97]; []; [98]]%N /\ fields_of white (lit " a  b ") [lit "a"; lit "b"] /\
  parts_of 44%N (lit "a,,b") [lit "a"; []; lit "b"] /\ pieces_of (lit "..") (lit "a...b") [lit "a"; lit ".b"] /\ trimmed (lit "  a b ") (lit "a b") /\
  stripped (lit "0x") (lit "0x0x1") (lit "1") /\
  ~ file_lines [97; 10]%N [[97]; []]%N /\ ~ fields_of ascii_white [97; 0x3000; 98]%N [[97]; [98]]%N.
Proof.
  split; [apply lines_spec; vm_compute; reflexivity|]. split; [apply split_whitespace_spec; vm_compute; reflexivity|]. split; [apply split_char_spec; vm_compute; reflexivity|].
  split; [apply split_str_spec; [discriminate|vm_compute; reflexivity]|]. split; [apply trim_spec; vm_compute; reflexivity|].
  split; [apply trim_start_matches_spec; [discriminate|vm_compute; reflexivity]|].
  split; intros H; [apply lines_spec in H|apply split_ascii_whitespace_spec in H]; vm_compute in H; discriminate.
Qed.

(** * C69: the formats of the source files *)

Theorem C69_char : forall content ds, directives content = Ok ds <-> char_file content ds.
Proof. exact (fun content ds => iff_sym (char_file_spec content ds)). Qed.
Print Assumptions C69_char.
Theorem C69_matrix : forall content fsize bsize entries, matrix_def content fsize bsize entries <-> matrix_file content fsize bsize entries.
Proof. exact (fun content f b es => iff_sym (matrix_file_spec content f b es)). Qed.
Print Assumptions C69_matrix.
Theorem C69_unk : forall n content us, Forall2 (reads_as n) (lines content) us <-> unk_file n content us.
Proof. exact (fun n content us => iff_sym (unk_file_spec n content us)). Qed.
Print Assumptions C69_unk.

Theorem C69_char_back : forall ds, Forall writable ds -> exists content cd, char_file content ds /\ char_def_of content = Ok cd /\
  categories cd = nub (flat_map mentions ds) /\
  forall c, exists ids, lookup_categories cd c = Ok ids /\ mapM (category_name cd) ids = Ok (categories_of ds c).
Proof. exact char_back. Qed.
Print Assumptions C69_char_back.
Theorem C69_matrix_back : forall fsize bsize entries, (fsize <= 32767)%N -> (bsize <= 32767)%N -> entries_fit fsize bsize entries ->
  exists content bytes m, matrix_file content fsize bsize entries /\ build_matrix content = Ok bytes /\ cm_load bytes = Ok m /\
    forall f b, (f < fsize)%N -> (b < bsize)%N -> cm_cost m f b = Ok (matrix_cost entries f b).
Proof. exact matrix_back. Qed.
Print Assumptions C69_matrix_back.
Theorem C69_unk_back : forall cats n us, 4 <= n -> Forall fits us ->
  Forall (fun u => ~ In 44%N (ul_name u) /\ ~ In 10%N (ul_name u) /\ ~ In 13%N (ul_name u)) us ->
  exists content d, unk_file n content us /\ parse_unk cats content n = Ok d /\
    (forall c name, nth_error cats c = Some name -> exists ids, ud_lookup_word_ids d c = Ok ids /\ lines_about name us ids) /\
    (forall k u, nth_error us (N.to_nat k) = Some u -> exists e, ud_word_entry d k = Ok e /\
       we_cost e = ul_cost u /\ we_left e = ul_left u /\ we_right e = ul_right u /\ is_unknown (we_id e) = true /\ is_system (we_id e) = true).
Proof. exact unk_back. Qed.
Print Assumptions C69_unk_back.

Example C69_ex : char_file char_text char_directives /\ matrix_file matrix_text 2 3 matrix_entries /\ unk_file 5 unk_text unk_lines /\
  Forall writable char_directives /\ entries_fit 2 3 matrix_entries /\ Forall fits unk_lines /\
  Forall (fun u => ~ In 44%N (ul_name u) /\ ~ In 10%N (ul_name u) /\ ~ In 13%N (ul_name u)) unk_lines /\
  (forall ds, ~ char_file (lit "0xFEFF A") ds).
Proof.
  split; [apply char_file_spec; vm_compute; reflexivity|]. split; [apply matrix_file_spec, matrix_text_def|]. split; [apply unk_file_spec, unk_text_lines|].
  split; [|split; [exact matrix_entries_fit|split; [exact unk_lines_fit|]]].
  - unfold char_directives. repeat (apply Forall_cons; [|]); try apply Forall_nil; unfold writable, plain_name, plain_point; cbn;
      repeat match goal with |- _ /\ _ => split | |- Forall _ _ => constructor end; try discriminate; try (unfold white; cbn; lia); try lia.
  - split; [repeat constructor; cbn; lia|]. intros ds H. apply char_file_spec in H. vm_compute in H. discriminate.
Qed.
