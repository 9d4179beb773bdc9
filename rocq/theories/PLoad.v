(** Property C89: which files load as a dictionary. *)
From Coq Require Import String.
From Coq Require Import List NArith ZArith Bool Lia.
From Verif Require Import MBase MUtf8 MText MCodec MDict MCharDef MUnk MBincode MTokenizer MBuild MConfig MBuilders SData SDetails SLoad LBincode LLoad XData XConfig XBuilders.
Import ListNotations.
Local Open Scope string_scope.
Local Open Scope list_scope.

(* the files of a dictionary load exactly when they start with their format; what follows is ignored *)
Theorem C89_unknown_words : (forall bs d, load_unknown bs = Ok d <-> starts unknown_format bs d) /\
  (forall bs, load_unknown bs = Err EDeserialize <-> forall d, ~ starts unknown_format bs d) /\ forall bs, load_unknown bs <> Panic.
Proof. exact unknown_loads. Qed.
Print Assumptions C89_unknown_words.
Theorem C89_categories : (forall bs d, load_chardef bs = Ok d <-> starts chardef_format bs d) /\
  (forall bs, load_chardef bs = Err EDeserialize <-> forall d, ~ starts chardef_format bs d) /\ forall bs, load_chardef bs <> Panic.
Proof. exact chardef_loads. Qed.
Print Assumptions C89_categories.
Theorem C89_user_file : (forall bs d, load_user bs = Ok d <-> starts user_format bs d) /\
  (forall bs, load_user bs = Err EDeserialize <-> forall d, ~ starts user_format bs d) /\ forall bs, load_user bs <> Panic.
Proof. exact user_loads. Qed.
Print Assumptions C89_user_file.
Theorem C89_matrix : (forall bs m, cm_load bs = Ok m <-> matrix_format bs m) /\ (forall bs, cm_load bs = Panic <-> List.length bs < 4) /\ forall bs k, cm_load bs <> Err k.
Proof. exact matrix_loads. Qed.
Print Assumptions C89_matrix.

(* a file cut short anywhere does not load *)
Theorem C89_cut_unknown_words : forall a b d, unknown_format (a ++ b) d -> b <> [] -> load_unknown a = Err EDeserialize.
Proof. exact unknown_cut. Qed.
Print Assumptions C89_cut_unknown_words.
Theorem C89_cut_categories : forall a b d, chardef_format (a ++ b) d -> b <> [] -> load_chardef a = Err EDeserialize.
Proof. exact chardef_cut. Qed.
Print Assumptions C89_cut_categories.
Theorem C89_cut_user_file : forall a b d, user_format (a ++ b) d -> b <> [] -> load_user a = Err EDeserialize.
Proof. exact user_cut. Qed.
Print Assumptions C89_cut_user_file.

(* the encoder writes these formats, and what loads is what the encoder would write, with anything after it *)
Theorem C89_written : (forall d, unknown_in_range d -> unknown_format (enc_unknown d) d) /\
  (forall d, chardef_in_range d -> chardef_format (enc_chardef d) d) /\ forall d, user_in_range d -> user_format (enc_user d) d.
Proof. exact (conj unknown_written (conj chardef_written user_written)). Qed.
Print Assumptions C89_written.
Theorem C89_saved_back :
  (forall bs d, Forall is_byte bs -> load_unknown bs = Ok d -> unknown_in_range d /\ exists rest, bs = enc_unknown d ++ rest) /\
  (forall bs d, Forall is_byte bs -> load_chardef bs = Ok d -> chardef_in_range d /\ exists rest, bs = enc_chardef d ++ rest) /\
  forall bs d, Forall is_byte bs -> load_user bs = Ok d -> user_in_range d /\ exists rest, bs = enc_user d ++ rest.
Proof. exact (conj unknown_back (conj chardef_back user_back)). Qed.
Print Assumptions C89_saved_back.

(* a directory *)
Theorem C89_dictionary : forall e dir d, load_dictionary e dir = Ok d <->
  exists da vals matrix chardef unk, e_read e (join_path dir (lit "dict.da")) = Some da /\ e_read e (join_path dir (lit "dict.vals")) = Some vals /\
    e_read e (join_path dir (lit "matrix.mtx")) = Some matrix /\ e_read e (join_path dir (lit "char_def.bin")) = Some chardef /\
    e_read e (join_path dir (lit "unk.bin")) = Some unk /\ e_read e (join_path dir (lit "dict.wordsidx")) = Some (d_words_idx d) /\
    e_read e (join_path dir (lit "dict.words")) = Some (d_words d) /\
    d_dict d = PrefixDict (e_da e da) vals true /\ matrix_format matrix (d_matrix d) /\ starts chardef_format chardef (d_chardef d) /\ starts unknown_format unk (d_unknown d).
Proof. exact dictionary_loads. Qed.
Print Assumptions C89_dictionary.
Theorem C89_dictionary_panics : forall e dir, load_dictionary e dir = Panic <->
  exists da vals matrix, e_read e (join_path dir (lit "dict.da")) = Some da /\ e_read e (join_path dir (lit "dict.vals")) = Some vals /\
    e_read e (join_path dir (lit "matrix.mtx")) = Some matrix /\ List.length matrix < 4.
Proof. exact dictionary_panics. Qed.
Print Assumptions C89_dictionary_panics.
Theorem C89_words_unchecked : forall e e' dir d, load_dictionary e dir = Ok d ->
  (forall name, In name [lit "matrix.mtx"; lit "char_def.bin"; lit "unk.bin"] -> e_read e' (join_path dir name) = e_read e (join_path dir name)) ->
  (forall name, In name [lit "dict.da"; lit "dict.vals"; lit "dict.wordsidx"; lit "dict.words"] -> e_read e' (join_path dir name) <> None) ->
  exists d', load_dictionary e' dir = Ok d' /\ d_matrix d' = d_matrix d /\ d_chardef d' = d_chardef d /\ d_unknown d' = d_unknown d.
Proof. exact words_unchecked. Qed.
Print Assumptions C89_words_unchecked.
Theorem C89_user_dictionary : forall e path d, load_user_dictionary_from_bin e path = Ok d <->
  exists bytes u, e_read e path = Some bytes /\ starts user_format bytes u /\ u_dict d = PrefixDict (e_da e (uf_da u)) (uf_vals u) (uf_system u) /\
    u_words_idx d = uf_words_idx u /\ u_words d = uf_words u.
Proof. exact user_file_loads. Qed.
Print Assumptions C89_user_dictionary.

(* embedded data *)
Theorem C89_embedded : forall k bytes data, embedded_data k true bytes = Ok data <->
  exists a z, starts compressed_format bytes (CompressedData a z) /\ match a with Raw => data = z | _ => k_decode k a z = Some data end.
Proof. exact embedded_loads. Qed.
Print Assumptions C89_embedded.
Theorem C89_embedded_no_error : forall k feature bytes x, embedded_data k feature bytes <> Err x.
Proof. exact embedded_no_error. Qed.
Print Assumptions C89_embedded_no_error.

(* and what the build scripts write for it *)
Theorem C89_writing : forall k a buffer, compress_write k false buffer a = Ok buffer /\
  match (match a with Raw => Some buffer | _ => k_encode k a buffer end) with
  | None => compress_write k true buffer a = Err ECompress
  | Some z => Forall is_byte z -> short z -> exists bytes, compress_write k true buffer a = Ok bytes /\ compressed_format bytes (CompressedData a z)
  end.
Proof. exact written_outcome. Qed.
Print Assumptions C89_writing.

Example C89_ex : unknown_format (enc_unknown unknown_sample) unknown_sample /\ chardef_format (enc_chardef chardef_sample) chardef_sample /\
  user_format [2; 0; 0; 0; 0; 0; 0; 0; 1; 255; 0; 0; 0; 0; 0; 0; 0; 0; 0; 1; 0; 0; 0; 0; 0; 0; 0; 0; 1; 0; 0; 0; 0; 0; 0; 0; 7]%N user_file_sample /\
  load_user [2; 0; 0; 0; 0; 0; 0; 0; 1; 255; 0; 0; 0; 0; 0; 0; 0; 0; 2; 1; 0; 0; 0; 0; 0; 0; 0; 0; 1; 0; 0; 0; 0; 0; 0; 0; 7]%N = Err EDeserialize /\
  load_unknown (enc_unknown unknown_sample ++ [1; 2; 3]%N) = Ok unknown_sample /\
  load_chardef (removelast (enc_chardef chardef_sample)) = Err EDeserialize /\
  cm_load [9; 9; 1; 0; 5; 0]%N = Ok (ConnMatrix [5; 0]%N 1) /\ cm_load [9; 9; 255; 255]%N = Ok (ConnMatrix [] 4294967295) /\ cm_load [1; 0; 1]%N = Panic /\
  exists d, load_dictionary (file_env (put (lit "out") (src_built false))) (lit "out") = Ok d.
Proof.
  destruct samples_in_range as (U & C & F). split; [exact (unknown_written _ U)|]. split; [exact (chardef_written _ C)|]. split; [exact (user_written _ F)|].
  do 6 (split; [vm_compute; reflexivity|]). eexists. vm_compute. reflexivity.
Qed.
(* the double array, values and words of a built dictionary lost: it still loads *)
Example C89_ex_words : let files := src_built false in
  let cut := map (fun f => if existsb (str_eqb (fst f)) (map lit ["dict.da"; "dict.vals"; "dict.wordsidx"; "dict.words"]) then (fst f, []) else f) files in
  exists d d', load_dictionary (file_env (put (lit "out") files)) (lit "out") = Ok d /\ load_dictionary (file_env (put (lit "out") cut)) (lit "out") = Ok d' /\
    d_words d' = [] /\ d_words d <> [] /\ d_matrix d' = d_matrix d.
Proof. cbv zeta. do 2 eexists. split; [vm_compute; reflexivity|]. split; [vm_compute; reflexivity|]. split; [reflexivity|]. split; [discriminate|reflexivity]. Qed.
