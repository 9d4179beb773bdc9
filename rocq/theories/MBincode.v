(** bincode 1.3 with its default configuration (fixed-width little-endian integers, u64 lengths), as used by
    bincode::serialize_into, deserialize and deserialize_from.  External crate: documented format. *)
From Coq Require Import List NArith ZArith Bool.
From Verif Require Import MBase MUtf8 MText MCodec MCharDef MUnk.
Import ListNotations.

(* A decoder takes the bytes and gives the value and the unread bytes, or None for any bincode error.
   deserialize allows trailing bytes; deserialize_from leaves them unread.
   lindera-core/src/unknown_dictionary.rs:20-23, lindera-core/src/character_definition.rs:83-86, lindera-core/src/dictionary.rs:52-55. *)
Definition decoder (A : Type) := list N -> option (A * list N).

(* unsigned integers of n bytes; usize is encoded as u64.  For the fields of lindera-core/src/word_entry.rs:6-7. *)
Definition enc_uint (n : nat) (v : N) : list N := le_bytes n v.
(* As enc_uint: lindera-core/src/word_entry.rs:6-7. *)
Definition dec_uint (n : nat) : decoder N :=
  fun bs => if Nat.ltb (length bs) n then None else Some (le_value (firstn n bs), skipn n bs).

(* i16.  lindera-core/src/word_entry.rs:24-30. *)
Definition enc_i16 (z : Z) : list N := i16_bytes z.
(* lindera-core/src/word_entry.rs:24-30. *)
Definition dec_i16 : decoder Z :=
  fun bs => match dec_uint 2 bs with Some (v, r) => Some (wrap16 (Z.of_N v), r) | None => None end.

(* bool: one byte 0 or 1, anything else is an error.  lindera-core/src/character_definition.rs:32-37. *)
Definition enc_bool (b : bool) : list N := [if b then 1%N else 0%N].
(* lindera-core/src/character_definition.rs:32-37. *)
Definition dec_bool : decoder bool :=
  fun bs => match bs with
            | 0%N :: r => Some (false, r)
            | 1%N :: r => Some (true, r)
            | _ => None
            end.

(* sequences: u64 length, then the elements.  lindera-core/src/unknown_dictionary.rs:13-17. *)
Definition enc_vec {A} (e : A -> list N) (l : list A) : list N :=
  enc_uint 8 (N.of_nat (length l)) ++ flat_map e l.
(* lindera-core/src/unknown_dictionary.rs:13-17. *)
Fixpoint dec_n {A} (d : decoder A) (n : nat) : decoder (list A) :=
  fun bs => match n with
            | O => Some ([], bs)
            | S k => match d bs with
                     | None => None
                     | Some (x, r) => match dec_n d k r with
                                      | None => None
                                      | Some (xs, r') => Some (x :: xs, r')
                                      end
                     end
            end.
(* Every element type used takes at least one byte, so a length above the number of remaining bytes fails in any case;
   it is rejected at once.  lindera-core/src/unknown_dictionary.rs:13-17. *)
Definition dec_vec {A} (d : decoder A) : decoder (list A) :=
  fun bs => match dec_uint 8 bs with
            | None => None
            | Some (n, r) => if (N.of_nat (length r) <? n)%N then None else dec_n d (N.to_nat n) r
            end.

(* String: as a sequence of bytes that must be UTF-8.  lindera-core/src/prefix_dict.rs:18-21. *)
Definition dec_byte : decoder N := dec_uint 1.
(* lindera-core/src/prefix_dict.rs:18-21. *)
Definition enc_byte (b : N) : list N := [b].
(* Vec<u8>: lindera-core/src/dictionary.rs:44-49, lindera-decompress/src/lib.rs:21-24. *)
Definition enc_bytes (bs : list N) : list N := enc_vec enc_byte bs.
(* Vec<u8>: lindera-core/src/dictionary.rs:44-49. *)
Definition dec_bytes : decoder (list N) := dec_vec dec_byte.
(* lindera-core/src/character_definition.rs:45, lindera-dictionary-builder/src/user_dict.rs:118-124. *)
Definition enc_string (s : str) : list N := enc_bytes (utf8 s).
(* lindera-core/src/character_definition.rs:45, lindera-core/src/dictionary.rs:63-66. *)
Definition dec_string : decoder str :=
  fun bs => match dec_bytes bs with
            | None => None
            | Some (b, r) => match utf8_decode b with Some s => Some (s, r) | None => None end
            end.

(* structs and tuples: the fields one after the other.  For instance lindera-core/src/word_entry.rs:24-30. *)
Definition dec_map {A B} (f : A -> B) (d : decoder A) : decoder B :=
  fun bs => match d bs with Some (x, r) => Some (f x, r) | None => None end.
(* For instance lindera-core/src/word_entry.rs:24-30. *)
Definition dec_pair {A B} (da : decoder A) (db : decoder B) : decoder (A * B) :=
  fun bs => match da bs with
            | None => None
            | Some (x, r) => match db r with Some (y, r') => Some ((x, y), r') | None => None end
            end.

(* lindera-core/src/word_entry.rs:6-7 and 24-30, derived Serialize/Deserialize *)
Definition enc_word_entry (e : word_entry) : list N :=
  enc_uint 4 (wid (we_id e)) ++ enc_bool (wsys (we_id e)) ++ enc_i16 (we_cost e)
  ++ enc_uint 2 (we_left e) ++ enc_uint 2 (we_right e).
(* lindera-core/src/word_entry.rs:6-7 and 24-30. *)
Definition dec_word_entry : decoder word_entry :=
  dec_map (fun '(i, (s, (c, (l, r)))) => WordEntry (WordId i s) c l r)
    (dec_pair (dec_uint 4) (dec_pair dec_bool (dec_pair dec_i16 (dec_pair (dec_uint 2) (dec_uint 2))))).

(* lindera-core/src/unknown_dictionary.rs:13-17 *)
Definition enc_unknown (d : unknown_dictionary) : list N :=
  enc_vec (enc_vec (enc_uint 4)) (ud_references d) ++ enc_vec enc_word_entry (ud_costs d).
(* lindera-core/src/unknown_dictionary.rs:13-17. *)
Definition dec_unknown : decoder unknown_dictionary :=
  dec_map (fun '(r, c) => UnknownDictionary r c) (dec_pair (dec_vec (dec_vec (dec_uint 4))) (dec_vec dec_word_entry)).

(* lindera-core/src/unknown_dictionary.rs:20-23 *)
Definition load_unknown (bs : list N) : res unknown_dictionary :=
  match dec_unknown bs with Some (d, _) => Ok d | None => Err EDeserialize end.

(* lindera-core/src/character_definition.rs:32-53 *)
Definition enc_category (c : category_data) : list N :=
  enc_bool (cd_invoke c) ++ enc_bool (cd_group c) ++ enc_uint 4 (cd_length c).
(* lindera-core/src/character_definition.rs:32-37. *)
Definition dec_category : decoder category_data :=
  dec_map (fun '(i, (g, l)) => CategoryData i g l) (dec_pair dec_bool (dec_pair dec_bool (dec_uint 4))).
(* lindera-core/src/character_definition.rs:42-53. *)
Definition enc_chardef (d : char_definitions) : list N :=
  enc_vec enc_category (cds_definitions d) ++ enc_vec enc_string (cds_names d)
  ++ enc_vec (enc_uint 4) (lt_boundaries (cds_mapping d))
  ++ enc_vec (enc_vec (fun c => enc_uint 8 (N.of_nat c))) (lt_values (cds_mapping d)).
(* lindera-core/src/character_definition.rs:42-53. *)
Definition dec_chardef : decoder char_definitions :=
  dec_map (fun '(d, (n, (b, v))) => CharDefinitions d n (LookupTable b v))
    (dec_pair (dec_vec dec_category) (dec_pair (dec_vec dec_string)
      (dec_pair (dec_vec (dec_uint 4)) (dec_vec (dec_vec (dec_map N.to_nat (dec_uint 8))))))).

(* lindera-core/src/character_definition.rs:83-86 *)
Definition load_chardef (bs : list N) : res char_definitions :=
  match dec_chardef bs with Some (d, _) => Ok d | None => Err EDeserialize end.

(* The serialized form of UserDictionary (lindera-core/src/dictionary.rs:44-49) and PrefixDict (lindera-core/src/prefix_dict.rs:8-21):
   the double array stands for its bytes (DoubleArrayDef is a newtype around the byte vector). *)
Record user_file := UserFile {
  uf_da : list N;
  uf_vals : list N;
  uf_system : bool;
  uf_words_idx : list N;
  uf_words : list N
}.
(* lindera-core/src/dictionary.rs:44-49 and lindera-core/src/prefix_dict.rs:8-21. *)
Definition enc_user (u : user_file) : list N :=
  enc_bytes (uf_da u) ++ enc_bytes (uf_vals u) ++ enc_bool (uf_system u) ++ enc_bytes (uf_words_idx u) ++ enc_bytes (uf_words u).
(* lindera-core/src/dictionary.rs:44-49 and lindera-core/src/prefix_dict.rs:8-21. *)
Definition dec_user : decoder user_file :=
  dec_map (fun '(d, (v, (s, (i, w)))) => UserFile d v s i w)
    (dec_pair dec_bytes (dec_pair dec_bytes (dec_pair dec_bool (dec_pair dec_bytes dec_bytes)))).

(* lindera-core/src/dictionary.rs:52-55 *)
Definition load_user (bs : list N) : res user_file :=
  match dec_user bs with Some (d, _) => Ok d | None => Err EDeserialize end.

(* lindera-decompress/src/lib.rs:6-24: enum variants are u32 indices *)
Inductive algorithm := Deflate | Zlib | Gzip | Raw.
(* lindera-decompress/src/lib.rs:16-24 *)
Record compressed_data := CompressedData { cz_algorithm : algorithm; cz_data : list N }.
(* lindera-decompress/src/lib.rs:6-14, derived *)
Definition algorithm_index (a : algorithm) : N :=
  match a with Deflate => 0 | Zlib => 1 | Gzip => 2 | Raw => 3 end%N.
(* lindera-decompress/src/lib.rs:6-14, derived *)
Definition dec_algorithm : decoder algorithm :=
  fun bs => match dec_uint 4 bs with
            | Some (0%N, r) => Some (Deflate, r)
            | Some (1%N, r) => Some (Zlib, r)
            | Some (2%N, r) => Some (Gzip, r)
            | Some (3%N, r) => Some (Raw, r)
            | _ => None
            end.
(* lindera-decompress/src/lib.rs:16-24, derived *)
Definition enc_compressed (c : compressed_data) : list N :=
  enc_uint 4 (algorithm_index (cz_algorithm c)) ++ enc_bytes (cz_data c).
(* lindera-decompress/src/lib.rs:16-24, derived *)
Definition dec_compressed : decoder compressed_data :=
  dec_map (fun '(a, d) => CompressedData a d) (dec_pair dec_algorithm dec_bytes).

(* The flate2 encoders and decoders: arbitrary functions.  None is an I/O error.
   lindera-compress/src/lib.rs:14-35 and lindera-decompress/src/lib.rs:26-48 call them. *)
Record codecs := Codecs {
  k_encode : algorithm -> list N -> option (list N);
  k_decode : algorithm -> list N -> option (list N)
}.

(* lindera-compress/src/lib.rs:14-35 *)
Definition compress (k : codecs) (data : list N) (a : algorithm) : option compressed_data :=
  match a with
  | Raw => Some (CompressedData Raw data)
  | _ => match k_encode k a data with Some d => Some (CompressedData a d) | None => None end
  end.

(* lindera-decompress/src/lib.rs:26-48 *)
Definition decompress (k : codecs) (c : compressed_data) : option (list N) :=
  match cz_algorithm c with
  | Raw => Some (cz_data c)
  | a => k_decode k a (cz_data c)
  end.

(* lindera-dictionary-builder/src/utils.rs:13-40: the bytes written, with and without the feature "compress" *)
Definition compress_write (k : codecs) (feature : bool) (buffer : list N) (a : algorithm) : res (list N) :=
  if feature then
    match compress k buffer a with Some c => Ok (enc_compressed c) | None => Err ECompress end
  else Ok buffer.

(* lindera-ipadic/src/lib.rs:13-31 (and the four like it): the macro decompress_data with and without the feature.
   expect() panics. *)
Definition embedded_data (k : codecs) (feature : bool) (bytes : list N) : res (list N) :=
  if feature then
    match dec_compressed bytes with
    | None => Panic
    | Some (c, _) => match decompress k c with Some d => Ok d | None => Panic end
    end
  else Ok bytes.
