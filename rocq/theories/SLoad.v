(** Specification vocabulary: the formats of the dictionary files, as bytes. *)
From Coq Require Import List NArith ZArith Bool.
From Verif Require Import MBase MUtf8 MText MCodec MDict MCharDef MUnk MBincode MTokenizer MConfig SDetails.
Import ListNotations.

(* A format says which bytes stand for a value. *)
Definition format (A : Type) := list N -> A -> Prop.

Definition number (k : nat) : format N := fun bs v => length bs = k /\ v = little bs.
Definition index : format nat := fun bs i => number 8 bs (N.of_nat i).
(* two bytes, read as a number from -32768 to 32767 *)
Definition signed : format Z := fun bs z =>
  exists v, number 2 bs v /\ (-32768 <= z < 32768)%Z /\ (z mod 65536 = Z.of_N v mod 65536)%Z.
Definition flag : format bool := fun bs b => bs = [if b then 1 else 0]%N.

(* values one after the other, and the same after their number *)
Inductive sequence {A} (F : format A) : list N -> list A -> Prop :=
| sequence_end : sequence F [] []
| sequence_more b x bs xs : F b x -> sequence F bs xs -> sequence F (b ++ bs) (x :: xs).
Definition vector {A} (F : format A) : format (list A) := fun bs xs =>
  exists count more, bs = count ++ more /\ number 8 count (N.of_nat (length xs)) /\ sequence F more xs.
Definition blob : format (list N) := fun bs data =>
  exists count, bs = count ++ data /\ number 8 count (size data).
Definition text : format str := fun bs s => valid_str s /\ blob bs (utf8 s).

(* unk.bin: for every category its word numbers, then the words *)
Definition word_format : format word_entry := fun bs w =>
  exists b1 b2 b3 b4 b5, bs = b1 ++ b2 ++ b3 ++ b4 ++ b5 /\ number 4 b1 (wid (we_id w)) /\ flag b2 (wsys (we_id w)) /\
    signed b3 (we_cost w) /\ number 2 b4 (we_left w) /\ number 2 b5 (we_right w).
Definition unknown_format : format unknown_dictionary := fun bs d =>
  exists b1 b2, bs = b1 ++ b2 /\ vector (vector (number 4)) b1 (ud_references d) /\ vector word_format b2 (ud_costs d).

(* char_def.bin: the categories, their names, the limits of the ranges of characters and the categories of each range *)
Definition category_format : format category_data := fun bs c =>
  exists b1 b2 b3, bs = b1 ++ b2 ++ b3 /\ flag b1 (cd_invoke c) /\ flag b2 (cd_group c) /\ number 4 b3 (cd_length c).
Definition chardef_format : format char_definitions := fun bs d =>
  exists b1 b2 b3 b4, bs = b1 ++ b2 ++ b3 ++ b4 /\ vector category_format b1 (cds_definitions d) /\ vector text b2 (cds_names d) /\
    vector (number 4) b3 (lt_boundaries (cds_mapping d)) /\ vector (vector index) b4 (lt_values (cds_mapping d)).

(* matrix.mtx: four bytes, the last two of them the number of right contexts, and the costs *)
Definition matrix_format : format conn_matrix := fun bs m =>
  exists a b z, bs = a ++ b ++ cm_data m /\ length a = 2 /\ signed b z /\ Z.of_N (cm_backward m) = (z mod 4294967296)%Z.

(* a compiled user dictionary *)
Definition user_format : format user_file := fun bs u =>
  exists b1 b2 b3 b4 b5, bs = b1 ++ b2 ++ b3 ++ b4 ++ b5 /\ blob b1 (uf_da u) /\ blob b2 (uf_vals u) /\ flag b3 (uf_system u) /\
    blob b4 (uf_words_idx u) /\ blob b5 (uf_words u).

(* compressed data: the number of the algorithm and the data *)
Definition method : format algorithm := fun bs a =>
  number 4 bs match a with Deflate => 0 | Zlib => 1 | Gzip => 2 | Raw => 3 end%N.
Definition compressed_format : format compressed_data := fun bs c =>
  exists b1 b2, bs = b1 ++ b2 /\ method b1 (cz_algorithm c) /\ blob b2 (cz_data c).

(* bytes that start with the value; what follows does not matter *)
Definition starts {A} (F : format A) : format A := fun bs x => exists used rest, bs = used ++ rest /\ F used x.
