(** Which values fit the types they are stored in, and what is assumed of the compression library. *)
From Coq Require Import List NArith ZArith Bool.
From Verif Require Import MBase MUtf8 MText MCodec MCharDef MUnk MBincode.
Import ListNotations.

Definition short {A} (l : list A) : Prop := (N.of_nat (length l) < 18446744073709551616)%N.

Definition entry_in_range (e : word_entry) : Prop :=
  is_u32 (wid (we_id e)) /\ is_i16 (we_cost e) /\ is_u16 (we_left e) /\ is_u16 (we_right e).

Definition unknown_in_range (d : unknown_dictionary) : Prop :=
  Forall (fun l => Forall is_u32 l /\ short l) (ud_references d) /\ short (ud_references d) /\
  Forall entry_in_range (ud_costs d) /\ short (ud_costs d).

Definition chardef_in_range (d : char_definitions) : Prop :=
  Forall (fun c => is_u32 (cd_length c)) (cds_definitions d) /\ short (cds_definitions d) /\
  Forall (fun s => valid_str s /\ (N.of_nat (blen s) < 18446744073709551616)%N) (cds_names d) /\ short (cds_names d) /\
  Forall is_u32 (lt_boundaries (cds_mapping d)) /\ short (lt_boundaries (cds_mapping d)) /\
  Forall (fun l => Forall (fun i => (N.of_nat i < 18446744073709551616)%N) l /\ short l) (lt_values (cds_mapping d)) /\
  short (lt_values (cds_mapping d)).

Definition user_in_range (u : user_file) : Prop :=
  Forall (fun l => Forall is_byte l /\ short l) [uf_da u; uf_vals u; uf_words_idx u; uf_words u].

(* each decoder undoes its encoder *)
Definition codecs_inverse (k : codecs) : Prop :=
  forall a data z, k_encode k a data = Some z -> k_decode k a z = Some data.

(* an encoder writes bytes, fewer than 2^64 *)
Definition codecs_bytes (k : codecs) : Prop :=
  forall a data z, k_encode k a data = Some z -> Forall is_byte z /\ short z.
