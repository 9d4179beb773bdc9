(** How often the categories of a character are looked up while the lattice of a sentence is made. *)
From Coq Require Import List NArith.
From Verif Require Import MBase MUtf8 MCodec MDict MCharDef MUnk MLattice MTokenizer MReads.
Import ListNotations.

(* the lattice of a sentence, and the number of lookups *)
Definition counted_lattice (t : tokenizer) (m : mode) (s : str) : res (lattice * nat) :=
  counted_text default_lattice (d_dict (t_dictionary t)) (option_map u_dict (t_user t)) (d_chardef (t_dictionary t))
    (d_unknown (t_dictionary t)) s m.
