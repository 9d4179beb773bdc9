(** Specification vocabulary: more words, other modes. *)
From Coq Require Import List NArith ZArith Bool.
From Verif Require Import MBase MUtf8 MCodec MDict MCharDef MUnk MLattice MTokenizer STok.
Import ListNotations.

(* A' has the words of A and perhaps more; the rest is the same *)
Record more_words (A A' : adict) : Prop := {
  mw_words : forall k e, In e (entries_of (a_usr A) k) \/ In e (entries_of (a_sys A) k) -> In e (entries_of (a_usr A') k) \/ In e (entries_of (a_sys A') k);
  mw_cats : forall c, a_cats A' c = a_cats A c;
  mw_invoke : forall k, a_invoke A' k = a_invoke A k;
  mw_group : forall k, a_group A' k = a_group A k;
  mw_unk : forall k, a_unk A' k = a_unk A k;
  mw_conn : forall f b, a_conn A' f b = a_conn A f b
}.

(* where the new words start in s there was a word already, or every category of the character makes unknown words anyway *)
Definition no_new_starts (A A' : adict) (s : str) : Prop :=
  forall pre c r, s = pre ++ c :: r -> no_dict_word A (c :: r) ->
    no_dict_word A' (c :: r) \/ forall cat, In cat (a_cats A c) -> a_invoke A cat = true.

(* words that are not penalized *)
Definition unpenalized (m : mode) (ws : list word) : Prop := Forall (fun w => surface_penalty m (fst w) = 0%Z) ws.
