(** Specification vocabulary: places where a sentence falls apart. *)
From Coq Require Import List NArith ZArith Bool.
From Verif Require Import MBase MUtf8 MCodec MDict MLattice MTokenizer STok.
Import ListNotations.

(* no dictionary word and no run of characters that may be an unknown word begins inside u and goes on into v *)
Definition divides (A : adict) (u v : str) : Prop :=
  forall pre r w, u = pre ++ r -> r <> [] -> ((exists e, dict_word A (r ++ v) w e) \/ (exists ord, span_at A (r ++ v) ord w)) ->
  exists rest, r = w ++ rest.

(* all words that can end at the end of u have the right id f; the beginning of a sentence counts as a word with right id 0 *)
Definition leaves (A : adict) (u v : str) (f : N) : Prop :=
  (u = [] -> f = 0%N) /\ forall pre w e, u = pre ++ w -> candidate A (w ++ v) w e -> we_right e = f.

(* one sentence *)
Definition sentence (s : str) : Prop := closed_sentence s \/ open_sentence s.

(* the surfaces and word ids of tokens *)
Definition contents_of (ts : list token) : list (str * word_id) := map (fun t => (tk_text t, tk_word t)) ts.
