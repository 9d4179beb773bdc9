(** Specification vocabulary: arguments given as arrays.  The fields of the configurations with derived deserialization, in the
    order of their declaration. *)
From Coq Require Import String.
From Coq Require Import List.
From Verif Require Import MBase MUtf8 MText MConfig.
Import ListNotations.
Local Open Scope string_scope.

Definition token_filter_fields : list (str * list str) :=
  map (fun x => (lit (fst x), map lit (snd x)))
  [("japanese_base_form", ["kind"]); ("japanese_compound_word", ["kind"; "tags"; "new_tag"]); ("japanese_kana", ["kind"]);
   ("japanese_katakana_stem", ["min"]); ("japanese_reading_form", ["kind"]); ("keep_words", ["words"]); ("korean_keep_tags", ["tags"]);
   ("korean_stop_tags", ["tags"]); ("length", ["min"; "max"]); ("mapping", ["mapping"]); ("stop_words", ["words"])].
Definition char_filter_fields : list (str * list str) :=
  map (fun x => (lit (fst x), map lit (snd x)))
  [("japanese_iteration_mark", ["normalize_kanji"; "normalize_kana"]); ("mapping", ["mapping"]); ("regex", ["pattern"; "replacement"]);
   ("unicode_normalize", ["kind"])].
Definition penalty_fields : list str :=
  map lit ["kanji_penalty_length_threshold"; "kanji_penalty_length_penalty"; "other_penalty_length_threshold"; "other_penalty_length_penalty"].

(* neither an array nor an object *)
Definition scalar (v : value) : Prop := match v with VArr _ | VObj _ => False | _ => True end.
