(** Specification for property C106: the analysis of two texts one after the other, with character filters. *)
From Coq Require Import List NArith.
From Verif Require Import MBase MUtf8 MText MCharFilter MAnalyzer SCharFilter SAnalyzer.
Import ListNotations.

(** Nothing is deleted at the beginning *)
Definition begins (segs : list segment) : Prop := source_of segs 0 = 0.

(** The filters make of u v what they make of u and of v, side by side, and replace the same segments *)
Inductive filtered_beside : list char_filter -> str -> str -> str -> str -> Prop :=
| beside_none u v : filtered_beside [] u v u v
| beside_more f fs u v mid_u mid_v out_u out_v segs_u segs_v :
    filter_records f u mid_u segs_u -> filter_records f v mid_v segs_v -> filter_records f (u ++ v) (mid_u ++ mid_v) (segs_u ++ segs_v) -> begins segs_v ->
    filtered_beside fs mid_u mid_v out_u out_v -> filtered_beside (f :: fs) u v out_u out_v.

(** No key of the mapping lies across the place between u and v *)
Definition no_key_across (m : list (str * str)) (u v : str) : Prop :=
  forall a b k value rest, u = a ++ b -> b <> [] -> In (k, value) m -> b ++ v = k ++ rest -> exists r, b = k ++ r.

(** No mark of v repeats a character before v: each run of marks is preceded by as many characters *)
Definition marks_inside (kanji kana : bool) (v : str) : Prop := forall s n, 0 < n -> mark_run kanji kana v s n -> n <= s.

(** Matches of a regular expression, behind a text of so many bytes *)
Definition spans_behind (bytes : nat) (spans : list (nat * nat)) : list (nat * nat) := map (fun '(s, e) => (bytes + s, bytes + e)) spans.
