(** Specification vocabulary: filters applied a second time. *)
From Coq Require Import List NArith ZArith Bool.
From Verif Require Import MBase MUtf8 MText MBuild MCharFilter MAnalyzer MTokenFilter MConfig SCharFilter STokenFilter.
Import ListNotations.

(* a conversion of texts that changes no text it has made *)
Definition settles (f : str -> str) : Prop := forall s, f (f s) = f s.

(* filters that leave alone what they have made: all but the stemming and the mapping ones, and the conversions from outside
   if they settle *)
Definition once_enough (e : env) (d : token_filter_def) : Prop :=
  match d with
  | TFStem _ => False
  | TFMapping _ => False
  | TFKana k => settles (e_kana e k)
  | TFLowercase => settles (e_lower e)
  | TFUppercase => settles (e_upper e)
  | _ => True
  end.

(* a katakana text that ends in two prolonged sound marks and is long enough to lose both *)
Definition two_marks (min : nat) (text : str) : Prop :=
  exists body, text = body ++ [0x30FC; 0x30FC]%N /\ Forall in_katakana text /\ S min < length text.

(* no iteration mark repeats an iteration mark *)
Definition repeats_no_mark (kanji kana : bool) (text : str) : Prop :=
  forall s n p, mark_run kanji kana text s n -> s <= p < s + n -> ~ is_mark_at kanji kana text (p - Nat.min n s).

(* no key of the mapping occurs in the text *)
Definition free_of_keys (m : list (str * str)) (text : str) : Prop := forall k v a b, In (k, v) m -> text <> a ++ k ++ b.

(* no replacement is empty, and none has a character of a key *)
Definition keys_apart (m : list (str * str)) : Prop :=
  (forall k v, In (k, v) m -> v <> []) /\ forall k v k' v' c, In (k, v) m -> In (k', v') m -> In c k -> ~ In c v'.
