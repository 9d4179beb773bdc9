(** Specification vocabulary: chains of character filters and the bytes of all their texts. *)
From Coq Require Import List NArith ZArith.
From Verif Require Import MBase MUtf8 MText MCharFilter MAnalyzer MTokenFilter MConfig SCharFilter.
Import ListNotations.

(* what the external crates must give on the text: the matches are spans of it from left to right, empty ones allowed, and the
   graphemes are a division of it.  The replacement of a regular expression has no group references. *)
Definition divides_text (e : env) (d : char_filter_def) (text : str) : Prop :=
  match d with
  | CFRegex rx r => has_dollar r = false /\ exists ps tail, text = whole ps tail /\ rx_find_iter rx text = match_spans 0 ps
  | CFNormalize _ => concat (e_graphemes e text) = text
  | _ => True
  end.

(* the filters turn text into out, and the texts before, between and after them have total bytes together *)
Inductive staged (e : env) : list char_filter_def -> str -> str -> nat -> Prop :=
| staged_none text : staged e [] text text (blen text)
| staged_more d ds text mid offs diffs out total : divides_text e d text -> run_char_filter e d text = Some (Ok (mid, offs, diffs)) ->
    staged e ds mid out total -> staged e (d :: ds) text out (blen text + total).
