(** The analyzer of MAnalyzer.v with the 32-bit numbers of MLattice32.v, and with the overflow checks of MDebug.v.
    The arithmetic of the filters is on byte lengths and positions, which fit usize and i64 (see MCharFilter.v). *)
From Coq Require Import List NArith ZArith Bool.
From Verif Require Import MBase MUtf8 MText MTokenizer MCharFilter MAnalyzer MLattice32 MDebug.
Import ListNotations.

(* lindera-analyzer/src/analyzer.rs:102-171 *)
Definition analyze32 (a : analyzer) (text : str) : option (res (list ftoken)) :=
  match apply_char_filters (an_char_filters a) text [] with
  | Some (Ok (normalized_text, vecs)) =>
    match tokenize32 (an_tokenizer a) normalized_text with
    | Some (Ok tmp_tokens) => Some (analyze_normalized a vecs tmp_tokens)
    | Some (Err k) => Some (Err k)
    | Some Panic => Some Panic
    | None => None
    end
  | Some (Err k) => Some (Err k)
  | Some Panic => Some Panic
  | None => None
  end.

(* lindera-analyzer/src/analyzer.rs:102-171 *)
Definition analyze_debug (a : analyzer) (text : str) : option (res (list ftoken)) :=
  match apply_char_filters (an_char_filters a) text [] with
  | Some (Ok (normalized_text, vecs)) =>
    match tokenize_debug (an_tokenizer a) normalized_text with
    | Some (Ok tmp_tokens) => Some (analyze_normalized a vecs tmp_tokens)
    | Some (Err k) => Some (Err k)
    | Some Panic => Some Panic
    | None => None
    end
  | Some (Err k) => Some (Err k)
  | Some Panic => Some Panic
  | None => None
  end.
