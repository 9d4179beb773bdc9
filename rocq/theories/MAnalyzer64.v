(** The analyzer in a debug build: the search with the overflow checks of MDebug.v, the character filters and the correction of
    offsets with those of MOffset64.v.  The sums of lengths and positions in the token filters are not checked. *)
From Coq Require Import List NArith ZArith Bool.
From Verif Require Import MBase MUtf8 MText MCharDef MTokenizer MCharFilter MAnalyzer MTokenFilter MConfig MLattice32 MDebug MOffset64.
Import ListNotations.

(* As run_char_filter in MConfig.v; the only arithmetic of the iteration mark filter is a subtraction that is checked there.
   lindera-filter/src/character_filter.rs:28-31. *)
Definition run_char_filter_debug (e : env) (d : char_filter_def) : char_filter :=
  match d with
  | CFIteration c => fun text => Some (iteration_apply c text)
  | CFMapping f => mapping_apply_debug f
  | CFRegex rx r => fun text => Some (regex_apply_debug rx r text)
  | CFNormalize k => fun text => Some (normalize_apply_debug (e_graphemes e) (e_form e k) text)
  end.

(* lindera-analyzer/src/analyzer.rs:158-167: one token *)
Definition correct_token_debug (vecs : list recorded) (tk : ftoken) : res ftoken :=
  do s <- foldM (fun o '(offsets, diffs, len) => correct_offset_debug binary_search o offsets diffs len) vecs (ft_start tk);
  do e <- foldM (fun o '(offsets, diffs, len) => correct_offset_debug binary_search o offsets diffs len) vecs (ft_end tk);
  Ok (FToken (ft_text tk) s e (ft_position tk) (ft_position_length tk) (ft_word tk) (ft_details tk)).

(* lindera-analyzer/src/analyzer.rs:102-171 *)
Definition analyze_checked (e : env) (d : analyzer_def) (text : str) : option (res (list ftoken)) :=
  match apply_char_filters (map (run_char_filter_debug e) (ad_char_filters d)) text [] with
  | Some (Ok (normalized_text, vecs)) =>
    match tokenize_debug (ad_tokenizer d) normalized_text with
    | Some (Ok tmp_tokens) =>
      Some (do tokens <- mapM (analyzed_token (ad_tokenizer d)) tmp_tokens;
            do tokens <- foldM (fun ts f => f ts) (map (run_token_filter e) (ad_token_filters d)) tokens;
            mapM (correct_token_debug vecs) tokens)
    | Some (Err k) => Some (Err k)
    | Some Panic => Some Panic
    | None => None
    end
  | Some (Err k) => Some (Err k)
  | Some Panic => Some Panic
  | None => None
  end.
