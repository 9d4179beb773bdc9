(** The analyzer: lindera-analyzer/src/analyzer.rs and lindera-filter/src/token.rs *)
From Coq Require Import List NArith ZArith Bool.
From Verif Require Import MBase MUtf8 MText MCodec MDict MCharDef MTokenizer MDetails MCharFilter.
Import ListNotations.

(* lindera-filter/src/token.rs:6-28.  Byte offsets are N: a wrapped offset may be near 2^64. *)
Record ftoken := FToken {
  ft_text : str;
  ft_start : N;
  ft_end : N;
  ft_position : nat;
  ft_position_length : nat;
  ft_word : word_id;
  ft_details : list str
}.

(* CharacterFilter::apply and TokenFilter::apply as functions; None = would not terminate.
   lindera-filter/src/character_filter.rs:28-31. *)
Definition char_filter := str -> option (res filter_result).
(* lindera-filter/src/token_filter.rs:80-84. *)
Definition token_filter := list ftoken -> res (list ftoken).

(* lindera-analyzer/src/analyzer.rs:33-42 *)
Record analyzer := Analyzer {
  an_char_filters : list char_filter;
  an_tokenizer : tokenizer;
  an_token_filters : list token_filter
}.

(* one entry of offsets_vec, diffs_vec and text_len_vec.  lindera-analyzer/src/analyzer.rs:105-126. *)
Definition recorded := (list N * list Z * N)%type.

(* lindera-analyzer/src/analyzer.rs:110-126: the normalized text and the three vectors, zipped; entries are inserted at the front *)
Fixpoint apply_char_filters (fs : list char_filter) (text : str) (vecs : list recorded) : option (res (str * list recorded)) :=
  match fs with
  | [] => Some (Ok (text, vecs))
  | f :: r =>
    match f text with
    | Some (Ok (new_text, offsets, diffs)) =>
      apply_char_filters r new_text
        (if is_nil offsets then vecs else (offsets, diffs, N.of_nat (blen new_text)) :: vecs)
    | Some (Err k) => Some (Err k)
    | Some Panic => Some Panic
    | None => None
    end
  end.

(* lindera-analyzer/src/analyzer.rs:132-150: one token, with its details; a token of the tokenizer has none cached yet *)
Definition analyzed_token (t : tokenizer) (tk : token) : res ftoken :=
  do '(details, _) <- get_details (t_dictionary t) (t_user t) (tk_word tk) None;
  do details <- ok_or details EContent;
  Ok (FToken (tk_text tk) (N.of_nat (tk_start tk)) (N.of_nat (tk_end tk)) (tk_position tk) (tk_position_length tk) (tk_word tk) details).

(* lindera-analyzer/src/analyzer.rs:158-167: one token.  Start and end are corrected independently. *)
Definition correct_token (vecs : list recorded) (tk : ftoken) : res ftoken :=
  do s <- foldM (fun o '(offsets, diffs, len) => correct_offset o offsets diffs len) vecs (ft_start tk);
  do e <- foldM (fun o '(offsets, diffs, len) => correct_offset o offsets diffs len) vecs (ft_end tk);
  Ok (FToken (ft_text tk) s e (ft_position tk) (ft_position_length tk) (ft_word tk) (ft_details tk)).

(* lindera-analyzer/src/analyzer.rs:128-170 after the character filters *)
Definition analyze_normalized (a : analyzer) (vecs : list recorded) (tmp_tokens : list token) : res (list ftoken) :=
  do tokens <- mapM (analyzed_token (an_tokenizer a)) tmp_tokens;
  do tokens <- foldM (fun ts f => f ts) (an_token_filters a) tokens;
  mapM (correct_token vecs) tokens.

(* lindera-analyzer/src/analyzer.rs:102-171 *)
Definition analyze (a : analyzer) (text : str) : option (res (list ftoken)) :=
  match apply_char_filters (an_char_filters a) text [] with
  | Some (Ok (normalized_text, vecs)) =>
    match tokenize (an_tokenizer a) normalized_text with
    | Some (Ok tmp_tokens) => Some (analyze_normalized a vecs tmp_tokens)
    | Some (Err k) => Some (Err k)
    | Some Panic => Some Panic
    | None => None
    end
  | Some (Err k) => Some (Err k)
  | Some Panic => Some Panic
  | None => None
  end.
