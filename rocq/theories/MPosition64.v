(** The analyzer in a debug build with the sum of position lengths checked as well.  The other arithmetic of the token filters is a
    subtraction that is checked in MTokenFilter.v (adjust_digits) and byte offsets into the text of one token (MTokenMap64.v). *)
From Coq Require Import List NArith ZArith Bool.
From Verif Require Import MBase MUtf8 MText MCharDef MTokenizer MCharFilter MAnalyzer MTokenFilter MConfig MLattice32 MDebug MOffset64 MAnalyzer64.
Import ListNotations.

(* lindera-filter/src/token_filter/japanese_compound_word.rs:94-123, as concat_token in MTokenFilter.v; line 97 is checked *)
Definition concat_token_debug (cfg : compound_config) (t1 t2 : ftoken) : res ftoken :=
  do position_length <- checked_usize (Z.of_nat (ft_position_length t1) + Z.of_nat (ft_position_length t2));
  do details <- match cc_new_tag cfg with
                | Some t => overwrite (compound_details (cc_kind cfg)) (split_char 44%N t)
                | None => Ok (compound_details (cc_kind cfg))
                end;
  Ok (FToken (ft_text t1 ++ ft_text t2) (ft_start t1) (ft_end t2) (ft_position t1) (N.to_nat position_length) (ft_word t1) details).

(* lindera-filter/src/token_filter/japanese_compound_word.rs:131-181, as compound_loop in MTokenFilter.v *)
Fixpoint compound_loop_debug (cfg : compound_config) (tokens : list ftoken) (cur : option ftoken) : res (list ftoken) :=
  match tokens with
  | [] => Ok (match cur with Some t => [t] | None => [] end)
  | tk :: r =>
    do pos <- token_tag tk;
    if contains (cc_tags cfg) pos then
      match cur with
      | None => compound_loop_debug cfg r (Some tk)
      | Some t => do t' <- concat_token_debug cfg t tk; compound_loop_debug cfg r (Some t')
      end
    else
      do rest <- compound_loop_debug cfg r None;
      Ok (match cur with Some t => t :: tk :: rest | None => tk :: rest end)
  end.

(* As run_token_filter in MConfig.v.  lindera-filter/src/token_filter.rs:115-185. *)
Definition run_token_filter_debug (e : env) (d : token_filter_def) : token_filter :=
  match d with
  | TFCompound c => fun tokens => compound_loop_debug c tokens None
  | d => run_token_filter e d
  end.

(* lindera-analyzer/src/analyzer.rs:102-171, as analyze_checked in MAnalyzer64.v *)
Definition analyze_all_checked (e : env) (d : analyzer_def) (text : str) : option (res (list ftoken)) :=
  match apply_char_filters (map (run_char_filter_debug e) (ad_char_filters d)) text [] with
  | Some (Ok (normalized_text, vecs)) =>
    match tokenize_debug (ad_tokenizer d) normalized_text with
    | Some (Ok tmp_tokens) =>
      Some (do tokens <- mapM (analyzed_token (ad_tokenizer d)) tmp_tokens;
            do tokens <- foldM (fun ts f => f ts) (map (run_token_filter_debug e) (ad_token_filters d)) tokens;
            mapM (correct_token_debug vecs) tokens)
    | Some (Err k) => Some (Err k)
    | Some Panic => Some Panic
    | None => None
    end
  | Some (Err k) => Some (Err k)
  | Some Panic => Some Panic
  | None => None
  end.
