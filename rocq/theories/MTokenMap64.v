(** The mapping token filter in a debug build. *)
From Coq Require Import List NArith ZArith Bool.
From Verif Require Import MBase MUtf8 MText MCodec MDict MBuild MCharDef MTokenizer MCharFilter MAnalyzer MTokenFilter MOffset64.
Import ListNotations.

(* lindera-filter/src/token_filter/mapping.rs:74-107, as map_text_loop in MTokenFilter.v with the variable `start`.
   `start + prefix_len` is computed for the slice and for the next start: the same sum, checked once. *)
Fixpoint map_text_loop_debug (fuel : nat) (f : mapping_filter) (suffix : str) (start : N) (result : str) : option (res str) :=
  match suffix with
  | [] => Some (Ok result)
  | c :: r =>
    match fuel with
    | O => None
    | S fuel =>
      match last_error (common_prefix_search (mf_trie f) (utf8 suffix)) with
      | Some (_, prefix_len) =>
        match checked_usize (Z.of_N start + Z.of_nat prefix_len) with
        | Ok next =>
          match str_to suffix prefix_len, str_from suffix prefix_len with
          | Ok surface, Ok rest =>
            match map_index (mf_mapping f) surface with
            | Ok replacement => map_text_loop_debug fuel f rest next (result ++ replacement)
            | _ => Some Panic
            end
          | _, _ => Some Panic
          end
        | _ => Some Panic
        end
      | None =>
        match checked_usize (Z.of_N start + Z.of_nat (width c)) with
        | Ok next => map_text_loop_debug fuel f r next (result ++ [c])
        | _ => Some Panic
        end
      end
    end
  end.

(* lindera-filter/src/token_filter/mapping.rs:72-113, as mapping_tokens in MTokenFilter.v *)
Fixpoint mapping_tokens_debug (f : mapping_filter) (tokens : list ftoken) : option (res (list ftoken)) :=
  match tokens with
  | [] => Some (Ok [])
  | tk :: r =>
    match map_text_loop_debug (List.length (ft_text tk)) f (ft_text tk) 0 [] with
    | Some (Ok t) =>
      match mapping_tokens_debug f r with
      | Some (Ok r') => Some (Ok (set_ft_text tk t :: r'))
      | o => o
      end
    | Some (Err k) => Some (Err k)
    | Some Panic => Some Panic
    | None => None
    end
  end.
