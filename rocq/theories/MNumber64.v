(** The number token filter in a release build on a 64-bit machine, where `zero_str.len() - num.len()` wraps. *)
From Coq Require Import List NArith ZArith Bool.
From Verif Require Import MBase MUtf8 MText MCodec MDict MBuild MCharDef MTokenizer MCharFilter MAnalyzer MTokenFilter.
Import ListNotations.

(* lindera-filter/src/token_filter/japanese_number.rs:130-138: the difference modulo 2^64; a slice that ends behind the text panics *)
Definition adjust_digits_release (num base digit : str) : res str :=
  let zero_str := base ++ digit in
  let zero_len := wrap_u 64 (Z.of_nat (blen zero_str) - Z.of_nat (blen num)) in
  if (N.of_nat (blen zero_str) <? zero_len)%N then Panic
  else do zeros <- str_to zero_str (N.to_nat zero_len); Ok (zeros ++ num).

(* lindera-filter/src/token_filter/japanese_number.rs:147-283, as numeral_step in MTokenFilter.v *)
Definition numeral_step_release (c : char) (next : option char) (st : str * str) : res (str * str) :=
  let '(num, digit) := st in
  match digit_char c with
  | Some d => Ok (d :: num, digit)
  | None =>
    if (c =? JU)%N || (c =? JU2)%N then
      do n <- adjust_digits_release num (zeros 1) digit; Ok (insert_one next [HYAKU; SEN; MAN; OKU; CHO; KEI; GAI] n, digit)
    else if (c =? HYAKU)%N then
      do n <- adjust_digits_release num (zeros 2) digit; Ok (insert_one next [SEN; MAN; OKU; CHO; KEI; GAI] n, digit)
    else if (c =? SEN)%N then
      do n <- adjust_digits_release num (zeros 3) digit; Ok (insert_one next [MAN; OKU; CHO; KEI; GAI] n, digit)
    else if (c =? MAN)%N then
      do n <- adjust_digits_release num [] (zeros 4); Ok (insert_one next [OKU; CHO; KEI; GAI] n, zeros 4)
    else if (c =? OKU)%N then
      do n <- adjust_digits_release num [] (zeros 8); Ok (insert_one next [CHO; KEI; GAI] n, zeros 8)
    else if (c =? CHO)%N then
      do n <- adjust_digits_release num [] (zeros 12); Ok (insert_one next [KEI; GAI] n, zeros 12)
    else if (c =? KEI)%N then
      do n <- adjust_digits_release num [] (zeros 16); Ok (insert_one next [GAI] n, zeros 16)
    else if (c =? GAI)%N then
      do n <- adjust_digits_release num [] (zeros 20); Ok (insert_one next [] n, zeros 20)
    else Ok (c :: num, [])
  end.

(* lindera-filter/src/token_filter/japanese_number.rs:140-286; chars are those of the text in reverse *)
Fixpoint numeral_loop_release (chars : list char) (st : str * str) : res str :=
  match chars with
  | [] => Ok (fst st)
  | c :: r => do st' <- numeral_step_release c (hd_error r) st; numeral_loop_release r st'
  end.
(* lindera-filter/src/token_filter/japanese_number.rs:140-286 *)
Definition to_arabic_numerals_release (from_str : str) : res str := numeral_loop_release (rev from_str) ([], []).

(* lindera-filter/src/token_filter/japanese_number.rs:104-127, as japanese_number_apply in MTokenFilter.v *)
Definition japanese_number_apply_release (tags : option (list str)) : token_filter :=
  map_texts (fun tk =>
    do tag <- token_tag tk;
    match tags with
    | Some tags => if contains tags tag then to_arabic_numerals_release (ft_text tk) else Ok (ft_text tk)
    | None => to_arabic_numerals_release (ft_text tk)
    end).
