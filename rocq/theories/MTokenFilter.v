(** Token filters: lindera-filter/src/token_filter/*.rs.  The dictionary features are all taken to be enabled.
    Building a filter from its JSON configuration is in MConfig.v. *)
From Coq Require Import String.
From Coq Require Import List NArith ZArith Bool.
From Verif Require Import MBase MUtf8 MText MCodec MDict MCharDef MTokenizer MDetails MBuild MCharFilter MAnalyzer.
Import ListNotations.
Local Open Scope list_scope.

(* Vec::retain with a closure that may panic.  lindera-filter/src/token_filter/japanese_keep_tags.rs:88-99. *)
Fixpoint retain {A} (f : A -> res bool) (l : list A) : res (list A) :=
  match l with
  | [] => Ok []
  | x :: r => do b <- f x; do r' <- retain f r; Ok (if b then x :: r' else r')
  end.

(* HashSet<String>::contains.  lindera-filter/src/token_filter/keep_words.rs:57. *)
Definition contains (set : list str) (s : str) : bool := existsb (str_eqb s) set.

(* token.text = text.  For instance lindera-filter/src/token_filter/lowercase.rs:32. *)
Definition set_ft_text (tk : ftoken) (text : str) : ftoken :=
  FToken text (ft_start tk) (ft_end tk) (ft_position tk) (ft_position_length tk) (ft_word tk) (ft_details tk).

(* lindera-filter/src/token_filter/length.rs:55-72 *)
Definition length_apply (min max : option nat) : token_filter :=
  retain (fun tk =>
    let len := List.length (ft_text tk) in
    let too_short := match min with Some m => Nat.ltb len m | None => false end in
    let too_long := match max with Some m => Nat.ltb m len | None => false end in
    Ok (if too_short then false else if too_long then false else true)).

(* lindera-filter/src/token_filter/keep_words.rs:56-60 and lindera-filter/src/token_filter/stop_words.rs:56-60 *)
Definition keep_words_apply (words : list str) : token_filter := retain (fun tk => Ok (contains words (ft_text tk))).
(* lindera-filter/src/token_filter/stop_words.rs:56-60 *)
Definition stop_words_apply (words : list str) : token_filter := retain (fun tk => Ok (negb (contains words (ft_text tk)))).

(** ** Tags *)

(* `vec!["*", "*", "*", "*"]`: lindera-filter/src/token_filter/japanese_keep_tags.rs:24 *)
Definition four_stars : list str := [star; star; star; star].

(* `for (i, j) in parts.iter().enumerate() { array[i] = j; }`: panics if there are more parts than places.
   lindera-filter/src/token_filter/japanese_keep_tags.rs:26-29. *)
Fixpoint overwrite (array parts : list str) : res (list str) :=
  match parts, array with
  | [], _ => Ok array
  | _ :: _, [] => Panic
  | p :: ps, _ :: a => do r <- overwrite a ps; Ok (p :: r)
  end.

(* lindera-filter/src/token_filter/japanese_keep_tags.rs:23-30 (the same lines in japanese_stop_tags.rs, japanese_compound_word.rs and japanese_number.rs) *)
Definition format_tag (tag : str) : res str :=
  do a <- overwrite four_stars (split_char 44%N tag); Ok (join [44%N] a).

(* lindera-filter/src/token_filter/japanese_keep_tags.rs:20-36, lindera-filter/src/token_filter/japanese_stop_tags.rs:20-36 *)
Definition format_tags (tags : list str) : res (list str) := mapM format_tag tags.

(* lindera-filter/src/token_filter/japanese_keep_tags.rs:90-95 (the same lines in the other three filters): details[0..1] panics on empty details *)
Definition token_tag (tk : ftoken) : res str :=
  let tags_len := if Nat.leb 4 (List.length (ft_details tk)) then 4 else 1 in
  do d <- slice (ft_details tk) 0 tags_len;
  do a <- overwrite four_stars d;
  Ok (join [44%N] a).

(* lindera-filter/src/token_filter/japanese_keep_tags.rs:88-99 and lindera-filter/src/token_filter/japanese_stop_tags.rs:88-99; tags are the formatted ones *)
Definition japanese_keep_tags_apply (tags : list str) : token_filter :=
  retain (fun tk => do t <- token_tag tk; Ok (contains tags t)).
(* lindera-filter/src/token_filter/japanese_stop_tags.rs:88-99 *)
Definition japanese_stop_tags_apply (tags : list str) : token_filter :=
  retain (fun tk => do t <- token_tag tk; Ok (negb (contains tags t))).

(* lindera-filter/src/token_filter/korean_keep_tags.rs:58-62 and lindera-filter/src/token_filter/korean_stop_tags.rs:58-62 *)
Definition korean_keep_tags_apply (tags : list str) : token_filter :=
  retain (fun tk => do d <- idx (ft_details tk) 0; Ok (contains tags d)).
(* lindera-filter/src/token_filter/korean_stop_tags.rs:58-62 *)
Definition korean_stop_tags_apply (tags : list str) : token_filter :=
  retain (fun tk => do d <- idx (ft_details tk) 0; Ok (negb (contains tags d))).

(** ** Filters that change the text *)

(* the loop `for token in tokens.iter_mut()` that sets the text: for instance lindera-filter/src/token_filter/japanese_reading_form.rs:58-84 *)
Definition map_texts (f : ftoken -> res str) : token_filter := mapM (fun tk => do t <- f tk; Ok (set_ft_text tk t)).

(* lindera-filter/src/token_filter/mapping.rs:74-107: the loop of the character filter without the offsets.  MappingTokenFilter::new (45-60) is mapping_new. *)
Fixpoint map_text_loop (fuel : nat) (f : mapping_filter) (suffix result : str) : option (res str) :=
  match suffix with
  | [] => Some (Ok result)
  | c :: r =>
    match fuel with
    | O => None
    | S fuel =>
      match last_error (common_prefix_search (mf_trie f) (utf8 suffix)) with
      | Some (_, prefix_len) =>
        match str_to suffix prefix_len, str_from suffix prefix_len with
        | Ok surface, Ok rest =>
          match map_index (mf_mapping f) surface with
          | Ok replacement => map_text_loop fuel f rest (result ++ replacement)
          | _ => Some Panic
          end
        | _, _ => Some Panic
        end
      | None => map_text_loop fuel f r (result ++ [c])
      end
    end
  end.
(* lindera-filter/src/token_filter/mapping.rs:72-113; None = out of fuel *)
Fixpoint mapping_tokens (f : mapping_filter) (tokens : list ftoken) : option (res (list ftoken)) :=
  match tokens with
  | [] => Some (Ok [])
  | tk :: r =>
    match map_text_loop (List.length (ft_text tk)) f (ft_text tk) [] with
    | Some (Ok t) =>
      match mapping_tokens f r with
      | Some (Ok r') => Some (Ok (set_ft_text tk t :: r'))
      | o => o
      end
    | Some (Err k) => Some (Err k)
    | Some Panic => Some Panic
    | None => None
    end
  end.

(* lindera-filter/src/token_filter/uppercase.rs:30-36, lindera-filter/src/token_filter/lowercase.rs:30-36 and lindera-filter/src/token_filter/japanese_kana.rs:67-80: str::to_uppercase, str::to_lowercase and the kanaria
   crate's conversions are external: an arbitrary function *)
Definition convert_apply (convert : str -> str) : token_filter := map_texts (fun tk => Ok (convert (ft_text tk))).

(* details[0] == "UNK".
   lindera-filter/src/token_filter/japanese_reading_form.rs:62, lindera-filter/src/token_filter/korean_reading_form.rs:33. *)
Definition unknown_detail (tk : ftoken) : res bool := do d <- idx (ft_details tk) 0; Ok (str_eqb d (lit "UNK")).

(* the text becomes details[i], unless the token is unknown or the kind has no index.
   lindera-filter/src/token_filter/japanese_reading_form.rs:58-84. *)
Definition detail_text (index : option nat) (tk : ftoken) : res str :=
  do u <- unknown_detail tk;
  if u then Ok (ft_text tk)
  else match index with Some i => idx (ft_details tk) i | None => Ok (ft_text tk) end.

(* lindera-filter/src/token_filter/japanese_reading_form.rs:58-84 *)
Definition reading_detail (k : dictionary_kind) : option nat :=
  match k with IPADIC | IPADICNEologd => Some 7 | UniDic => Some 6 | _ => None end.
(* lindera-filter/src/token_filter/japanese_reading_form.rs:58-84 *)
Definition japanese_reading_form_apply (k : dictionary_kind) : token_filter := map_texts (detail_text (reading_detail k)).

(* lindera-filter/src/token_filter/japanese_base_form.rs:59-85 *)
Definition base_detail (k : dictionary_kind) : option nat :=
  match k with IPADIC | IPADICNEologd => Some 6 | UniDic => Some 10 | _ => None end.
(* lindera-filter/src/token_filter/japanese_base_form.rs:59-85 *)
Definition japanese_base_form_apply (k : dictionary_kind) : token_filter := map_texts (detail_text (base_detail k)).

(* lindera-filter/src/token_filter/korean_reading_form.rs:30-38 *)
Definition korean_reading_form_apply : token_filter := map_texts (detail_text (Some 3)).

(** ** japanese_katakana_stem.rs *)

(* unicode_blocks::find_unicode_block is external: an arbitrary function from characters to blocks (first and last character).
   lindera-filter/src/token_filter/japanese_katakana_stem.rs:94. *)
Definition block := (N * N)%type.
(* unicode_blocks::KATAKANA: lindera-filter/src/token_filter/japanese_katakana_stem.rs:95 *)
Definition KATAKANA : block := (0x30A0, 0x30FF)%N.
(* lindera-filter/src/token_filter/japanese_katakana_stem.rs:95 *)
Definition block_eqb (a b : block) : bool := ((fst a =? fst b) && (snd a =? snd b))%N.

(* lindera-filter/src/token_filter/japanese_katakana_stem.rs:92-101: unwrap panics for characters outside all blocks *)
Fixpoint is_katakana (find_block : char -> option block) (text : str) : res bool :=
  match text with
  | [] => Ok true
  | c :: r =>
    match find_block c with
    | None => Panic
    | Some b => if block_eqb b KATAKANA then is_katakana find_block r else Ok false
    end
  end.

(* lindera-filter/src/token_filter/japanese_katakana_stem.rs:14 *)
Definition PROLONGED_SOUND_MARK : char := 0x30FC%N.

(* lindera-filter/src/token_filter/japanese_katakana_stem.rs:69-89 *)
Definition stem (find_block : char -> option block) (min : nat) (text : str) : res str :=
  do k <- is_katakana find_block text;
  if negb k then Ok text
  else if ends_with_char text PROLONGED_SOUND_MARK && Nat.ltb min (List.length text)
  then str_to text (blen text - width PROLONGED_SOUND_MARK)
  else Ok text.
(* lindera-filter/src/token_filter/japanese_katakana_stem.rs:69-89: all tokens *)
Definition katakana_stem_apply (find_block : char -> option block) (min : nat) : token_filter :=
  map_texts (fun tk => stem find_block min (ft_text tk)).

(** ** japanese_compound_word.rs *)

(* lindera-filter/src/token_filter/japanese_compound_word.rs:15-20, formatted *)
Record compound_config := CompoundConfig { cc_kind : dictionary_kind; cc_tags : list str; cc_new_tag : option str }.

(* lindera-filter/src/token_filter/japanese_compound_word.rs:23-58 *)
Definition compound_config_new (kind : dictionary_kind) (tags : list str) (new_tag : option str) : res compound_config :=
  do ts <- format_tags tags;
  do nt <- match new_tag with Some t => do f <- format_tag t; Ok (Some f) | None => Ok None end;
  Ok (CompoundConfig kind ts nt).

(* lindera-filter/src/token_filter/japanese_compound_word.rs:99-114: 複合語 and stars *)
Definition compound_details (k : dictionary_kind) : list str :=
  [0x8907; 0x5408; 0x8A9E]%N :: repeat star (match k with UniDic => 16 | _ => 8 end).

(* lindera-filter/src/token_filter/japanese_compound_word.rs:94-123 *)
Definition concat_token (cfg : compound_config) (t1 t2 : ftoken) : res ftoken :=
  do details <- match cc_new_tag cfg with
                | Some t => overwrite (compound_details (cc_kind cfg)) (split_char 44%N t)
                | None => Ok (compound_details (cc_kind cfg))
                end;
  Ok (FToken (ft_text t1 ++ ft_text t2) (ft_start t1) (ft_end t2) (ft_position t1)
             (ft_position_length t1 + ft_position_length t2) (ft_word t1) details).

(* lindera-filter/src/token_filter/japanese_compound_word.rs:131-181; cur is compound_token_opt *)
Fixpoint compound_loop (cfg : compound_config) (tokens : list ftoken) (cur : option ftoken) : res (list ftoken) :=
  match tokens with
  | [] => Ok (match cur with Some t => [t] | None => [] end)
  | tk :: r =>
    do pos <- token_tag tk;
    if contains (cc_tags cfg) pos then
      match cur with
      | None => compound_loop cfg r (Some tk)
      | Some t => do t' <- concat_token cfg t tk; compound_loop cfg r (Some t')
      end
    else
      do rest <- compound_loop cfg r None;
      Ok (match cur with Some t => t :: tk :: rest | None => tk :: rest end)
  end.
(* lindera-filter/src/token_filter/japanese_compound_word.rs:131-181 *)
Definition compound_apply (cfg : compound_config) : token_filter := fun tokens => compound_loop cfg tokens None.

(** ** japanese_number.rs *)

(* lindera-filter/src/token_filter/japanese_number.rs:130-138: `zero_str.len() - num.len()` below zero panics (debug) or makes the slice panic (release) *)
Definition adjust_digits (num base digit : str) : res str :=
  let zero_str := base ++ digit in
  if Nat.ltb (blen zero_str) (blen num) then Panic
  else do zeros <- str_to zero_str (blen zero_str - blen num); Ok (zeros ++ num).

(* a character pattern with alternatives: lindera-filter/src/token_filter/japanese_number.rs:149-158 *)
Definition mem (c : char) (l : list char) : bool := existsb (N.eqb c) l.

(* lindera-filter/src/token_filter/japanese_number.rs:149-158: the ASCII digit of a digit character *)
Definition digit_char (c : char) : option char :=
  (if mem c [0x30; 0xFF10; 0x3007; 0x96F6] then Some 0x30
   else if mem c [0x31; 0xFF11; 0x4E00; 0x58F1] then Some 0x31
   else if mem c [0x32; 0xFF12; 0x4E8C; 0x5F10] then Some 0x32
   else if mem c [0x33; 0xFF13; 0x4E09; 0x53C2] then Some 0x33
   else if mem c [0x34; 0xFF14; 0x56DB] then Some 0x34
   else if mem c [0x35; 0xFF15; 0x4E94] then Some 0x35
   else if mem c [0x36; 0xFF16; 0x516D] then Some 0x36
   else if mem c [0x37; 0xFF17; 0x4E03] then Some 0x37
   else if mem c [0x38; 0xFF18; 0x516B] then Some 0x38
   else if mem c [0x39; 0xFF19; 0x4E5D] then Some 0x39
   else None)%N.

(* 十 拾 百 千 万 億 兆 京 垓.  lindera-filter/src/token_filter/japanese_number.rs:159-281. *)
Definition JU : char := 0x5341%N.
(* lindera-filter/src/token_filter/japanese_number.rs:159-281 *)
Definition JU2 : char := 0x62FE%N.
(* lindera-filter/src/token_filter/japanese_number.rs:159-281 *)
Definition HYAKU : char := 0x767E%N.
(* lindera-filter/src/token_filter/japanese_number.rs:159-281 *)
Definition SEN : char := 0x5343%N.
(* lindera-filter/src/token_filter/japanese_number.rs:159-281 *)
Definition MAN : char := 0x4E07%N.
(* lindera-filter/src/token_filter/japanese_number.rs:159-281 *)
Definition OKU : char := 0x5104%N.
(* lindera-filter/src/token_filter/japanese_number.rs:159-281 *)
Definition CHO : char := 0x5146%N.
(* lindera-filter/src/token_filter/japanese_number.rs:159-281 *)
Definition KEI : char := 0x4EAC%N.
(* lindera-filter/src/token_filter/japanese_number.rs:159-281 *)
Definition GAI : char := 0x5793%N.

(* the string literals of zeros: lindera-filter/src/token_filter/japanese_number.rs:159-281 *)
Definition zeros (n : nat) : str := repeat 0x30%N n.

(* `match i.peek() { Some(..) | None => num_buf.insert(0, '1'), _ => {} }`.
   lindera-filter/src/token_filter/japanese_number.rs:159-281. *)
Definition insert_one (next : option char) (units : list char) (num : str) : str :=
  match next with
  | None => 0x31%N :: num
  | Some c => if mem c units then 0x31%N :: num else num
  end.

(* lindera-filter/src/token_filter/japanese_number.rs:147-283: one character; next is i.peek(); state: num_buf, digit *)
Definition numeral_step (c : char) (next : option char) (st : str * str) : res (str * str) :=
  let '(num, digit) := st in
  match digit_char c with
  | Some d => Ok (d :: num, digit)
  | None =>
    if (c =? JU)%N || (c =? JU2)%N then
      do n <- adjust_digits num (zeros 1) digit; Ok (insert_one next [HYAKU; SEN; MAN; OKU; CHO; KEI; GAI] n, digit)
    else if (c =? HYAKU)%N then
      do n <- adjust_digits num (zeros 2) digit; Ok (insert_one next [SEN; MAN; OKU; CHO; KEI; GAI] n, digit)
    else if (c =? SEN)%N then
      do n <- adjust_digits num (zeros 3) digit; Ok (insert_one next [MAN; OKU; CHO; KEI; GAI] n, digit)
    else if (c =? MAN)%N then
      do n <- adjust_digits num [] (zeros 4); Ok (insert_one next [OKU; CHO; KEI; GAI] n, zeros 4)
    else if (c =? OKU)%N then
      do n <- adjust_digits num [] (zeros 8); Ok (insert_one next [CHO; KEI; GAI] n, zeros 8)
    else if (c =? CHO)%N then
      do n <- adjust_digits num [] (zeros 12); Ok (insert_one next [KEI; GAI] n, zeros 12)
    else if (c =? KEI)%N then
      do n <- adjust_digits num [] (zeros 16); Ok (insert_one next [GAI] n, zeros 16)
    else if (c =? GAI)%N then
      do n <- adjust_digits num [] (zeros 20); Ok (insert_one next [] n, zeros 20)
    else Ok (c :: num, [])
  end.

(* lindera-filter/src/token_filter/japanese_number.rs:140-286; chars are those of the text in reverse *)
Fixpoint numeral_loop (chars : list char) (st : str * str) : res str :=
  match chars with
  | [] => Ok (fst st)
  | c :: r => do st' <- numeral_step c (hd_error r) st; numeral_loop r st'
  end.
(* lindera-filter/src/token_filter/japanese_number.rs:140-286 *)
Definition to_arabic_numerals (from_str : str) : res str := numeral_loop (rev from_str) ([], []).

(* lindera-filter/src/token_filter/japanese_number.rs:104-127; tags are the formatted ones *)
Definition japanese_number_apply (tags : option (list str)) : token_filter :=
  map_texts (fun tk =>
    do tag <- token_tag tk;
    match tags with
    | Some tags => if contains tags tag then to_arabic_numerals (ft_text tk) else Ok (ft_text tk)
    | None => to_arabic_numerals (ft_text tk)
    end).
