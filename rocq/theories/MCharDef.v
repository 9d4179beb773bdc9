(** Character definitions (char.def): lindera-core/src/character_definition.rs *)
From Coq Require Import List NArith ZArith Bool String.
From Verif Require Import MBase MUtf8 MText.
Import ListNotations.
Local Open Scope N_scope.

(* lindera-core/src/character_definition.rs:9 *)
Definition default_category_name : str := lit "DEFAULT".

(* lindera-core/src/character_definition.rs:11-22.  encoding_rs decodes the two bytes as UTF-16LE with BOM sniffing: FF FE and FE FF are
   byte order marks and disappear, leaving an empty string; a lone surrogate becomes U+FFFD. *)
Definition ucs2_to_unicode (c : N) : res N :=
  if (c =? 0xFEFF) || (c =? 0xFFFE) then Err EParse
  else if (0xD800 <=? c) && (c <=? 0xDFFF) then Ok 0xFFFD
  else Ok c.

(* lindera-core/src/character_definition.rs:24-30 *)
Definition parse_hex_codepoint (s : str) : res N :=
  do c <- ok_or (parse_u16_hex (trim_start_matches (lit "0x") s)) EParse;
  ucs2_to_unicode c.

(* lindera-core/src/character_definition.rs:32-37 *)
Record category_data := CategoryData { cd_invoke : bool; cd_group : bool; cd_length : N }.

(* lindera-core/src/character_definition.rs:39-40.  CategoryId(usize) *)
Definition category_id := nat.

(* lindera-core/src/character_definition.rs:49-53, with T = CategoryId *)
Record lookup_table := LookupTable { lt_boundaries : list N; lt_values : list (list category_id) }.

(* sort_unstable on u32: equal elements are indistinguishable, so any sorting function will do.
   lindera-core/src/character_definition.rs:60. *)
Fixpoint insert_sorted (x : N) (l : list N) : list N :=
  match l with
  | [] => [x]
  | y :: r => if x <=? y then x :: l else y :: insert_sorted x r
  end.
(* lindera-core/src/character_definition.rs:60. *)
Fixpoint sort_unstable (l : list N) : list N :=
  match l with [] => [] | x :: r => insert_sorted x (sort_unstable r) end.

(* lindera-core/src/character_definition.rs:56-68 *)
Definition lt_from_fn (boundaries : list N) (funct : N -> list category_id) : lookup_table :=
  let b := if existsb (N.eqb 0) boundaries then boundaries else boundaries ++ [0] in
  let b := sort_unstable b in
  LookupTable b (map funct b).

(* slice::binary_search: Found i for some i with v[i] == x, otherwise NotFound with the insertion point.
   lindera-core/src/character_definition.rs:71-74. *)
Inductive search_result := Found (i : nat) | NotFound (i : nat).

(* One function meeting the documented contract of binary_search on a sorted slice: a left-to-right scan.
   The theorems about categories are proved for every function meeting the contract (LCharDef.v).
   lindera-core/src/character_definition.rs:73. *)
Fixpoint binary_search_from (i : nat) (l : list N) (x : N) : search_result :=
  match l with
  | [] => NotFound i
  | y :: r => if y =? x then Found i
              else if x <? y then NotFound i
              else binary_search_from (S i) r x
  end.
(* lindera-core/src/character_definition.rs:73. *)
Definition binary_search (l : list N) (x : N) : search_result := binary_search_from 0 l x.

(* lindera-core/src/character_definition.rs:70-76; `val - 1` underflows (panic) for val = 0 *)
Definition lt_eval_with (search : list N -> N -> search_result) (t : lookup_table) (target : N) : res (list category_id) :=
  match search (lt_boundaries t) target with
  | Found i => idx (lt_values t) i
  | NotFound 0 => Panic
  | NotFound (S i) => idx (lt_values t) i
  end.
(* lindera-core/src/character_definition.rs:70-76. *)
Definition lt_eval := lt_eval_with binary_search.

(* lindera-core/src/character_definition.rs:42-47 *)
Record char_definitions := CharDefinitions {
  cds_definitions : list category_data;
  cds_names : list str;
  cds_mapping : lookup_table
}.

(* lindera-core/src/character_definition.rs:79-81 *)
Definition categories (d : char_definitions) : list str := cds_names d.

(* lindera-core/src/character_definition.rs:88-90 *)
Definition lookup_definition (d : char_definitions) (c : category_id) : res category_data := idx (cds_definitions d) c.

(* lindera-core/src/character_definition.rs:92-94 *)
Definition category_name (d : char_definitions) (c : category_id) : res str := idx (cds_names d) c.

(* lindera-core/src/character_definition.rs:96-98 *)
Definition lookup_categories (d : char_definitions) (c : char) : res (list category_id) := lt_eval (cds_mapping d) c.

(* lindera-core/src/character_definition.rs:101-106.  The HashMap category_index gives ids in order of first mention, so it is kept as
   the list of names in that order: the id of a name is its index. *)
Record builder := Builder {
  b_definition : list category_data;
  b_index : list str;
  b_ranges : list (N * N * list category_id)
}.
(* lindera-dictionary-builder/src/chardef.rs:35, derived Default of lindera-core/src/character_definition.rs:101-106 *)
Definition empty_builder : builder := Builder [] [] [].

(* HashMap::get on category_index.  lindera-core/src/character_definition.rs:110-116. *)
Fixpoint index_of (name : str) (names : list str) : option nat :=
  match names with
  | [] => None
  | n :: r => if str_eqb n name then Some 0%nat else option_map S (index_of name r)
  end.

(* lindera-core/src/character_definition.rs:110-116 *)
Definition b_category_id (b : builder) (name : str) : category_id * builder :=
  match index_of name (b_index b) with
  | Some i => (i, b)
  | None => (List.length (b_index b), Builder (b_definition b) (b_index b ++ [name]) (b_ranges b))
  end.

(* Vec::contains.  lindera-core/src/character_definition.rs:123. *)
Definition contains (l : list nat) (x : nat) : bool := existsb (Nat.eqb x) l.

(* lindera-core/src/character_definition.rs:121-127: push the categories not yet present *)
Fixpoint push_new (buffer cats : list category_id) : list category_id :=
  match cats with
  | [] => buffer
  | c :: r => push_new (if contains buffer c then buffer else buffer ++ [c]) r
  end.

(* lindera-core/src/character_definition.rs:118-134 *)
Definition b_lookup_categories (b : builder) (c : N) : list category_id :=
  let buffer := fold_left (fun buf '(start, stop, ids) =>
                   if (start <=? c) && (c <=? stop) then push_new buf ids else buf)
                 (b_ranges b) [] in
  match buffer with
  | [] => match index_of default_category_name (b_index b) with Some i => [i] | None => [] end
  | _ => buffer
  end.

(* BTreeSet<u32>: strictly sorted.  lindera-core/src/character_definition.rs:136-144. *)
Fixpoint set_insert (x : N) (l : list N) : list N :=
  match l with
  | [] => [x]
  | y :: r => if x =? y then l else if x <? y then x :: l else y :: set_insert x r
  end.

(* lindera-core/src/character_definition.rs:136-144.  `*high + 1u32` cannot overflow: parsed bounds are at most 0xFFFF. *)
Definition b_build_lookup_table (b : builder) : lookup_table :=
  let set := fold_left (fun s x => set_insert x s)
               (flat_map (fun '(low, high, _) => [low; high + 1]) (b_ranges b)) [] in
  lt_from_fn set (b_lookup_categories b).

(* lindera-core/src/character_definition.rs:189-192: ids of the category names of a range line, allocating new ones *)
Fixpoint category_ids (b : builder) (names : list str) : list category_id * builder :=
  match names with
  | [] => ([], b)
  | n :: r => let '(i, b1) := b_category_id b n in
              let '(is, b2) := category_ids b1 r in (i :: is, b2)
  end.

(* lindera-core/src/character_definition.rs:167-197.  `fields[0]` exists: the line is not blank. *)
Definition parse_range (b : builder) (line : str) : res builder :=
  let fields := split_whitespace line in
  do f0 <- idx fields 0;
  do bounds <-
    match split_str (lit "..") f0 with
    | [x] => do lo <- parse_hex_codepoint x; Ok (lo, lo)
    | [x; y] => do lo <- parse_hex_codepoint x; do hi <- parse_hex_codepoint y; Ok (lo, hi)
    | _ => Err EContent
    end;
  let '(lo, hi) := bounds in
  let '(ids, b') := category_ids b (tl fields) in
  Ok (Builder (b_definition b') (b_index b') (b_ranges b' ++ [(lo, hi, ids)])).

(* lindera-core/src/character_definition.rs:199-229 *)
Definition parse_category (b : builder) (line : str) : res builder :=
  match split_ascii_whitespace line with
  | [f0; f1; f2; f3] =>
    do invoke <- ok_or (parse_u32 f1) EParse;
    do group <- ok_or (parse_u32 f2) EParse;
    do len <- ok_or (parse_u32 f3) EParse;
    let '(_, b') := b_category_id b f0 in
    Ok (Builder (b_definition b' ++ [CategoryData (invoke =? 1) (group =? 1) len]) (b_index b') (b_ranges b'))
  | _ => Err EContent
  end.

(* lindera-core/src/character_definition.rs:146-165, one line *)
Definition parse_line (b : builder) (line : str) : res builder :=
  let line_str := trim (hd [] (split_char 35 line)) in
  if is_nil line_str then Ok b
  else if starts_with (lit "0x") line_str then parse_range b line_str
  else parse_category b line_str.

(* lindera-core/src/character_definition.rs:146-165 *)
Definition b_parse (b : builder) (content : str) : res builder := foldM parse_line (lines content) b.

(* lindera-core/src/character_definition.rs:231-244: the name with id i is the i-th of b_index *)
Definition b_build (b : builder) : char_definitions :=
  CharDefinitions (b_definition b) (b_index b) (b_build_lookup_table b).

(* lindera-dictionary-builder/src/chardef.rs: parse a whole file with a fresh builder *)
Definition char_def_of (content : str) : res char_definitions :=
  do b <- b_parse empty_builder content; Ok (b_build b).
