(** Specification vocabulary for char.def: what each line says, and which categories a code point has. *)
From Coq Require Import String.
From Coq Require Import List NArith ZArith Bool.
From Verif Require Import MBase MUtf8 MText MCharDef.
Import ListNotations.
Local Open Scope list_scope.

(* a line that is not blank and not a comment gives either a range of code points with its categories, or a category with its
   three properties *)
Inductive directive :=
| DRange (low high : N) (names : list str)
| DCategory (name : str) (data : category_data).

Definition range_bounds (field : str) : res (N * N) :=
  match split_str (lit "..") field with
  | [x] => do lo <- parse_hex_codepoint x; Ok (lo, lo)
  | [x; y] => do lo <- parse_hex_codepoint x; do hi <- parse_hex_codepoint y; Ok (lo, hi)
  | _ => Err EContent
  end.

(* a line without its comment *)
Definition range_directive (line : str) : res directive :=
  match split_whitespace line with
  | [] => Panic
  | f :: names => do '(lo, hi) <- range_bounds f; Ok (DRange lo hi names)
  end.

Definition category_directive (line : str) : res directive :=
  match split_ascii_whitespace line with
  | [name; f1; f2; f3] =>
    do invoke <- ok_or (parse_u32 f1) EParse;
    do group <- ok_or (parse_u32 f2) EParse;
    do len <- ok_or (parse_u32 f3) EParse;
    Ok (DCategory name (CategoryData (invoke =? 1)%N (group =? 1)%N len))
  | _ => Err EContent
  end.

Definition line_directive (line : str) : res (list directive) :=
  let text := trim (hd [] (split_char 35%N line)) in
  if is_nil text then Ok []
  else if starts_with (lit "0x") text then do d <- range_directive text; Ok [d]
  else do d <- category_directive text; Ok [d].

Definition directives (content : str) : res (list directive) :=
  do ds <- mapM line_directive (lines content); Ok (List.concat ds).

(* the names a directive mentions, the names it gives to code point c, the category it defines *)
Definition mentions (d : directive) : list str :=
  match d with DRange _ _ names => names | DCategory name _ => [name] end.
Definition gives (c : N) (d : directive) : list str :=
  match d with DRange lo hi names => if (lo <=? c)%N && (c <=? hi)%N then names else [] | DCategory _ _ => [] end.
Definition defines (d : directive) : list (str * category_data) :=
  match d with DRange _ _ _ => [] | DCategory name data => [(name, data)] end.

(* the elements of l in order of first occurrence *)
Fixpoint nub (l : list str) : list str :=
  match l with
  | [] => []
  | x :: r => x :: filter (fun y => negb (str_eqb x y)) (nub r)
  end.

(* the categories of code point c *)
Definition categories_of (ds : list directive) (c : N) : list str :=
  match nub (flat_map (gives c) ds) with
  | [] => if existsb (str_eqb (lit "DEFAULT")) (flat_map mentions ds) then [lit "DEFAULT"] else []
  | names => names
  end.

(* every category mentioned has one line defining it, before any other mention *)
Definition defined_first (ds : list directive) : Prop :=
  NoDup (map fst (flat_map defines ds)) /\
  forall pre lo hi names post, ds = pre ++ DRange lo hi names :: post ->
    forall name, In name names -> In name (map fst (flat_map defines pre)).

(* what slice::binary_search promises on a strictly increasing slice *)
Definition search_contract (search : list N -> N -> search_result) : Prop :=
  forall l x, (forall i j a b, i < j -> nth_error l i = Some a -> nth_error l j = Some b -> (a < b)%N) ->
    match search l x with
    | Found i => nth_error l i = Some x
    | NotFound i => i <= List.length l /\
        (forall j a, j < i -> nth_error l j = Some a -> (a < x)%N) /\
        (forall j a, i <= j -> nth_error l j = Some a -> (x < a)%N)
    end.
