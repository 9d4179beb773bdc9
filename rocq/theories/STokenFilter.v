(** Specification vocabulary for the token filters. *)
From Coq Require Import String.
From Coq Require Import List NArith ZArith Bool.
From Verif Require Import MBase MUtf8 MText MBuild MAnalyzer.
Import ListNotations.
Local Open Scope list_scope.

(* out is what remains of l when everything without the property is dropped *)
Inductive selected {A} (P : A -> Prop) : list A -> list A -> Prop :=
| selected_nil : selected P [] []
| selected_keep x l out : P x -> selected P l out -> selected P (x :: l) (x :: out)
| selected_drop x l out : ~ P x -> selected P l out -> selected P (x :: l) out.

(* l is a shuffle of a and b *)
Inductive interleaved {A} : list A -> list A -> list A -> Prop :=
| interleaved_nil : interleaved [] [] []
| interleaved_left x l a b : interleaved l a b -> interleaved (x :: l) (x :: a) b
| interleaved_right x l a b : interleaved l a b -> interleaved (x :: l) a (x :: b).

(* the number of characters is within the bounds *)
Definition length_ok (min max : option nat) (tk : ftoken) : Prop :=
  (forall m, min = Some m -> m <= List.length (ft_text tk)) /\ (forall m, max = Some m -> List.length (ft_text tk) <= m).

(** Tags *)

(* tag is these parts, separated by commas *)
Definition comma_parts (ps : list str) (tag : str) : Prop :=
  ps <> [] /\ Forall (fun p => ~ In 44%N p) ps /\ tag = join [44%N] ps.

Definition pad4 (ps : list str) : list str := ps ++ repeat [42%N] (4 - List.length ps).

(* the part of speech of a token: four details, or the first one *)
Definition pos_of (details : list str) : list str :=
  if Nat.leb 4 (List.length details) then firstn 4 details else firstn 1 details.

Definition tag_matches (tag : str) (details : list str) : Prop :=
  exists ps, comma_parts ps tag /\ pad4 ps = pad4 (pos_of details).

Definition short_tag (tag : str) : Prop := exists ps, comma_parts ps tag /\ List.length ps <= 4.

Definition has_tag (tags : list str) (tk : ftoken) : Prop := exists tag, In tag tags /\ tag_matches tag (ft_details tk).

(** Text filters *)

(* only the text differs *)
Definition only_text (tk tk' : ftoken) : Prop :=
  tk' = FToken (ft_text tk') (ft_start tk) (ft_end tk) (ft_position tk) (ft_position_length tk) (ft_word tk) (ft_details tk).

(* the detail that the reading form and the base form filters put in place of the text *)
Definition reading_place (k : dictionary_kind) : option nat :=
  match k with IPADIC => Some 7 | IPADICNEologd => Some 7 | UniDic => Some 6 | KoDic => None | CcCedict => None end.
Definition base_place (k : dictionary_kind) : option nat :=
  match k with IPADIC => Some 6 | IPADICNEologd => Some 6 | UniDic => Some 10 | KoDic => None | CcCedict => None end.

(* the token has that detail, or is an unknown word *)
Definition details_cover (place : option nat) (tk : ftoken) : Prop :=
  ft_details tk <> [] /\ (hd [] (ft_details tk) = lit "UNK" \/ forall i, place = Some i -> i < List.length (ft_details tk)).

(* the text is that detail; for unknown words and kinds without such a detail it is unchanged *)
Definition detail_result (place : option nat) (tk tk' : ftoken) : Prop :=
  only_text tk tk' /\
  match place with
  | Some i => (hd [] (ft_details tk) = lit "UNK" -> ft_text tk' = ft_text tk) /\
              (hd [] (ft_details tk) <> lit "UNK" -> nth_error (ft_details tk) i = Some (ft_text tk'))
  | None => ft_text tk' = ft_text tk
  end.

(** Katakana *)

(* what is assumed of the table of Unicode blocks *)
Definition blocks_ok (find_block : char -> option (N * N)) : Prop :=
  (forall c b, find_block c = Some b -> (fst b <= c <= snd b)%N) /\
  (forall c, (0x30A0 <= c <= 0x30FF)%N -> find_block c = Some (0x30A0, 0x30FF)%N).

Definition in_katakana (c : char) : Prop := (0x30A0 <= c <= 0x30FF)%N.

(* a long enough katakana text loses a final prolonged sound mark; any other is unchanged *)
Definition stemmed (min : nat) (text text' : str) : Prop :=
  (forall body, text = body ++ [0x30FC%N] -> Forall in_katakana text -> min < List.length text -> text' = body) /\
  ((forall body, text <> body ++ [0x30FC%N]) \/ ~ Forall in_katakana text \/ List.length text <= min -> text' = text).

(** Compound words *)

(* the details of a compound: 9 or 17 places, the first four from the new tag, or the first one 複合語, and stars *)
Definition new_details (kind : dictionary_kind) (new_parts : option (list str)) : list str :=
  match new_parts with
  | Some ps => pad4 ps
  | None => [0x8907; 0x5408; 0x8A9E]%N :: repeat [42%N] 3
  end ++ repeat [42%N] (match kind with UniDic => 13 | _ => 5 end).

Definition sum (l : list nat) : nat := fold_right Nat.add 0 l.

(* the token for a run of matching tokens *)
Definition compound_of (details : list str) (run : list ftoken) (tk : ftoken) : Prop :=
  match run with
  | [] => False
  | [t] => tk = t
  | t :: _ =>
    ft_text tk = flat_map ft_text run /\ ft_start tk = ft_start t /\ ft_end tk = ft_end (last run t) /\
    ft_position tk = ft_position t /\ ft_position_length tk = sum (map ft_position_length run) /\
    ft_word tk = ft_word t /\ ft_details tk = details
  end.

(* maximal runs are joined *)
Inductive compounded (P : ftoken -> Prop) (details : list str) : list ftoken -> list ftoken -> Prop :=
| compounded_nil : compounded P details [] []
| compounded_other t r out : ~ P t -> compounded P details r out -> compounded P details (t :: r) (t :: out)
| compounded_run run t r out :
    Forall P run -> compound_of details run t ->
    match r with [] => True | u :: _ => ~ P u end ->
    compounded P details r out -> compounded P details (run ++ r) (t :: out).

(** Numerals *)

(* the number written by a list of ASCII digits *)
Definition decimal_value (s : str) : N := fold_left (fun v c => 10 * v + (c - 48))%N s 0%N.
Definition is_decimal (s : str) : Prop := Forall (fun c => (48 <= c <= 57)%N) s.

(* the digit characters *)
Definition digit_glyphs : list (N * list char) :=
  [(0, [0x30; 0xFF10; 0x3007; 0x96F6]); (1, [0x31; 0xFF11; 0x4E00; 0x58F1]); (2, [0x32; 0xFF12; 0x4E8C; 0x5F10]);
   (3, [0x33; 0xFF13; 0x4E09; 0x53C2]); (4, [0x34; 0xFF14; 0x56DB]); (5, [0x35; 0xFF15; 0x4E94]);
   (6, [0x36; 0xFF16; 0x516D]); (7, [0x37; 0xFF17; 0x4E03]); (8, [0x38; 0xFF18; 0x516B]); (9, [0x39; 0xFF19; 0x4E5D])]%N.
Definition glyph (d : N) (c : char) : Prop := exists cs, In (d, cs) digit_glyphs /\ In c cs.

(* 十 拾 百 千 and 万 億 兆 京 垓 *)
Definition small_units : list char := [0x5341; 0x62FE; 0x767E; 0x5343]%N.
Definition large_units : list (char * nat) := [(0x5793%N, 20); (0x4EAC%N, 16); (0x5146%N, 12); (0x5104%N, 8); (0x4E07%N, 4)].
Definition is_unit (c : char) : Prop := In c small_units \/ In c (map fst large_units).

(* a unit, with or without a digit from 1 to 9 before it, or nothing *)
Inductive part (us : list char) (weight : N) : str -> N -> Prop :=
| part_none : part us weight [] 0
| part_bare u : In u us -> part us weight [u] weight
| part_digit u g d : In u us -> glyph d g -> (1 <= d)%N -> part us weight [g; u] (d * weight).

(* up to 9999: 千 百 十 and a digit *)
Inductive ones : str -> N -> Prop :=
| ones_none : ones [] 0
| ones_digit g d : glyph d g -> (1 <= d)%N -> ones [g] d.
Inductive section : str -> N -> Prop :=
| section_parts s3 v3 s2 v2 s1 v1 s0 v0 :
    part [0x5343%N] 1000 s3 v3 -> part [0x767E%N] 100 s2 v2 -> part [0x5341%N; 0x62FE%N] 10 s1 v1 -> ones s0 v0 ->
    section (s3 ++ s2 ++ s1 ++ s0) (v3 + v2 + v1 + v0)
| section_digits ds gs :        (* or up to four digits *)
    Forall2 glyph ds gs -> List.length ds <= 4 -> match ds with d :: _ => (1 <= d)%N | [] => False end ->
    section gs (fold_left (fun v d => 10 * v + d)%N ds 0%N).

(* a large unit with the section before it (1 if omitted), or nothing *)
Inductive large (u : char) (weight : N) : str -> N -> Prop :=
| large_none : large u weight [] 0
| large_bare : large u weight [u] weight
| large_section s v : section s v -> s <> [] -> large u weight (s ++ [u]) (v * weight).

Inductive larges : list (char * nat) -> str -> N -> Prop :=
| larges_nil : larges [] [] 0
| larges_cons u e us s v s' v' : large u (10 ^ N.of_nat e) s v -> larges us s' v' -> larges ((u, e) :: us) (s ++ s') (v + v').

(* a numeral: sections with decreasing large units, and a last section *)
Definition numeral (s : str) (v : N) : Prop :=
  exists s1 v1 s0 v0, larges large_units s1 v1 /\ section s0 v0 /\ s = s1 ++ s0 /\ v = (v1 + v0)%N /\ s <> [].

(* what the filter does to a character that is not part of a unit *)
Definition glyph_image (c c' : char) : Prop :=
  (exists d, glyph d c /\ c' = (48 + d)%N) \/ ((forall d, ~ glyph d c) /\ c' = c).
