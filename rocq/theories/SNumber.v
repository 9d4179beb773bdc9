(** Specification vocabulary: what the number filter makes of any text. *)
From Coq Require Import List NArith Bool.
From Verif Require Import MBase MUtf8 STokenFilter.
Import ListNotations.

(* 十 拾 百 千 万 億 兆 京 垓 and their powers of ten *)
Definition unit_exponents : list (char * nat) :=
  [(0x5341%N, 1); (0x62FE%N, 1); (0x767E%N, 2); (0x5343%N, 3); (0x4E07%N, 4); (0x5104%N, 8); (0x5146%N, 12); (0x4EAC%N, 16); (0x5793%N, 20)].
Definition unit_of (c : char) (e : nat) : Prop := In (c, e) unit_exponents.

(* the power of ten of the first large unit of the text if only digits and small units come before it, or else 0 *)
Inductive in_force : str -> nat -> Prop :=
| force_end : in_force [] 0
| force_large c e s : unit_of c e -> 4 <= e -> in_force (c :: s) e
| force_small c e s g : unit_of c e -> e < 4 -> in_force s g -> in_force (c :: s) g
| force_digit c d s g : glyph d c -> in_force s g -> in_force (c :: s) g
| force_other c s : ~ is_unit c -> (forall d, ~ glyph d c) -> in_force (c :: s) 0.

(* the bytes that there may be after a unit with the text s behind it *)
Definition room (c : char) (s : str) (n : nat) : Prop :=
  exists e, unit_of c e /\ ((4 <= e /\ n = e) \/ (e < 4 /\ exists g, in_force s g /\ n = e + g)).

(* a unit stands for one of it at the start of the text and after a greater unit *)
Definition stands_alone (before : option char) (c : char) : Prop :=
  match before with
  | None => True
  | Some b => exists e e', unit_of c e /\ unit_of b e' /\ e < e'
  end.
Inductive leading (before : option char) (c : char) : str -> Prop :=
| leading_one : stands_alone before c -> leading before c [49%N]
| leading_none : ~ stands_alone before c -> leading before c [].

(* the text s after the character before (none at the start of the text) becomes r *)
Inductive read_as : option char -> str -> str -> Prop :=
| read_end b : read_as b [] []
| read_char b c s c' r : ~ is_unit c -> glyph_image c c' -> read_as (Some c) s r -> read_as b (c :: s) (c' :: r)
| read_unit b c s n r x : read_as (Some c) s r -> room c s n -> blen r <= n -> leading b c x ->
    read_as b (c :: s) (x ++ repeat 48%N (n - blen r) ++ r).

(* a unit u of the text whose room is too small for what comes next: characters that are no units, and then, if the text
   goes on, the next unit with its room and the one it stands for *)
Inductive crowded : str -> Prop :=
| crowded_end a u m m' n : Forall (fun c => ~ is_unit c) m -> Forall2 glyph_image m m' -> room u m n -> n < blen m' -> crowded (a ++ u :: m)
| crowded_unit a u m m' u' b n n' x : Forall (fun c => ~ is_unit c) m -> Forall2 glyph_image m m' -> room u (m ++ u' :: b) n -> room u' b n' ->
    leading (Some (last m u)) u' x -> n < blen m' + List.length x + n' -> crowded (a ++ u :: m ++ u' :: b).
