(** Specification vocabulary for text files: numbers, lines, fields. *)
From Coq Require Import List NArith ZArith Bool.
From Verif Require Import MUtf8.
Import ListNotations.
Local Open Scope list_scope.

(** ** Numbers *)

(* 0 to 9, then the letters from a or from A *)
Definition digit_is (c : char) (d : Z) : Prop :=
  ((0 <= d <= 9)%Z /\ Z.of_N c = (48 + d)%Z) \/ ((10 <= d <= 35)%Z /\ (Z.of_N c = 87 + d \/ Z.of_N c = 55 + d)%Z).

Inductive digits (radix : Z) : str -> Z -> Prop :=
| digits_one c d : digit_is c d -> (d < radix)%Z -> digits radix [c] d
| digits_more s v c d : digits radix s v -> digit_is c d -> (d < radix)%Z -> digits radix (s ++ [c]) (v * radix + d)%Z.

(* a plus sign is allowed; a minus sign only for signed types *)
Definition unsigned (radix : Z) (s : str) (z : Z) : Prop := digits radix s z \/ exists r, s = 43%N :: r /\ digits radix r z.
Definition signed (radix : Z) (s : str) (z : Z) : Prop := unsigned radix s z \/ exists r, s = 45%N :: r /\ digits radix r (- z)%Z.

(** ** Lines and fields *)

(* the lines of a text: a carriage return before a newline goes with it; the last line may lack its newline *)
Inductive file_lines : str -> list str -> Prop :=
| fl_none : file_lines [] []
| fl_last l : l <> [] -> ~ In 10%N l -> file_lines l [l]
| fl_newline l rest ls : ~ In 10%N l -> (forall p, l <> p ++ [13%N]) -> file_lines rest ls -> file_lines (l ++ 10%N :: rest) (l :: ls)
| fl_return l rest ls : ~ In 10%N l -> file_lines rest ls -> file_lines (l ++ 13%N :: 10%N :: rest) (l :: ls).

(* Unicode's white space, and ASCII's *)
Definition white (c : char) : Prop :=
  In c [9; 10; 11; 12; 13; 32; 0x85; 0xA0; 0x1680; 0x2000; 0x2001; 0x2002; 0x2003; 0x2004; 0x2005; 0x2006; 0x2007; 0x2008; 0x2009; 0x200A;
        0x2028; 0x2029; 0x202F; 0x205F; 0x3000]%N.
Definition ascii_white (c : char) : Prop := In c [9; 10; 12; 13; 32]%N.

(* the fields of a line: separated by one separator or more, and none of them empty *)
Inductive fields_of (sep : char -> Prop) : str -> list str -> Prop :=
| fo_none s : Forall sep s -> fields_of sep s []
| fo_last gap f gap' : Forall sep gap -> f <> [] -> Forall (fun c => ~ sep c) f -> Forall sep gap' -> fields_of sep (gap ++ f ++ gap') [f]
| fo_more gap f c rest fs : Forall sep gap -> f <> [] -> Forall (fun c => ~ sep c) f -> sep c -> fs <> [] -> fields_of sep rest fs ->
    fields_of sep (gap ++ f ++ c :: rest) (f :: fs).

(* the parts of a line between single separators; they may be empty *)
Inductive parts_of (c : char) : str -> list str -> Prop :=
| po_last p : ~ In c p -> parts_of c p [p]
| po_more p rest ps : ~ In c p -> parts_of c rest ps -> parts_of c (p ++ c :: rest) (p :: ps).

(* t is s without the white space around it *)
Definition trimmed (s t : str) : Prop :=
  exists a b, s = a ++ t ++ b /\ Forall white a /\ Forall white b /\ (forall c r, t = c :: r -> ~ white c) /\ (forall r c, t = r ++ [c] -> ~ white c).

(* parts around the separator string p, taken from the left *)
Definition first_at (p a s : str) : Prop := (exists b, s = a ++ p ++ b) /\ forall a' b', s = a' ++ p ++ b' -> List.length a <= List.length a'.
Inductive pieces_of (p : str) : str -> list str -> Prop :=
| pc_last s : (forall a b, s <> a ++ p ++ b) -> pieces_of p s [s]
| pc_more a rest ps : first_at p a (a ++ p ++ rest) -> pieces_of p rest ps -> pieces_of p (a ++ p ++ rest) (a :: ps).

(* r is s without the copies of p in front of it *)
Definition stripped (p s r : str) : Prop := (exists k, s = concat (repeat p k) ++ r) /\ forall r', r <> p ++ r'.
