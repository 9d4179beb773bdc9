(** Specification for property C107: where the printed tokens stand in the input. *)
From Coq Require Import List NArith.
From Verif Require Import MBase MUtf8 MAnalyzer SText.
Import ListNotations.
Local Open Scope list_scope.

(* the white space at the beginning of a line *)
Definition leading (line lead : str) : Prop := exists rest, line = lead ++ rest /\ Forall white lead /\ forall c r, rest = c :: r -> ~ white c.

(* the token is the text between its offsets, counted from the given byte *)
Definition stands (text : str) (from : N) (tk : ftoken) : Prop :=
  exists a b, text = a ++ ft_text tk ++ b /\ N.of_nat (blen a) = (from + ft_start tk)%N /\ N.of_nat (blen (a ++ ft_text tk)) = (from + ft_end tk)%N.
