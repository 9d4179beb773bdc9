(** What the command prints spells its input. *)
From Coq Require Import List NArith ZArith Bool.
From Verif Require Import MBase MUtf8 MAnalyzer SText.
Import ListNotations.
Local Open Scope list_scope.

(* i is what can be seen of s: its characters in order, without the white space *)
Inductive ink : str -> str -> Prop :=
| ink_nil : ink [] []
| ink_white c s i : white c -> ink s i -> ink (c :: s) i
| ink_char c s i : ~ white c -> ink s i -> ink (c :: s) (c :: i).

(* the tokens cut the text into words: each starts where the one before it ends, and they are numbered *)
Definition cut_into (text : str) (tokens : list ftoken) : Prop :=
  concat (map ft_text tokens) = text /\
  forall a tk b, tokens = a ++ tk :: b ->
    ft_text tk <> [] /\ ft_start tk = N.of_nat (blen (concat (map ft_text a))) /\
    ft_end tk = (ft_start tk + N.of_nat (blen (ft_text tk)))%N /\ ft_position tk = List.length a /\ ft_position_length tk = 1%nat.

(* a line of words with blanks between them; nothing for no words *)
Fixpoint spaced (ws : list str) : str :=
  match ws with
  | [] => []
  | [w] => w ++ [10%N]
  | w :: r => w ++ [32%N] ++ spaced r
  end.
