(** Specification for property C103: token filters and the offsets of tokens. *)
From Coq Require Import List NArith.
From Verif Require Import MBase MAnalyzer.
Import ListNotations.

(** The token with its two offsets moved by g *)
Definition moved_by (g : N -> N) (tk : ftoken) : ftoken :=
  FToken (ft_text tk) (g (ft_start tk)) (g (ft_end tk)) (ft_position tk) (ft_position_length tk) (ft_word tk) (ft_details tk).

(** Both succeed, and the second result is h of the first; or both fail alike *)
Inductive same_up_to {A B} (h : A -> B) : res A -> res B -> Prop :=
| up_to_ok a : same_up_to h (Ok a) (Ok (h a))
| up_to_err k : same_up_to h (Err k) (Err k)
| up_to_panic : same_up_to h Panic Panic.
