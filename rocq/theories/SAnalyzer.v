(** Specification vocabulary for the analyzer. *)
From Coq Require Import List NArith ZArith Bool.
From Verif Require Import MBase MUtf8 MTokenizer MCharFilter MAnalyzer SCharFilter.
Import ListNotations.

(* a character filter turns text into out by replacing these segments, and its vectors describe that *)
Definition filter_records (f : char_filter) (text out : str) (segs : list segment) : Prop :=
  in_total segs = blen text /\ out_total segs = blen out /\
  exists offs diffs, f text = Some (Ok (out, offs, diffs)) /\
    forall x, x <= blen out -> correct_offset (N.of_nat x) offs diffs (N.of_nat (blen out)) = Ok (N.of_nat (source_of segs x)).

(* a list of filters, the first one applied first *)
Inductive filtered : list char_filter -> str -> str -> list (list segment) -> Prop :=
| filtered_none text : filtered [] text text []
| filtered_more f fs text mid out segs segss :
    filter_records f text mid segs -> filtered fs mid out segss -> filtered (f :: fs) text out (segs :: segss).

(* the place in the original text of a place in the filtered text: the last filter is undone first *)
Definition undone (segss : list (list segment)) (x : nat) : nat := fold_right source_of x segss.

(* y is a boundary between replaced segments, at x in the filtered text *)
Definition seg_boundary (segs : list segment) (x y : nat) : Prop :=
  exists p q, segs = p ++ q /\ x = out_total p /\ y = in_total p /\ match q with [] => True | (_, o) :: _ => 0 < o end.
Inductive boundaries : list (list segment) -> nat -> nat -> Prop :=
| boundaries_none x : boundaries [] x x
| boundaries_more segs segss x y z : seg_boundary segs y z -> boundaries segss x y -> boundaries (segs :: segss) x z.

(* a token with other offsets *)
Definition with_offsets (tk : ftoken) (s e : nat) : ftoken :=
  FToken (ft_text tk) (N.of_nat s) (N.of_nat e) (ft_position tk) (ft_position_length tk) (ft_word tk) (ft_details tk).

(* tokens that lie side by side from a to b *)
Fixpoint side_by_side (a b : N) (ts : list ftoken) : Prop :=
  match ts with
  | [] => a = b
  | t :: r => ft_start t = a /\ (ft_start t <= ft_end t)%N /\ side_by_side (ft_end t) b r
  end.

(* tokens between o and b in text order, not overlapping, their positions from p on and not overlapping either *)
Fixpoint in_order (o : N) (p : nat) (b : N) (ts : list ftoken) : Prop :=
  match ts with
  | [] => True
  | t :: r =>
    (o <= ft_start t)%N /\ (ft_start t <= ft_end t)%N /\ (ft_end t <= b)%N /\ p <= ft_position t /\ 0 < ft_position_length t /\
    in_order (ft_end t) (ft_position t + ft_position_length t) b r
  end.

(* the positions run from p to q without a gap *)
Fixpoint in_a_row (p q : nat) (ts : list ftoken) : Prop :=
  match ts with
  | [] => p = q
  | t :: r => ft_position t = p /\ in_a_row (p + ft_position_length t) q r
  end.
