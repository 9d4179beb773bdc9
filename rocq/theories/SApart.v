(** Specification for property C105: the analysis of two texts one after the other. *)
From Coq Require Import List NArith.
From Verif Require Import MBase MUtf8 MText MAnalyzer MTokenFilter MConfig STokenFilter.
Import ListNotations.

(** The token behind others that end at the given byte and number *)
Definition put_behind (bytes : N) (positions : nat) (tk : ftoken) : ftoken :=
  FToken (ft_text tk) (bytes + ft_start tk) (bytes + ft_end tk) (positions + ft_position tk) (ft_position_length tk) (ft_word tk) (ft_details tk).
(** Where the last token ends *)
Definition last_end (ts : list ftoken) : N := match rev ts with [] => 0%N | tk :: _ => ft_end tk end.

(** A compound filter takes this token up *)
Definition takes_up (c : compound_config) (tk : ftoken) : Prop := In (join [44%N] (pad4 (pos_of (ft_details tk)))) (cc_tags c).
(** The last of the first tokens and the first of the second are not both taken up *)
Definition not_joined (c : compound_config) (xs ys : list ftoken) : Prop :=
  forall x y, In x (firstn 1 (rev xs)) -> In y (firstn 1 ys) -> ~ (takes_up c x /\ takes_up c y).

(** No compound filter of the list joins the first tokens with the second, when its turn comes *)
Fixpoint kept_apart (e : env) (tds : list token_filter_def) (xs ys : list ftoken) : Prop :=
  match tds with
  | [] => True
  | d :: r =>
    match d with TFCompound c => not_joined c xs ys | _ => True end /\
    forall xs' ys', run_token_filter e d xs = Ok xs' -> run_token_filter e d ys = Ok ys' -> kept_apart e r xs' ys'
  end.

(** The filtered tokens of several texts, each behind the unfiltered tokens of those before *)
Fixpoint laid_out (bytes : N) (positions : nat) (parts : list (list ftoken * list ftoken)) : list ftoken :=
  match parts with
  | [] => []
  | (all, kept) :: r => map (put_behind bytes positions) kept ++ laid_out (bytes + last_end all) (positions + List.length all) r
  end.
