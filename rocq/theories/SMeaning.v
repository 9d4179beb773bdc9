(** Specification vocabulary: rows of dictionary sources that say the same. *)
From Coq Require Import String.
From Coq Require Import List NArith ZArith Bool.
From Verif Require Import MBase MUtf8 MText MDict MBuild SBuild.
Import ListNotations.
Local Open Scope list_scope.

(* system rows with the same surface, numbers (if they can be read) and details *)
Definition same_sys_row (o : dict_options) (r r' : row) : Prop :=
  r' = r \/ ((4 <= List.length r)%nat /\ (4 <= List.length r')%nat /\ sys_surface o r' = sys_surface o r /\
             sys_numbers r' = sys_numbers r /\ sys_row_details o r' = sys_row_details o r).

(* the same for user rows; both are of an accepted length *)
Definition same_user_row (o : user_options) (r r' : row) : Prop :=
  r' = r \/ (long_enough o r /\ long_enough o r' /\ hd [] r' = hd [] r /\ user_numbers o r' = user_numbers o r /\
             user_row_details o r' = user_row_details o r /\ user_row_details o r <> None).

(* the row with everything given that says what a simple row says: ids 0, cost -10000, and stars *)
Definition stars (n : nat) : list str := repeat (lit "*") n.
Definition written_out (k : dictionary_kind) (r : row) : row :=
  let surface := nth 0 r [] in let pos := nth 1 r [] in let reading := nth 2 r [] in
  [surface; lit "0"; lit "0"; lit "-10000"; pos] ++
  match k with
  | IPADIC | IPADICNEologd => stars 5 ++ [surface; reading] ++ stars 1
  | UniDic => stars 5 ++ [reading] ++ stars 10
  | KoDic => stars 2 ++ [reading] ++ stars 4
  | CcCedict => stars 3 ++ [reading] ++ stars 3
  end.
