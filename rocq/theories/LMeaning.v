(** Rows that say the same build the same. *)
From Coq Require Import String.
From Coq Require Import List NArith ZArith Bool Lia ZifyBool ZifyNat ZifyN.
From Verif Require Import MBase MUtf8 MText MCodec MDict MBuild MConfig MBuilders SBuild SMeaning LBase LSysDict.
Import ListNotations.
Local Open Scope list_scope.

Lemma insert_rel {A} (key : A -> str) (R : A -> A -> Prop) : (forall a b, R a b -> key b = key a) ->
  let le := fun a b => str_leb (key a) (key b) in
  forall x x' l l', R x x' -> Forall2 R l l' -> Forall2 R (insert_by le x l) (insert_by le x' l').
Proof.
  intros K le x x' l l' X F. induction F as [|y y' l l' Y F IH]; cbn [insert_by]; [repeat constructor; exact X|].
  unfold le at 1 3. rewrite (K _ _ X), (K _ _ Y). destruct (str_leb _ _); constructor; auto.
Qed.

Lemma sort_rel {A} (key : A -> str) (R : A -> A -> Prop) : (forall a b, R a b -> key b = key a) ->
  let le := fun a b => str_leb (key a) (key b) in
  forall l l', Forall2 R l l' -> Forall2 R (stable_sort le l) (stable_sort le l').
Proof.
  intros K le l l' F. induction F; cbn [stable_sort]; [constructor|]. apply (insert_rel key R K); assumption.
Qed.

Lemma foldM_rel {A B S} (f : S -> A -> res S) (g : S -> B -> res S) (R : A -> B -> Prop) : (forall s a b, R a b -> f s a = g s b) ->
  forall l l', Forall2 R l l' -> forall s, foldM f l s = foldM g l' s.
Proof.
  intros H l l' F. induction F as [|a b l l' X F IH]; intros s; cbn [foldM]; [reflexivity|]. rewrite (H s a b X). destruct (g s b); cbn [bind]; auto.
Qed.

Lemma number_rel {A} (R : A -> A -> Prop) l l' : Forall2 R l l' -> forall i,
  Forall2 (fun a b => fst b = fst a /\ R (snd a) (snd b)) (number_from i l) (number_from i l').
Proof. intros F. induction F; intros i; cbn [number_from]; constructor; auto. Qed.

Lemma mapM_rel {A B} (f : A -> res B) (RA : A -> A -> Prop) (RB : B -> B -> Prop) :
  (forall a a', RA a a' -> match f a, f a' with Ok b, Ok b' => RB b b' | Err e, Err e' => e = e' | Panic, Panic => True | _, _ => False end) ->
  forall l l', Forall2 RA l l' ->
  match mapM f l, mapM f l' with Ok b, Ok b' => Forall2 RB b b' | Err e, Err e' => e = e' | Panic, Panic => True | _, _ => False end.
Proof.
  intros H l l' F. induction F as [|a a' l l' X F IH]; cbn [mapM]; [constructor|]. specialize (H a a' X).
  destruct (f a), (f a'); cbn [bind]; try contradiction; auto. destruct (mapM f l), (mapM f l'); cbn [bind]; try contradiction; auto.
Qed.

(* what the builders take from a system row *)
Definition sys_alike (o : dict_options) (r r' : row) : Prop :=
  (field r 0 = Panic /\ field r' 0 = Panic \/ exists s s', field r 0 = Ok s /\ field r' 0 = Ok s' /\ sys_key o s' = sys_key o s) /\
  (forall i, sys_entry o i r' = sys_entry o i r) /\ sys_details o r' = sys_details o r.

Lemma sys_same_alike o r r' : same_sys_row o r r' -> sys_alike o r r'.
Proof.
  intros [->|(L & L' & S & Nm & D)].
  - split; [|auto]. destruct r as [|f r]; [left; auto|right; exists f, f; auto].
  - destruct r as [|f0 [|f1 [|f2 [|f3 r]]]]; cbn [List.length] in L; try lia.
    destruct r' as [|g0 [|g1 [|g2 [|g3 r']]]]; cbn [List.length] in L'; try lia.
    unfold sys_surface in S. cbn [hd] in S. rewrite <- !normalize_unify in S. split; [right; exists f0, g0; auto|]. split.
    + intros i. unfold sys_entry, field, idx. cbn [nth_error bind]. unfold sys_numbers in Nm.
      destruct (parse_i16 (trim f3)), (parse_i16 (trim g3)), (parse_u16 (trim f1)), (parse_u16 (trim g1)), (parse_u16 (trim f2)), (parse_u16 (trim g2));
        try discriminate Nm; try (injection Nm as -> -> ->); unfold parsed; destruct (o_skip_invalid o); cbn [bind]; rewrite ?S; reflexivity.
    + rewrite !sys_details_unify. exact D.
Qed.

Lemma build_same_sys o rows rows' : Forall2 (same_sys_row o) rows rows' -> build_dict o rows' = build_dict o rows.
Proof.
  intros F. unfold build_dict.
  pose proof (mapM_rel (fun r => do s <- field r 0; Ok (sys_key o s, r)) (same_sys_row o)
                (fun a b => fst b = fst a /\ sys_alike o (snd a) (snd b))) as M.
  assert (H : forall a a', same_sys_row o a a' -> match (do s <- field a 0; Ok (sys_key o s, a)), (do s <- field a' 0; Ok (sys_key o s, a')) with
     Ok b, Ok b' => fst b' = fst b /\ sys_alike o (snd b) (snd b') | Err e, Err e' => e = e' | Panic, Panic => True | _, _ => False end).
  { intros a a' X. pose proof (sys_same_alike o a a' X) as A. destruct A as [[[-> ->]|(s & s' & -> & -> & E)] A]; cbn [bind]; [exact I|].
    cbn [fst snd]. split; [exact E|]. exact (sys_same_alike o a a' X). }
  specialize (M H rows rows' F). destruct (mapM _ rows) as [kr|e|], (mapM _ rows') as [kr'|e'|]; try contradiction; cbn [bind]; try congruence.
  assert (P : Forall2 (sys_alike o) (map snd (stable_sort (fun a b => str_leb (fst a) (fst b)) kr)) (map snd (stable_sort (fun a b => str_leb (fst a) (fst b)) kr'))).
  { pose proof (sort_rel fst _ (fun a b (X : fst b = fst a /\ sys_alike o (snd a) (snd b)) => proj1 X) _ _ M) as S2.
    induction S2 as [|a b l l' [_ X] S2 IH]; cbn [map]; constructor; auto. }
  revert P. generalize (map snd (stable_sort (fun a b => str_leb (fst a) (fst b)) kr)), (map snd (stable_sort (fun a b => str_leb (fst a) (fst b)) kr')).
  intros l l' P. assert (E1 : sys_entry_map o l' = sys_entry_map o l).
  { unfold sys_entry_map. symmetry. apply (foldM_rel _ _ (fun a b => fst b = fst a /\ sys_alike o (snd a) (snd b))); [|apply number_rel; exact P].
    intros m [i r] [i' r'] [E (_ & X & _)]. cbn [fst snd] in *. subst i'. rewrite X. reflexivity. }
  assert (E2 : forall st, foldM (add_sys_words o) l' st = foldM (add_sys_words o) l st).
  { intros st. symmetry. apply (foldM_rel _ _ (sys_alike o)); [|exact P]. intros [w i] a b (_ & _ & X). unfold add_sys_words. rewrite X. reflexivity. }
  rewrite E1, E2. reflexivity.
Qed.

(* the same for user rows *)
Definition user_alike (o : user_options) (r r' : row) : Prop :=
  field r' 0 = field r 0 /\ (forall i, user_entry o i r' = user_entry o i r) /\ user_details o r' = user_details o r.

Lemma user_details_some o r ds : user_row_details o r = Some ds -> user_details o r = Ok ds.
Proof.
  unfold user_row_details, user_details, is_simple. destruct (Nat.eqb (List.length r) (uo_simple_fields o)).
  - destruct (uo_handler o); [|congruence]. destruct (r0 r); congruence.
  - destruct (Nat.leb _ _); congruence.
Qed.

Lemma user_entry_numbers o i r : long_enough o r ->
  user_entry o i r = match user_numbers o r with
                     | Some (c, l, rr) => Ok (hd [] r, WordEntry (WordId (wrap_u 32 (Z.of_N i)) false) c l rr)
                     | None => Err EParse
                     end.
Proof.
  intros [NE L]. unfold user_entry, user_numbers, is_simple. destruct r as [|f0 r]; [congruence|]. unfold field at 1. cbn [idx nth_error bind hd].
  destruct (Nat.eqb_spec (List.length (f0 :: r)) (uo_simple_fields o)) as [E|E]; cbn [bind]; [reflexivity|].
  destruct L as [L|L]; [contradiction|]. destruct r as [|f1 [|f2 [|f3 r]]]; cbn [List.length] in L; try lia.
  unfold field, idx. cbn [nth_error bind]. destruct (parse_i16 f3); cbn [ok_or bind]; [|reflexivity].
  destruct (parse_u16 f1); cbn [ok_or bind]; [|reflexivity]. destruct (parse_u16 f2); reflexivity.
Qed.

Lemma user_same_alike o r r' : same_user_row o r r' -> user_alike o r r'.
Proof.
  intros [->|(L & L' & S & Nm & D & ND)]; [repeat split; auto|].
  split; [|split].
  - destruct L as [NE _], L' as [NE' _]. destruct r as [|a r]; [congruence|]. destruct r' as [|b r']; [congruence|]. cbn [hd] in S. subst b. reflexivity.
  - intros i. rewrite !user_entry_numbers by assumption. rewrite Nm, S. reflexivity.
  - destruct (user_row_details o r) as [ds|] eqn:E; [|congruence]. rewrite (user_details_some _ _ _ E), (user_details_some _ _ _ D). reflexivity.
Qed.

Lemma build_same_user o rows rows' : Forall2 (same_user_row o) rows rows' -> build_user o rows' = build_user o rows.
Proof.
  intros F. unfold build_user.
  pose proof (mapM_rel (fun r => do s <- field r 0; Ok (s, r)) (same_user_row o) (fun a b => fst b = fst a /\ user_alike o (snd a) (snd b))) as M.
  assert (H : forall a a', same_user_row o a a' -> match (do s <- field a 0; Ok (s, a)), (do s <- field a' 0; Ok (s, a')) with
     Ok b, Ok b' => fst b' = fst b /\ user_alike o (snd b) (snd b') | Err e, Err e' => e = e' | Panic, Panic => True | _, _ => False end).
  { intros a a' X. pose proof (user_same_alike o a a' X) as A. pose proof A as [E _]. rewrite E. destruct (field a 0); cbn [bind fst snd]; auto. }
  specialize (M H rows rows' F). destruct (mapM _ rows) as [kr|e|], (mapM _ rows') as [kr'|e'|]; try contradiction; cbn [bind]; try congruence.
  assert (P : Forall2 (user_alike o) (map snd (stable_sort (fun a b => str_leb (fst a) (fst b)) kr)) (map snd (stable_sort (fun a b => str_leb (fst a) (fst b)) kr'))).
  { pose proof (sort_rel fst _ (fun a b (X : fst b = fst a /\ user_alike o (snd a) (snd b)) => proj1 X) _ _ M) as S2.
    induction S2 as [|a b l l' [_ X] S2 IH]; cbn [map]; constructor; auto. }
  revert P. generalize (map snd (stable_sort (fun a b => str_leb (fst a) (fst b)) kr)), (map snd (stable_sort (fun a b => str_leb (fst a) (fst b)) kr')).
  intros l l' P. assert (E1 : user_entry_map o l' = user_entry_map o l).
  { unfold user_entry_map. symmetry. apply (foldM_rel _ _ (fun a b => fst b = fst a /\ user_alike o (snd a) (snd b))); [|apply number_rel; exact P].
    intros m [i r] [i' r'] [E (_ & X & _)]. cbn [fst snd] in *. subst i'. rewrite X. reflexivity. }
  assert (E2 : forall st, foldM (add_user_words o) l' st = foldM (add_user_words o) l st).
  { intros st. symmetry. apply (foldM_rel _ _ (user_alike o)); [|exact P]. intros [w i] a b (_ & _ & X). unfold add_user_words. rewrite X. reflexivity. }
  rewrite E1, E2. reflexivity.
Qed.

Lemma written_out_same k r : List.length r = 3%nat -> same_user_row (kind_user_options k) r (written_out k r).
Proof.
  intros L. destruct r as [|s [|p [|d [|? ?]]]]; try discriminate L. right.
  assert (G : user_row_details (kind_user_options k) [s; p; d] <> None) by (destruct k; discriminate).
  unfold long_enough. repeat split; try discriminate; try exact G; try (left; reflexivity); try (right; destruct k; cbn; lia); destruct k; reflexivity.
Qed.

Lemma same_files e k path path' bytes bytes' rows rows' : e_read e path = Some bytes -> e_csv e bytes = Ok rows ->
  e_read e path' = Some bytes' -> e_csv e bytes' = Ok rows' -> Forall2 (same_user_row (kind_user_options k)) rows rows' ->
  kind_user_flexible k = true \/ same_lengths rows' = same_lengths rows -> build_user_dict e k path' = build_user_dict e k path.
Proof.
  intros R C R' C' F L. unfold build_user_dict, read_file, csv_rows. rewrite R, R'. cbn [ok_or bind]. rewrite C, C'. cbn [bind].
  replace (kind_user_flexible k || same_lengths rows')%bool with (kind_user_flexible k || same_lengths rows)%bool by (destruct L as [-> | ->]; reflexivity).
  destruct (_ || _)%bool; cbn [bind]; [|reflexivity]. apply build_same_user. exact F.
Qed.

Lemma lengths_all n rows : Forall (fun r : row => List.length r = n) rows -> same_lengths rows = true.
Proof.
  intros F. destruct F as [|r rows H F]; [reflexivity|]. cbn [same_lengths]. apply forallb_forall. intros x I. rewrite Forall_forall in F.
  rewrite (F x I), H. apply Nat.eqb_refl.
Qed.

Lemma written_out_file be k path path' bytes bytes' rows : e_read (be_env be) path = Some bytes -> e_csv (be_env be) bytes = Ok rows ->
  e_read (be_env be) path' = Some bytes' -> e_csv (be_env be) bytes' = Ok (map (written_out k) rows) -> Forall (fun r : row => List.length r = 3%nat) rows ->
  load_user_dictionary_from_csv (be_env be) k path' = load_user_dictionary_from_csv (be_env be) k path /\ build_user_file be k path' = build_user_file be k path.
Proof.
  intros R C R' C' F. assert (E : build_user_dict (be_env be) k path' = build_user_dict (be_env be) k path).
  { apply (same_files _ k path path' bytes bytes' rows (map (written_out k) rows)); auto.
    - clear - F. induction F as [|r rows H F IH]; cbn [map]; constructor; auto using written_out_same.
    - right. rewrite (lengths_all 3 rows F). apply (lengths_all (full_fields k)). apply Forall_map. apply Forall_forall. intros r _. destruct k; reflexivity. }
  unfold load_user_dictionary_from_csv, build_user_file. rewrite E. auto.
Qed.

Lemma written_out_some k rows rows' : Forall2 (fun r r' => r' = r \/ (List.length r = 3%nat /\ r' = written_out k r)) rows rows' ->
  build_user (kind_user_options k) rows' = build_user (kind_user_options k) rows.
Proof.
  intros F. apply build_same_user. induction F as [|r r' rows rows' [->|[L ->]] F IH]; constructor; auto; [left; reflexivity|]. apply written_out_same. exact L.
Qed.

Lemma same_sys_files be k dir dir' rows rows' : system_rows be k dir = Ok rows -> system_rows be k dir' = Ok rows' ->
  Forall2 (same_sys_row (kind_dict_options k)) rows rows' -> build_dict_files be k dir' = build_dict_files be k dir.
Proof. intros R R' F. unfold build_dict_files. rewrite R, R'. cbn [bind]. rewrite (build_same_sys _ _ _ F). reflexivity. Qed.
