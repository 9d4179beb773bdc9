(** Recording and correcting offsets. *)
From Coq Require Import List NArith ZArith Bool Lia ZifyBool ZifyNat ZifyN.
From Verif Require Import MBase MUtf8 MText MCodec MDict MCharDef MBuild MCharFilter SCharDef SCharFilter LBase LMatrix LCharDef.
Import ListNotations.
Local Open Scope list_scope.

(* the recorded pairs, latest first *)
Definition pairs := list (N * Z).
Definition vecs (r : pairs) : offset_diffs := (map fst (rev r), map snd (rev r)).

Definition add (r : pairs) (o : N) (d : Z) : pairs :=
  match r with
  | (o', d') :: t => if (o' =? o)%N then (o, d) :: t else (o, d) :: r
  | [] => [(o, d)]
  end.

Lemma add_vecs r o d : add_offset_diff (vecs r) o d = vecs (add r o d).
Proof.
  unfold add_offset_diff, vecs, last_error, pop. rewrite <- map_rev, rev_involutive. destruct r as [|[o' d'] t]; [reflexivity|].
  cbn [map fst add]. destruct (N.eqb_spec o' o) as [->|].
  - cbn [rev]. rewrite !map_app. cbn [map fst snd]. rewrite removelast_last. reflexivity.
  - cbn [rev]. rewrite !map_app. cbn [map fst snd]. reflexivity.
Qed.

Fixpoint diff_at (r : pairs) (x : nat) : Z :=
  match r with
  | [] => 0%Z
  | (o, d) :: t => if (o <=? N.of_nat x)%N then d else diff_at t x
  end.

Fixpoint desc (r : pairs) : Prop :=
  match r with
  | [] => True
  | (o, _) :: t => Forall (fun p => (fst p < o)%N) t /\ desc t
  end.

Definition upto (r : pairs) (n : nat) : Prop := Forall (fun p => (fst p <= N.of_nat n)%N) r.

Lemma last_diff r : last_error (snd (vecs r)) = match r with (_, d) :: _ => Some d | [] => None end.
Proof. unfold last_error, vecs. cbn [snd]. rewrite <- map_rev, rev_involutive. destruct r as [|[o d] t]; reflexivity. Qed.

Lemma diff_at_upto r n x : upto r n -> n <= x -> diff_at r x = match r with (_, d) :: _ => d | [] => 0%Z end.
Proof.
  destruct r as [|[o d] t]; [reflexivity|]. intros U L. inversion U as [|? ? H U']; subst. cbn [fst] in H. cbn [diff_at].
  destruct (N.leb_spec o (N.of_nat x)); [reflexivity|lia].
Qed.

(* adding at o > all *)
Lemma add_fresh r o d n : upto r n -> (N.of_nat n < o)%N -> add r o d = (o, d) :: r.
Proof.
  intros U L. destruct r as [|[o' d'] t]; [reflexivity|]. inversion U as [|? ? H U']; subst. cbn [fst] in H. cbn [add].
  destruct (N.eqb_spec o' o); [lia|reflexivity].
Qed.

Definition inv (r : pairs) (a b : nat) : Prop :=      (* after a bytes of input and b bytes of output *)
  desc r /\ upto r b /\ (match r with (_, d) :: _ => d | [] => 0%Z end = Z.of_nat a - Z.of_nat b)%Z.

Definition small (n : nat) : Prop := (Z.of_nat n < 9223372036854775808)%Z.

Lemma wrap64_id z : (0 <= z < 18446744073709551616)%Z -> wrap_u 64 z = Z.to_N z.
Proof. intros. apply wrap_u_id; [lia|]. change (2 ^ 64)%Z with 18446744073709551616%Z. lia. Qed.

(* the loop for a longer replacement *)
Lemma extra_loop r a b i p : inv r a b -> 1 <= i -> p = (Z.of_nat a - Z.of_nat b)%Z -> forall n, (Z.of_nat (b + i + n) < 18446744073709551616)%Z ->
  exists r', fold_left (fun st k => add_offset_diff st (wrap_u 64 (Z.of_N (wrap_u 64 (Z.of_N (N.of_nat (a + i)) + - p)) + Z.of_nat k)) (p - Z.of_nat k - 1)%Z)
     (seq 0 n) (vecs r) = vecs r' /\
   desc r' /\ (forall q, In q r' -> (fst q < N.of_nat (b + i + n))%N) /\
   (n = 0 -> r' = r) /\ (0 < n -> exists t, r' = (N.of_nat (b + i + n - 1), p - Z.of_nat n)%Z :: t) /\
   (forall x, diff_at r' x = if Nat.ltb x (b + i) then diff_at r x else if Nat.eqb n 0 then diff_at r x else (p - Z.of_nat (Nat.min (x - (b + i)) (n - 1)) - 1)%Z).
Proof.
  intros (D & U & P) Hi Hp. induction n as [|n IH]; intros Hn.
  - exists r. cbn [seq fold_left]. split; [reflexivity|]. split; [exact D|]. split.
    { intros q Iq. unfold upto in U. rewrite Forall_forall in U. specialize (U q Iq). lia. }
    split; [auto|]. split; [lia|]. intros x. destruct (Nat.ltb x (b + i)); reflexivity.
  - destruct IH as (r' & E & D' & U' & Z0 & Z1 & DA); [lia|].
    rewrite seq_S, fold_left_app, E. cbn [fold_left Nat.add].
    rewrite (wrap64_id (Z.of_N (N.of_nat (a + i)) + - p)) by lia.
    rewrite wrap64_id by lia.
    replace (Z.to_N (Z.of_N (Z.to_N (Z.of_N (N.of_nat (a + i)) + - p)) + Z.of_nat n)) with (N.of_nat (b + i + n)) by lia.
    rewrite add_vecs. exists ((N.of_nat (b + i + n), (p - Z.of_nat n - 1)%Z) :: r').
    assert (ADD : add r' (N.of_nat (b + i + n)) (p - Z.of_nat n - 1) = (N.of_nat (b + i + n), (p - Z.of_nat n - 1)%Z) :: r').
    { apply (add_fresh _ _ _ (b + i + n - 1)); [|lia]. apply Forall_forall. intros q Iq. specialize (U' q Iq). lia. }
    split; [rewrite ADD; reflexivity|]. split.
    { cbn [desc]. split; [|exact D']. apply Forall_forall. exact U'. }
    split.
    { intros q [<-|Iq]; [cbn [fst]; lia|]. specialize (U' q Iq). lia. }
    split; [discriminate|]. split.
    { intros _. exists r'. f_equal. f_equal; lia. }
    intros x. cbn [diff_at]. destruct (N.leb_spec (N.of_nat (b + i + n)) (N.of_nat x)) as [H|H].
    + destruct (Nat.ltb_spec x (b + i)); [lia|]. cbn [Nat.eqb]. lia.
    + rewrite DA. destruct (Nat.ltb_spec x (b + i)); [reflexivity|]. cbn [Nat.eqb].
      destruct (Nat.eqb_spec n 0); [lia|]. lia.
Qed.

Lemma record_step r a b i o : inv r a b -> 1 <= i -> small (a + i) -> small (b + o) ->
  exists r', record_diff (vecs r) (N.of_nat (a + i)) i o = vecs r' /\ inv r' (a + i) (b + o) /\
    (forall x, x < b -> diff_at r' x = diff_at r x) /\
    (forall x, b <= x -> x < b + o -> (Z.of_nat x + diff_at r' x = Z.of_nat (a + Nat.min (x - b) (i - 1)))%Z).
Proof.
  intros IV Hi Sa Sb. unfold small in *. pose proof IV as (D & U & P). unfold record_diff.
  rewrite last_diff.
  replace (match (match r with [] => None | (_, d) :: _ => Some d end) with Some d => d | None => 0%Z end)
    with (Z.of_nat a - Z.of_nat b)%Z by (rewrite <- P; destruct r as [|[? ?] ?]; reflexivity).
  destruct (Z.eqb_spec (Z.of_nat i - Z.of_nat o) 0) as [E|NE].
  - exists r. split; [reflexivity|]. split; [|split].
    + split; [exact D|]. split; [|lia]. revert U. apply Forall_impl. intros q Hq. lia.
    + reflexivity.
    + intros x H1 H2. rewrite (diff_at_upto r b x U H1), P. lia.
  - destruct (Z.ltb_spec 0 (Z.of_nat i - Z.of_nat o)) as [L|G].
    + rewrite wrap64_id by lia.
      replace (Z.to_N (Z.of_N (N.of_nat (a + i)) - (Z.of_nat i - Z.of_nat o) - (Z.of_nat a - Z.of_nat b))) with (N.of_nat (b + o)) by lia.
      replace (Z.of_nat a - Z.of_nat b + (Z.of_nat i - Z.of_nat o))%Z with (Z.of_nat (a + i) - Z.of_nat (b + o))%Z by lia.
      rewrite add_vecs. eexists. split; [reflexivity|].
      destruct r as [|[o1 d1] t].
      * cbn [add]. split; [|split].
        -- split; [cbn; auto|]. split; [repeat constructor; cbn; lia|reflexivity].
        -- intros x H. cbn [diff_at]. destruct (N.leb_spec (N.of_nat (b + o)) (N.of_nat x)); [lia|reflexivity].
        -- intros x H1 H2. cbn [diff_at]. destruct (N.leb_spec (N.of_nat (b + o)) (N.of_nat x)); lia.
      * pose proof (Forall_inv U) as U1. cbn [fst] in U1. cbn [desc] in D. destruct D as [D1 D2].
        cbn [add]. destruct (N.eqb_spec o1 (N.of_nat (b + o))) as [->|NEQ].
        -- assert (o = 0) by lia. subst o. rewrite Nat.add_0_r in *. split; [|split].
           ++ split; [cbn [desc]; auto|]. split; [|lia]. constructor; [cbn; lia|].
              revert D1. apply Forall_impl. intros q Hq. lia.
           ++ intros x H. cbn [diff_at]. destruct (N.leb_spec (N.of_nat b) (N.of_nat x)); [lia|reflexivity].
           ++ intros x H1 H2. lia.
        -- assert (LT : (o1 < N.of_nat (b + o))%N) by lia. split; [|split].
           ++ split; [cbn [desc]|].
              ** split; [|auto]. constructor; [exact LT|]. revert D1. apply Forall_impl. intros q Hq. lia.
              ** split; [|reflexivity]. constructor; [cbn; lia|]. revert U. apply Forall_impl. intros q Hq. lia.
           ++ intros x H. cbn [diff_at]. destruct (N.leb_spec (N.of_nat (b + o)) (N.of_nat x)); [lia|reflexivity].
           ++ intros x H1 H2. change (diff_at ((N.of_nat (b + o), (Z.of_nat (a + i) - Z.of_nat (b + o))%Z) :: (o1, d1) :: t) x)
                with (if (N.of_nat (b + o) <=? N.of_nat x)%N then (Z.of_nat (a + i) - Z.of_nat (b + o))%Z else diff_at ((o1, d1) :: t) x).
              destruct (N.leb_spec (N.of_nat (b + o)) (N.of_nat x)); [lia|].
              rewrite (diff_at_upto ((o1, d1) :: t) b x U H1). lia.
    + set (n := Z.abs_nat (Z.of_nat i - Z.of_nat o)). assert (Hn : o = i + n) by lia.
      destruct (extra_loop r a b i (Z.of_nat a - Z.of_nat b) IV Hi eq_refl n) as (r' & E & D' & U' & Z0 & Z1 & DA); [lia|].
      exists r'. split; [exact E|]. destruct Z1 as [t T]; [lia|]. split; [|split].
      * split; [exact D'|]. split.
        -- apply Forall_forall. intros q Iq. specialize (U' q Iq). lia.
        -- rewrite T. lia.
      * intros x H. rewrite DA. destruct (Nat.ltb_spec x (b + i)); [reflexivity|lia].
      * intros x H1 H2. rewrite DA. destruct (Nat.ltb_spec x (b + i)).
        -- rewrite (diff_at_upto r b x U H1), P. lia.
        -- destruct (Nat.eqb_spec n 0); [lia|]. lia.
Qed.

(* recording a list of segments *)
Definition record_all (segs : list segment) (st : offset_diffs * N) : offset_diffs * N :=
  fold_left (fun '(st, start) '(i, o) => (record_diff st (start + N.of_nat i) i o, (start + N.of_nat i)%N)) segs st.

Lemma record_segments segs : Forall (fun s => 1 <= fst s) segs -> forall r a b, inv r a b ->
  small (a + in_total segs) -> small (b + out_total segs) ->
  exists r', record_all segs (vecs r, N.of_nat a) = (vecs r', N.of_nat (a + in_total segs)) /\
    inv r' (a + in_total segs) (b + out_total segs) /\
    forall x, (Z.of_nat x + diff_at r' x = if Nat.ltb x b then Z.of_nat x + diff_at r x else Z.of_nat (a + source_of segs (x - b)))%Z.
Proof.
  induction 1 as [|[i o] segs Hi F IH]; intros r a b IV Sa Sb; cbn [in_total out_total fold_right] in *.
  - exists r. rewrite !Nat.add_0_r. split; [reflexivity|]. split; [exact IV|]. intros x. cbn [source_of].
    destruct (Nat.ltb_spec x b); [reflexivity|]. destruct IV as (D & U & P). rewrite (diff_at_upto r b x U) by lia. rewrite P. lia.
  - cbn [fst] in Hi. fold (in_total segs) in *. fold (out_total segs) in *. unfold small in *.
    destruct (record_step r a b i o IV Hi) as (r1 & E1 & IV1 & B1 & C1); [unfold small; lia|unfold small; lia|].
    destruct (IH r1 (a + i) (b + o) IV1) as (r2 & E2 & IV2 & B2); [lia|lia|].
    exists r2. split; [|split].
    + unfold record_all. cbn [fold_left]. replace (N.of_nat a + N.of_nat i)%N with (N.of_nat (a + i)) by lia. rewrite E1.
      fold (record_all segs (vecs r1, N.of_nat (a + i))). rewrite E2. f_equal. f_equal. lia.
    + rewrite !Nat.add_assoc. exact IV2.
    + intros x. rewrite B2. cbn [source_of]. destruct (Nat.ltb_spec x (b + o)) as [H|H].
      * destruct (Nat.ltb_spec x b) as [H2|H2]; [rewrite (B1 x H2); reflexivity|].
        rewrite (C1 x H2 H). destruct (Nat.ltb_spec (x - b) o); [reflexivity|lia].
      * destruct (Nat.ltb_spec x b) as [H2|H2]; [lia|]. destruct (Nat.ltb_spec (x - b) o); [lia|].
        replace (x - b - o) with (x - (b + o)) by lia. lia.
Qed.

(* correcting with any binary search *)
Lemma diff_at_found r x o d : desc r -> In (o, d) r -> (o <= N.of_nat x)%N ->
  (forall o' d', In (o', d') r -> (o' <= N.of_nat x)%N -> (o' <= o)%N) -> diff_at r x = d.
Proof.
  induction r as [|[o1 d1] t IH]; intros D I1 L M; [contradiction|]. cbn [desc] in D. destruct D as [D1 D2]. cbn [diff_at].
  rewrite Forall_forall in D1. destruct (N.leb_spec o1 (N.of_nat x)) as [H|H].
  - destruct I1 as [E|I1]; [congruence|]. specialize (D1 _ I1). cbn [fst] in D1. specialize (M o1 d1 (or_introl eq_refl) H). lia.
  - destruct I1 as [E|I1]; [injection E as -> ->; lia|]. apply IH; auto. intros o' d' I2 L2. apply (M o' d'); [right; exact I2|exact L2].
Qed.

Lemma diff_at_none r x : (forall o d, In (o, d) r -> (N.of_nat x < o)%N) -> diff_at r x = 0%Z.
Proof.
  induction r as [|[o1 d1] t IH]; intros M; [reflexivity|]. cbn [diff_at].
  specialize (M o1 d1 (or_introl eq_refl)) as M1. destruct (N.leb_spec o1 (N.of_nat x)); [lia|]. apply IH. intros o d I1. apply (M o d). right. exact I1.
Qed.

Lemma desc_strictly r : desc r -> forall i j a b, i < j -> nth_error (map fst (rev r)) i = Some a -> nth_error (map fst (rev r)) j = Some b -> (a < b)%N.
Proof.
  induction r as [|[o d] t IH]; intros D i j a b L E1 E2; [destruct i; discriminate|]. cbn [desc] in D. destruct D as [D1 D2].
  cbn [rev] in *. rewrite map_app in *. cbn [map fst] in *.
  assert (Lj : j < length (map fst (rev t) ++ [o])) by (apply nth_error_Some; congruence).
  rewrite app_length in Lj. cbn [length] in Lj.
  rewrite nth_error_app1 in E1 by lia. destruct (Nat.eq_dec j (length (map fst (rev t)))) as [->|NE].
  - rewrite nth_error_app2, Nat.sub_diag in E2 by lia. injection E2 as <-. apply nth_error_In, in_map_iff in E1. destruct E1 as (q & <- & Iq).
    rewrite Forall_forall in D1. apply D1. apply in_rev. exact Iq.
  - rewrite nth_error_app1 in E2 by lia. exact (IH D2 i j a b L E1 E2).
Qed.

Lemma correct_offset_spec search r x len y : search_contract search -> desc r -> (0 <= Z.of_nat x + diff_at r x < 18446744073709551616)%Z ->
  upto r len -> y = Z.to_N (Z.of_nat x + diff_at r x) ->
  correct_offset_with search (N.of_nat x) (fst (vecs r)) (snd (vecs r)) (N.of_nat len) = Ok y.
Proof.
  intros SC D B Ln ->. unfold correct_offset_with, vecs. cbn [fst snd].
  assert (NE : forall o d, In (o, d) r <-> exists i, nth_error (map fst (rev r)) i = Some o /\ nth_error (map snd (rev r)) i = Some d).
  { intros o d. rewrite in_rev. split.
    - intros I1. apply In_nth_error in I1. destruct I1 as [i E]. exists i. rewrite !nth_error_map, E. auto.
    - intros (i & E1 & E2). rewrite nth_error_map in E1, E2. destruct (nth_error (rev r) i) as [[o' d']|] eqn:E; [|discriminate].
      cbn in E1, E2. apply (nth_error_In _ i). congruence. }
  assert (EX : forall i o, nth_error (map fst (rev r)) i = Some o -> exists d, nth_error (map snd (rev r)) i = Some d).
  { intros i o E. rewrite nth_error_map in *. destruct (nth_error (rev r) i) as [[o' d']|]; [|discriminate]. cbn. eauto. }
  destruct r as [|p t] eqn:R; [cbn [rev map is_nil diff_at] in *; f_equal; lia|]. rewrite <- R in *.
  destruct (is_nil (map fst (rev r))) eqn:Nil.
  { exfalso. rewrite R in Nil. cbn [rev] in Nil. rewrite map_app in Nil. destruct (map fst (rev t)); discriminate. }
  pose proof (SC (map fst (rev r)) (N.of_nat x) (desc_strictly r D)) as C.
  assert (FIN : forall i o d, nth_error (map fst (rev r)) i = Some o -> nth_error (map snd (rev r)) i = Some d -> diff_at r x = d ->
     (do d0 <- idx (map snd (rev r)) i; Ok (wrap_u 64 (Z.of_N (N.of_nat x) + d0))) = Ok (Z.to_N (Z.of_nat x + diff_at r x))).
  { intros i o d E1 E2 E3. rewrite (idx_nth _ _ _ E2). cbn [bind]. rewrite nat_N_Z, <- E3. rewrite wrap64_id by lia. reflexivity. }
  destruct (search (map fst (rev r)) (N.of_nat x)) as [i|[|i]].
  - destruct (EX _ _ C) as [d E]. apply (FIN i (N.of_nat x) d C E). apply (diff_at_found r x (N.of_nat x) d D); [apply NE; eauto|lia|auto].
  - destruct C as (_ & _ & C).
    assert (D0 : diff_at r x = 0%Z).
    { apply diff_at_none. intros o d I1. apply NE in I1. destruct I1 as (i & E1 & _). apply (C i o); [lia|exact E1]. }
    destruct (N.leb_spec (N.of_nat len) 0) as [H|H]; [|rewrite D0; f_equal; lia].
    (* the output is empty: all offsets are 0, none above x *)
    exfalso. assert (I1 : In p r) by (rewrite R; left; reflexivity). destruct p as [o d].
    unfold upto in Ln. rewrite Forall_forall in Ln. pose proof (Ln _ I1) as L0. cbn [fst] in L0.
    apply NE in I1. destruct I1 as (i & E1 & _). pose proof (C i o ltac:(lia) E1). lia.
  - destruct C as (L & C1 & C2). destruct (nth_error (map fst (rev r)) i) as [o|] eqn:E; [|apply nth_error_None in E; lia].
    destruct (EX _ _ E) as [d E2]. apply (FIN i o d E E2). pose proof (C1 i o ltac:(lia) E) as B1.
    apply (diff_at_found r x o d D); [apply NE; eauto|lia|].
    intros o' d' I1 L1. apply NE in I1. destruct I1 as (k & K1 & _).
    destruct (Nat.lt_trichotomy k i) as [H|[H|H]].
    + pose proof (desc_strictly r D k i o' o H K1 E). lia.
    + subst k. assert (o' = o) by congruence. lia.
    + pose proof (C2 k o' ltac:(lia) K1). lia.
Qed.

Lemma source_of_bound segs : Forall (fun s => 1 <= fst s) segs -> forall x, source_of segs x <= in_total segs + x.
Proof.
  induction 1 as [|[i o] segs H F IH]; intros x; cbn [source_of in_total fold_right]; [lia|]. fold (in_total segs).
  destruct (Nat.ltb_spec x o); [lia|]. specialize (IH (x - o)). lia.
Qed.

(* the vectors recorded for the segments give the source of every position *)
Lemma record_source segs search offs diffs e x : Forall (fun s => 1 <= fst s) segs ->
  small (in_total segs) -> small (out_total segs) -> small x -> search_contract search ->
  record_all segs (([], []), 0%N) = ((offs, diffs), e) ->
  correct_offset_with search (N.of_nat x) offs diffs (N.of_nat (out_total segs)) = Ok (N.of_nat (source_of segs x)).
Proof.
  intros F Sa Sb Sx SC E.
  assert (IV : inv [] 0 0) by (repeat split; constructor).
  destruct (record_segments segs F [] 0 0 IV Sa Sb) as (r & R & (D & U & P) & X). cbn [Nat.add] in *.
  pose proof (eq_trans (eq_sym E) R) as Q. unfold vecs in Q. injection Q as -> -> ->.
  change (map fst (rev r)) with (fst (vecs r)). change (map snd (rev r)) with (snd (vecs r)).
  specialize (X x). cbn [Nat.ltb Nat.leb] in X. rewrite Nat.sub_0_r in X.
  apply correct_offset_spec; auto; rewrite X; [|lia]. pose proof (source_of_bound segs F x). unfold small in *. lia.
Qed.
