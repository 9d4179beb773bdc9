(** The debug arithmetic of the character filters. *)
From Coq Require Import List NArith ZArith Bool Lia ZifyBool ZifyNat ZifyN.
From Verif Require Import MBase MUtf8 MText MCodec MDict MCharDef MBuild MCharFilter MOffset64 SCharDef SCharFilter SAnyMatch SOffset64
  LBase LUtf8 LMatrix LCharDef LOffset LCharFilter LFilterProps LAnyMatch.
Import ListNotations.
Local Open Scope list_scope.

Lemma checked_i64_ok z : (-9223372036854775808 <= z < 9223372036854775808)%Z -> checked_i64 z = Ok z.
Proof. unfold checked_i64. intros H. replace (_ && _)%bool with true by lia. reflexivity. Qed.

Lemma checked_i64_inv z y : checked_i64 z = Ok y -> y = z.
Proof. unfold checked_i64. destruct (_ && _)%bool; [congruence|discriminate]. Qed.

Lemma checked_i64_cases z : checked_i64 z = Ok z \/ checked_i64 z = Panic.
Proof. unfold checked_i64. destruct (_ && _)%bool; auto. Qed.

Lemma checked_usize_ok z : (0 <= z < 18446744073709551616)%Z -> checked_usize z = Ok (Z.to_N z).
Proof. unfold checked_usize. intros H. replace (_ && _)%bool with true by lia. reflexivity. Qed.

Lemma checked_usize_cases z : (checked_usize z = Ok (wrap_u 64 z)) \/ checked_usize z = Panic.
Proof.
  unfold checked_usize. destruct (_ && _)%bool eqn:E; [|auto]. left. rewrite wrap64_id by lia. reflexivity.
Qed.

Lemma as_i64_small n : (n < 9223372036854775808)%N -> as_i64 n = Z.of_N n.
Proof.
  intros H. unfold as_i64, wrap_i. change (2 ^ (64 - 1))%Z with 9223372036854775808%Z. change (2 ^ 64)%Z with 18446744073709551616%Z.
  rewrite Z.mod_small by lia. lia.
Qed.

Lemma as_i64_mod n : exists k, as_i64 n = (Z.of_N n + k * 18446744073709551616)%Z.
Proof.
  unfold as_i64, wrap_i. change (2 ^ (64 - 1))%Z with 9223372036854775808%Z. change (2 ^ 64)%Z with 18446744073709551616%Z.
  exists (- ((Z.of_N n + 9223372036854775808) / 18446744073709551616))%Z. rewrite Z.mod_eq by lia. lia.
Qed.

Lemma wrap_as n z : wrap_u 64 (as_i64 n + z) = wrap_u 64 (Z.of_N n + z).
Proof.
  destruct (as_i64_mod n) as [k ->]. unfold wrap_u. change (2 ^ 64)%Z with 18446744073709551616%Z.
  replace (Z.of_N n + k * 18446744073709551616 + z)%Z with (Z.of_N n + z + k * 18446744073709551616)%Z by lia.
  rewrite Z_mod_plus_full. reflexivity.
Qed.

Lemma correct_cases search x offs diffs len :
  correct_offset_debug search x offs diffs len = Panic \/ correct_offset_debug search x offs diffs len = correct_offset_with search x offs diffs len.
Proof.
  unfold correct_offset_debug, correct_offset_with. destruct (is_nil offs); [auto|]. cbv zeta.
  match goal with |- context [match ?q with None => Ok x | _ => _ end] => destruct q as [i|] end; [|auto].
  destruct (idx diffs i) as [d| |]; cbn [bind]; [|auto|auto].
  destruct (checked_i64_cases (as_i64 x + d)) as [->| ->]; cbn [bind]; [|auto]. right. rewrite wrap_as. reflexivity.
Qed.

Ltac step E := match goal with |- context [checked_i64 ?z] => destruct (checked_i64_cases z) as [E|E]; rewrite E; cbn [bind]; [|left; reflexivity] end.

Lemma record_cases st off i o : fits_isize i -> fits_isize o ->
  record_diff_debug st off i o = Panic \/ record_diff_debug st off i o = Ok (record_diff st off i o).
Proof.
  intros Fi Fo. unfold record_diff_debug, record_diff, fits_isize in *. rewrite !as_i64_small by lia. rewrite !nat_N_Z.
  set (p := match last_error (snd st) with Some d => d | None => 0%Z end). step E1.
  destruct (Z.eqb_spec (Z.of_nat i - Z.of_nat o) 0) as [|NE]; [auto|].
  destruct (Z.ltb_spec 0 (Z.of_nat i - Z.of_nat o)) as [L|G].
  - step E2. step E3. step E4. right.
    replace (as_i64 off - (Z.of_nat i - Z.of_nat o) - p)%Z with (as_i64 off + (- (Z.of_nat i - Z.of_nat o) - p))%Z by lia.
    rewrite wrap_as. replace (Z.of_N off + (- (Z.of_nat i - Z.of_nat o) - p))%Z with (Z.of_N off - (Z.of_nat i - Z.of_nat o) - p)%Z by lia. reflexivity.
  - step E2. step E3. rewrite wrap_as. cbv zeta. set (base := wrap_u 64 (Z.of_N off + - p)).
    assert (B : forall k, In k (seq 0 (Z.abs_nat (Z.of_nat i - Z.of_nat o))) -> (Z.of_nat k < 9223372036854775808)%Z).
    { intros k Hk. apply in_seq in Hk. lia. }
    clearbody p base. revert B. generalize (seq 0 (Z.abs_nat (Z.of_nat i - Z.of_nat o))). intros l. generalize st. induction l as [|k l IH]; intros s B; cbn [foldM fold_left]; [auto|].
    pose proof (B k (or_introl eq_refl)) as Bk.
    destruct (checked_usize_cases (Z.of_N base + Z.of_nat k)) as [E|E]; rewrite E; cbn [bind]; [|auto].
    rewrite as_i64_small by lia. rewrite nat_N_Z. step E4. step E5. apply IH. intros j Hj. apply B. right. exact Hj.
Qed.

Lemma record_fits r a b i o : inv r a b -> small (a + i) -> small (b + o) ->
  record_diff_debug (vecs r) (N.of_nat (a + i)) i o = Ok (record_diff (vecs r) (N.of_nat (a + i)) i o).
Proof.
  intros IV Sa Sb. unfold small in *. pose proof IV as (D & U & P). unfold record_diff_debug, record_diff. rewrite last_diff.
  rewrite !as_i64_small by lia. rewrite !nat_N_Z.
  replace (match (match r with [] => None | (_, d) :: _ => Some d end) with Some d => d | None => 0%Z end)
    with (Z.of_nat a - Z.of_nat b)%Z by (rewrite <- P; destruct r as [|[? ?] ?]; reflexivity).
  rewrite checked_i64_ok by lia. cbn [bind].
  destruct (Z.eqb_spec (Z.of_nat i - Z.of_nat o) 0) as [E|NE]; [reflexivity|].
  destruct (Z.ltb_spec 0 (Z.of_nat i - Z.of_nat o)) as [L|G].
  - rewrite checked_i64_ok by lia. cbn [bind]. rewrite checked_i64_ok by lia. cbn [bind]. rewrite checked_i64_ok by lia. reflexivity.
  - rewrite checked_i64_ok by lia. cbn [bind]. rewrite checked_i64_ok by lia. cbn [bind]. cbv zeta.
    replace (Z.of_nat (a + i) + - (Z.of_nat a - Z.of_nat b))%Z with (Z.of_nat (b + i)) by lia.
    assert (B : forall k, In k (seq 0 (Z.abs_nat (Z.of_nat i - Z.of_nat o))) -> i + k < o).
    { intros k Hk. apply in_seq in Hk. lia. }
    revert B. generalize (seq 0 (Z.abs_nat (Z.of_nat i - Z.of_nat o))). intros l. generalize (vecs r). induction l as [|k l IH]; intros s B; cbn [foldM fold_left]; [reflexivity|].
    pose proof (B k (or_introl eq_refl)) as Bk. rewrite (wrap64_id (Z.of_nat (b + i))) by lia.
    rewrite checked_usize_ok by lia. cbn [bind]. rewrite as_i64_small by lia. rewrite checked_i64_ok by lia. cbn [bind]. rewrite checked_i64_ok by lia. cbn [bind].
    rewrite (wrap64_id (Z.of_nat (b + i))) in IH by lia. rewrite wrap64_id by lia. rewrite nat_N_Z. apply IH. intros j Hj. apply B. right. exact Hj.
Qed.

(* recording a list of segments *)
Definition record_all_debug (segs : list segment) (st : offset_diffs * N) : res (offset_diffs * N) :=
  foldM (fun '(st, start) '(i, o) => do off <- checked_usize (Z.of_N start + Z.of_nat i); do st <- record_diff_debug st off i o; Ok (st, off)) segs st.

Lemma record_all_fits segs : forall r a b, inv r a b -> small (a + in_total segs) -> small (b + out_total segs) ->
  record_all_debug segs (vecs r, N.of_nat a) = Ok (record_all segs (vecs r, N.of_nat a)).
Proof.
  induction segs as [|[i o] segs IH]; intros r a b IV Sa Sb; cbn [in_total out_total fold_right] in *; [reflexivity|].
  fold (in_total segs) in *. fold (out_total segs) in *. unfold small in *. unfold record_all_debug, record_all. cbn [foldM fold_left].
  rewrite checked_usize_ok by lia. cbn [bind].
  replace (Z.to_N (Z.of_N (N.of_nat a) + Z.of_nat i)) with (N.of_nat (a + i)) by lia. replace (N.of_nat a + N.of_nat i)%N with (N.of_nat (a + i)) by lia.
  rewrite (record_fits r a b i o IV) by (unfold small; lia). cbn [bind].
  destruct (record_any r a b i o IV) as (r1 & E1 & IV1 & _ & _); [unfold small; lia|unfold small; lia|]. rewrite E1.
  apply (IH r1 (a + i) (b + o) IV1); lia.
Qed.

Lemma inv_nil : inv [] 0 0.
Proof. repeat split. constructor. Qed.

Lemma record_none segs : fits_isize (in_total segs) -> fits_isize (out_total segs) ->
  record_all_debug segs ([], [], 0%N) = Ok (record_all segs ([], [], 0%N)).
Proof.
  intros S1 S2. unfold fits_isize in *. apply (record_all_fits segs [] 0 0 inv_nil); unfold small; lia.
Qed.

(* correcting *)
Lemma correct_near search r x len : search_contract search -> desc r -> small x -> (-9223372036854775808 <= Z.of_nat x + diff_at r x < 9223372036854775808)%Z ->
  0 < len \/ (forall p t, r = p :: t -> (fst p <= N.of_nat x)%N) ->
  correct_offset_debug search (N.of_nat x) (fst (vecs r)) (snd (vecs r)) (N.of_nat len) = Ok (as_usize (Z.of_nat x + diff_at r x)).
Proof.
  intros SC D B0 B Ln. unfold small in B0. unfold correct_offset_debug, vecs, as_usize. cbn [fst snd].
  assert (NE : forall o d, In (o, d) r <-> exists i, nth_error (map fst (rev r)) i = Some o /\ nth_error (map snd (rev r)) i = Some d).
  { intros o d. rewrite in_rev. split.
    - intros I1. apply In_nth_error in I1. destruct I1 as [i E]. exists i. rewrite !nth_error_map, E. auto.
    - intros (i & E1 & E2). rewrite nth_error_map in E1, E2. destruct (nth_error (rev r) i) as [[o' d']|] eqn:E; [|discriminate].
      cbn in E1, E2. apply (nth_error_In _ i). congruence. }
  assert (EX : forall i o, nth_error (map fst (rev r)) i = Some o -> exists d, nth_error (map snd (rev r)) i = Some d).
  { intros i o E. rewrite nth_error_map in *. destruct (nth_error (rev r) i) as [[o' d']|]; [|discriminate]. cbn. eauto. }
  destruct r as [|p t] eqn:R; [cbn [rev map is_nil diff_at] in *; rewrite Z.add_0_r, Z.mod_small by lia; f_equal; lia|]. rewrite <- R in *.
  destruct (is_nil (map fst (rev r))) eqn:Nil.
  { exfalso. rewrite R in Nil. cbn [rev] in Nil. rewrite map_app in Nil. destruct (map fst (rev t)); discriminate. }
  pose proof (SC (map fst (rev r)) (N.of_nat x) (desc_strictly r D)) as C.
  assert (FIN : forall i o d, nth_error (map fst (rev r)) i = Some o -> nth_error (map snd (rev r)) i = Some d -> diff_at r x = d ->
     (do d0 <- idx (map snd (rev r)) i; do z <- checked_i64 (as_i64 (N.of_nat x) + d0); Ok (wrap_u 64 z)) = Ok (Z.to_N ((Z.of_nat x + diff_at r x) mod 18446744073709551616))).
  { intros i o d E1 E2 E3. rewrite (idx_nth _ _ _ E2). cbn [bind]. rewrite as_i64_small, nat_N_Z, <- E3 by lia. rewrite checked_i64_ok by lia. reflexivity. }
  destruct (search (map fst (rev r)) (N.of_nat x)) as [i|[|i]].
  - destruct (EX _ _ C) as [d E]. apply (FIN i (N.of_nat x) d C E). apply (diff_at_found r x (N.of_nat x) d D); [apply NE; eauto|lia|auto].
  - destruct C as (_ & _ & C).
    assert (D0 : diff_at r x = 0%Z).
    { apply diff_at_none. intros o d I1. apply NE in I1. destruct I1 as (i & E1 & _). apply (C i o); [lia|exact E1]. }
    destruct (N.leb_spec (N.of_nat len) 0) as [H|H]; [|rewrite D0, Z.add_0_r, Z.mod_small by lia; f_equal; lia].
    exfalso. destruct Ln as [Ln|Ln]; [lia|]. destruct p as [o d]. specialize (Ln (o, d) t R). cbn [fst] in Ln.
    assert (I1 : In (o, d) r) by (rewrite R; left; reflexivity). apply NE in I1. destruct I1 as (i & E1 & _). pose proof (C i o ltac:(lia) E1). lia.
  - destruct C as (L & C1 & C2). destruct (nth_error (map fst (rev r)) i) as [o|] eqn:E; [|apply nth_error_None in E; lia].
    destruct (EX _ _ E) as [d E2]. apply (FIN i o d E E2). pose proof (C1 i o ltac:(lia) E) as B1.
    apply (diff_at_found r x o d D); [apply NE; eauto|lia|].
    intros o' d' I1 L1. apply NE in I1. destruct I1 as (k & K1 & _).
    destruct (Nat.lt_trichotomy k i) as [H|[H|H]].
    + pose proof (desc_strictly r D k i o' o H K1 E). lia.
    + subst k. assert (o' = o) by congruence. lia.
    + pose proof (C2 k o' ltac:(lia) K1). lia.
Qed.

Lemma sent_range segs x : (-1 <= sent_to segs x)%Z /\ (x <= out_total segs -> (sent_to segs x <= Z.of_nat (in_total segs))%Z) /\
  (sent_to segs x <= Z.of_nat (in_total segs + x))%Z.
Proof.
  destruct (Nat.lt_ge_cases x (out_total segs)) as [H|H].
  - pose proof (sent_below segs x H). lia.
  - pose proof (sent_at segs [] (x - out_total segs)) as E. rewrite app_nil_r in E. cbn [sent_to] in E.
    replace (out_total segs + (x - out_total segs)) with x in E by lia. lia.
Qed.

Lemma correct_segs segs offs diffs e : record_all segs ([], [], 0%N) = (offs, diffs, e) -> fits_isize (in_total segs) -> fits_isize (out_total segs) ->
  forall search x len, search_contract search -> x <= out_total segs \/ fits_isize (in_total segs + x) -> 0 < len \/ out_total segs = 0 ->
  correct_offset_debug search (N.of_nat x) offs diffs (N.of_nat len) = correct_offset_with search (N.of_nat x) offs diffs (N.of_nat len).
Proof.
  intros R S1 S2 search x len SC Hx Hl. unfold fits_isize in *.
  destruct (record_sent segs [] 0 0 inv_nil) as (r & E & (D & U & _) & H); [unfold small; lia|unfold small; lia|]. cbn [Nat.add] in *.
  change (record_all segs ([], [], 0%N)) with (record_all segs (vecs [], N.of_nat 0)) in R. rewrite E in R.
  assert (R1 : vecs r = (offs, diffs)) by congruence. specialize (H x). rewrite Nat.sub_0_r in H.
  replace (Nat.ltb x 0) with false in H by lia. destruct (sent_range segs x) as (B1 & B2 & B3).
  assert (C : correct_offset_debug search (N.of_nat x) (fst (vecs r)) (snd (vecs r)) (N.of_nat len) = Ok (as_usize (Z.of_nat x + diff_at r x))).
  { apply correct_near; auto; [unfold small; lia|lia|]. destruct Hl as [Hl|Hl]; [auto|]. right. intros p t ->. pose proof (Forall_inv U) as U1. cbn beta in U1. rewrite Hl in U1. destruct p as [po pd]. cbn [fst] in *. lia. }
  rewrite R1 in C. cbn [fst snd] in C. destruct (correct_cases search (N.of_nat x) offs diffs (N.of_nat len)) as [F|F]; [congruence|exact F].
Qed.

(** * Mapping *)

Lemma mapping_loop_segs f : forall fuel text start result st out offs diffs,
  mapping_loop fuel f text start result st = Some (Ok (out, offs, diffs)) ->
  exists tail segs e, out = result ++ tail /\ in_total segs = blen text /\ out_total segs = blen tail /\
    record_all segs (st, start) = (offs, diffs, e).
Proof.
  induction fuel as [|fuel IH]; intros text start result st out offs diffs H.
  - destruct text as [|c t]; [|discriminate]. cbn [mapping_loop] in H. injection H as <- <- <-. exists [], [], start. rewrite app_nil_r. repeat split.
    unfold record_all. cbn [fold_left]. destruct st; reflexivity.
  - destruct text as [|c t].
    { cbn [mapping_loop] in H. injection H as <- <- <-. exists [], [], start. rewrite app_nil_r. repeat split. unfold record_all. cbn [fold_left]. destruct st; reflexivity. }
    cbn [mapping_loop] in *. destruct (last_error (common_prefix_search (mf_trie f) (utf8 (c :: t)))) as [[v n]|].
    + destruct (str_to (c :: t) n) as [input| |] eqn:TO; [|discriminate|discriminate].
      destruct (str_from (c :: t) n) as [rest| |] eqn:FR; [|discriminate|discriminate].
      destruct (map_index (mf_mapping f) input) as [w| |] eqn:MI; [|discriminate|discriminate].
      destruct (IH _ _ _ _ _ _ _ H) as (tail & segs & e & O & T1 & T2 & R).
      destruct (str_from_inv _ _ _ FR) as (pre & ET & BL).
      exists (w ++ tail), ((n, blen w) :: segs), e. split; [rewrite app_assoc; exact O|]. split.
      { cbn [in_total fold_right]. fold (in_total segs). rewrite T1, ET, blen_app. lia. }
      split; [cbn [out_total fold_right]; fold (out_total segs); rewrite T2, blen_app; reflexivity|exact R].
    + destruct (IH _ _ _ _ _ _ _ H) as (tail & segs & e & O & T1 & T2 & R).
      exists (c :: tail), ((width c, width c) :: segs), e. split; [rewrite O, <- app_assoc; reflexivity|]. split.
      { cbn [in_total fold_right blen]. fold (in_total segs). rewrite T1. reflexivity. }
      split; [cbn [out_total fold_right blen]; fold (out_total segs); rewrite T2; reflexivity|].
      unfold record_all. cbn [fold_left]. rewrite record_same. exact R.
Qed.

Lemma mapping_loop_fits f : forall fuel text r a b result out offs diffs, inv r a b ->
  mapping_loop fuel f text (N.of_nat a) result (vecs r) = Some (Ok (out, offs, diffs)) ->
  small (a + blen text) -> small (b + (blen out - blen result)) ->
  mapping_loop_debug fuel f text (N.of_nat a) result (vecs r) = Some (Ok (out, offs, diffs)).
Proof.
  induction fuel as [|fuel IH]; intros text r a b result out offs diffs IV H Sa Sb; (destruct text as [|c t]; [exact H|]); [discriminate|].
  pose proof (mapping_loop_segs _ _ _ _ _ _ _ _ _ H) as (tl0 & sg0 & e0 & O0 & _). unfold small in *.
  cbn [mapping_loop mapping_loop_debug] in *. destruct (last_error (common_prefix_search (mf_trie f) (utf8 (c :: t)))) as [[v n]|].
  - destruct (str_to (c :: t) n) as [input| |] eqn:TO; [|discriminate|discriminate].
    destruct (str_from (c :: t) n) as [rest| |] eqn:FR; [|discriminate|discriminate].
    destruct (map_index (mf_mapping f) input) as [w| |] eqn:MI; [|discriminate|discriminate].
    pose proof (mapping_loop_segs _ _ _ _ _ _ _ _ _ H) as (tail & segs & e & O & T1 & T2 & R).
    destruct (str_from_inv _ _ _ FR) as (pre & ET & BL). rewrite ET, blen_app in Sa. rewrite O, !blen_app in Sb.
    rewrite checked_usize_ok by lia. replace (Z.to_N (Z.of_N (N.of_nat a) + Z.of_nat n)) with (N.of_nat (a + n)) by lia.
    replace (N.of_nat a + N.of_nat n)%N with (N.of_nat (a + n)) in H by lia.
    rewrite (record_fits r a b n (blen w) IV) by (unfold small; lia).
    destruct (record_any r a b n (blen w) IV) as (r1 & E1 & IV1 & _ & _); [unfold small; lia|unfold small; lia|]. rewrite E1 in *.
    apply (IH rest r1 (a + n) (b + blen w)); auto; rewrite ?O, ?blen_app; lia.
  - pose proof (mapping_loop_segs _ _ _ _ _ _ _ _ _ H) as (tail & segs & e & O & T1 & T2 & R). cbn [blen] in Sa. rewrite O, !blen_app in Sb. cbn [blen] in Sb.
    rewrite checked_usize_ok by lia. replace (Z.to_N (Z.of_N (N.of_nat a) + Z.of_nat (width c))) with (N.of_nat (a + width c)) by lia.
    replace (N.of_nat a + N.of_nat (width c))%N with (N.of_nat (a + width c)) in H by lia.
    assert (IV1 : inv r (a + width c) (b + width c)).
    { destruct IV as (D & U & P). split; [exact D|]. split; [revert U; apply Forall_impl; intros q; lia|lia]. }
    apply (IH t r (a + width c) (b + width c)); auto; rewrite ?O, ?blen_app; cbn [blen]; lia.
Qed.

Lemma mapping_fits f text out offs diffs : mapping_apply f text = Some (Ok (out, offs, diffs)) -> fits_isize (blen text) -> fits_isize (blen out) ->
  mapping_apply_debug f text = Some (Ok (out, offs, diffs)) /\ same_corrections offs diffs (blen out) (blen out).
Proof.
  intros H S1 S2. unfold mapping_apply, mapping_apply_debug in *. split.
  - apply (mapping_loop_fits f (length text) text [] 0 0 []); [exact inv_nil|exact H| |]; unfold small, fits_isize in *; cbn [blen]; lia.
  - destruct (mapping_loop_segs _ _ _ _ _ _ _ _ _ H) as (tail & segs & e & O & T1 & T2 & R). cbn [app] in O. subst tail.
    intros search x SC Hx. apply (correct_segs segs offs diffs e R); try rewrite T1; try rewrite T2; auto. lia.
Qed.

(** * Normalization *)

Lemma normalize_loop_fits form gs : forall result st start,
  record_all_debug (grapheme_segments form gs) (st, start) = Ok (record_all (grapheme_segments form gs) (st, start)) ->
  foldM (fun '(result, st, input_start) c =>
                   let replacement_text := form c in
                   do input_offset <- checked_usize (Z.of_N input_start + Z.of_nat (blen c));
                   do st <- record_diff_debug st input_offset (blen c) (blen replacement_text);
                   Ok (result ++ replacement_text, st, input_offset))
    gs (result, st, start) =
  Ok (result ++ flat_map form gs, fst (record_all (grapheme_segments form gs) (st, start)), snd (record_all (grapheme_segments form gs) (st, start))).
Proof.
  intros result st start H.
  assert (G : forall gs result st start s', record_all_debug (grapheme_segments form gs) (st, start) = Ok s' ->
    foldM (fun '(result, st, input_start) c =>
                   let replacement_text := form c in
                   do input_offset <- checked_usize (Z.of_N input_start + Z.of_nat (blen c));
                   do st <- record_diff_debug st input_offset (blen c) (blen replacement_text);
                   Ok (result ++ replacement_text, st, input_offset))
    gs (result, st, start) = Ok (result ++ flat_map form gs, fst s', snd s')).
  { clear. induction gs as [|g gs IH]; intros result st start s' H; cbn [foldM flat_map].
    - unfold record_all_debug in H. cbn in H. injection H as <-. rewrite app_nil_r. reflexivity.
    - unfold record_all_debug in H. cbn [grapheme_segments map foldM] in H. cbv zeta.
      destruct (checked_usize (Z.of_N start + Z.of_nat (blen g))) as [off| |]; cbn [bind] in *; [|discriminate|discriminate].
      destruct (record_diff_debug st off (blen g) (blen (form g))) as [st1| |]; cbn [bind] in *; [|discriminate|discriminate].
      rewrite app_assoc. apply IH. exact H. }
  apply G. exact H.
Qed.

Lemma normalize_fits graphemes form text out offs diffs : concat (graphemes text) = text ->
  normalize_apply graphemes form text = (out, offs, diffs) -> fits_isize (blen text) -> fits_isize (blen out) ->
  normalize_apply_debug graphemes form text = Ok (out, offs, diffs) /\ same_corrections offs diffs (blen out) (blen out).
Proof.
  intros C E S1 S2. unfold normalize_apply in E. rewrite normalize_loop in E. cbn [app] in E.
  destruct (segments_totals form (graphemes text)) as [T1 T2]. rewrite C in T1. set (segs := grapheme_segments form (graphemes text)) in *.
  assert (OUT : blen out = out_total segs) by (rewrite T2; congruence).
  assert (R : record_all_debug segs ([], [], 0%N) = Ok (record_all segs ([], [], 0%N))).
  { apply record_none; [rewrite T1; exact S1|rewrite <- OUT; exact S2]. }
  split.
  - unfold normalize_apply_debug. pose proof (normalize_loop_fits form (graphemes text) [] ([], []) 0%N R) as NL.
    match goal with |- bind ?q _ = _ => match type of NL with _ = ?v => replace q with v by (symmetry; exact NL) end end. cbn [bind app].
    f_equal. exact E.
  - injection E as E1 E2 E3.
    assert (RA : record_all segs ([], [], 0%N) = (offs, diffs, snd (record_all segs ([], [], 0%N)))).
    { rewrite <- E2, <- E3. rewrite <- !surjective_pairing. reflexivity. }
    intros search x SC Hx. rewrite OUT in *. apply (correct_segs segs offs diffs _ RA); auto; [rewrite T1; exact S1|]. lia.
Qed.

(** * Regular expressions *)

Lemma spans_fits r ps tail : forall st start s', record_all_debug (match_segments r ps tail) (st, N.of_nat start) = Ok s' ->
  foldM (fun st '(s, e) => do input_offset <- checked_usize (Z.of_nat s + Z.of_nat (e - s)); record_diff_debug st input_offset (e - s) (blen r))
    (match_spans start ps) st = Ok (fst s').
Proof.
  assert (SAME : forall st off n, record_diff_debug st off n n = Ok st).
  { intros st off n. unfold record_diff_debug. rewrite Z.sub_diag. reflexivity. }
  induction ps as [|[gap m] ps IH]; intros st start s' H; cbn [match_spans foldM].
  - unfold match_segments, record_all_debug in H. cbn [flat_map app foldM] in H.
    destruct (checked_usize _) as [off| |]; cbn [bind] in H; [|discriminate|discriminate]. rewrite SAME in H. cbn [bind] in H. injection H as <-. reflexivity.
  - unfold match_segments, record_all_debug in H. cbn [flat_map app foldM] in H.
    destruct (checked_usize (Z.of_N (N.of_nat start) + Z.of_nat (blen gap))) as [off| |] eqn:C1; cbn [bind] in H; [|discriminate|discriminate]. rewrite SAME in H. cbn [bind] in H.
    assert (EO : off = N.of_nat (start + blen gap)).
    { unfold checked_usize in C1. destruct (_ && _)%bool eqn:BB; [|discriminate]. injection C1 as <-. lia. }
    subst off. destruct (checked_usize (Z.of_N (N.of_nat (start + blen gap)) + Z.of_nat (blen m))) as [off| |] eqn:C2; cbn [bind] in H; [|discriminate|discriminate].
    assert (EO : off = N.of_nat (start + blen gap + blen m)).
    { unfold checked_usize in C2. destruct (_ && _)%bool eqn:BB; [|discriminate]. injection C2 as <-. lia. }
    replace (start + blen gap + blen m - (start + blen gap)) with (blen m) by lia. rewrite nat_N_Z in C2. rewrite C2. cbn [bind].
    destruct (record_diff_debug st off (blen m) (blen r)) as [st1| |]; cbn [bind] in *; [|discriminate|discriminate]. subst off. apply IH. exact H.
Qed.

Lemma regex_fits rx r ps tail : let text := whole ps tail in let segs := match_segments r ps tail in
  rx_find_iter rx text = match_spans 0 ps -> fits_isize (blen text) -> fits_isize (out_total segs) ->
  regex_apply_debug rx r text = regex_apply rx r text /\
  forall out offs diffs, regex_apply rx r text = Ok (out, offs, diffs) ->
  forall search x, search_contract search -> x <= out_total segs \/ fits_isize (blen text + x) -> out <> [] \/ out_total segs = 0 ->
    correct_offset_debug search (N.of_nat x) offs diffs (N.of_nat (blen out)) = correct_offset_with search (N.of_nat x) offs diffs (N.of_nat (blen out)).
Proof.
  intros text segs FI S1 S2. destruct (match_segments_totals r ps tail) as [T1 _]. fold segs text in T1.
  assert (R : record_all_debug segs ([], [], 0%N) = Ok (record_all segs ([], [], 0%N))).
  { apply record_none; [rewrite T1; exact S1|exact S2]. }
  assert (ST : fold_left (fun st '(s, e) => record_diff st (N.of_nat e) (e - s) (blen r)) (rx_find_iter rx text) ([], []) = fst (record_all segs ([], [], 0%N))).
  { rewrite FI. apply (record_spans r ps tail ([], []) 0). }
  split.
  - unfold regex_apply_debug, regex_apply. rewrite ST, FI. rewrite (spans_fits r ps tail ([], []) 0 _ R). cbn [bind]. reflexivity.
  - intros out offs diffs E search x SC Hx Hl. unfold regex_apply in E. rewrite ST in E.
    destruct (replace_all rx text r) as [t| |]; cbn [bind] in E; [|discriminate|discriminate].
    destruct (record_all segs ([], [], 0%N)) as [[o d] e] eqn:RA. cbn [fst snd] in E. injection E as <- <- <-.
    apply (correct_segs segs o d e RA); try rewrite T1; auto. destruct Hl as [Hl|Hl]; [left|auto].
    destruct t as [|c t]; [congruence|]. pose proof (blen_length (c :: t)). cbn [length] in *. lia.
Qed.

Lemma regex_fits_plain rx r ps tail out offs diffs : has_dollar r = false -> rx_find_iter rx (whole ps tail) = match_spans 0 ps ->
  regex_apply rx r (whole ps tail) = Ok (out, offs, diffs) -> fits_isize (blen (whole ps tail)) -> fits_isize (blen out) ->
  regex_apply_debug rx r (whole ps tail) = Ok (out, offs, diffs) /\ same_corrections offs diffs (blen out) (blen out).
Proof.
  intros ND FI E S1 S2. destruct (match_segments_totals r ps tail) as [_ T2].
  assert (OUT : out = with_replaced r ps tail).
  { unfold regex_apply, replace_all in E. rewrite FI in E. pose proof (replace_from_spec rx r ps ND [] tail) as RS. cbn [app blen] in RS. rewrite RS in E. cbn [bind] in E. congruence. }
  rewrite <- OUT in T2. destruct (regex_fits rx r ps tail FI S1) as [A B]; [rewrite T2; exact S2|]. split; [rewrite A; exact E|].
  intros search x SC Hx. apply (B out offs diffs E search x SC); [left; lia|]. rewrite T2. destruct out; [right; reflexivity|left; discriminate].
Qed.
