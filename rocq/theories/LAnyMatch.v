(** Offsets of the regular expression filter for any matches and any replacement. *)
From Coq Require Import List NArith ZArith Bool Lia ZifyBool ZifyNat ZifyN.
From Verif Require Import MBase MUtf8 MText MCodec MDict MCharDef MBuild MCharFilter SCharDef SCharFilter SAnyMatch LBase LUtf8 LMatrix LCharDef LOffset LCharFilter LFilterProps.
Import ListNotations.
Local Open Scope list_scope.

Lemma add_any r o d c : desc r -> upto r c -> o = N.of_nat c ->
  desc (add r o d) /\ upto (add r o d) c /\ (exists t, add r o d = (o, d) :: t) /\
  forall x, diff_at (add r o d) x = if Nat.ltb x c then diff_at r x else d.
Proof.
  intros D U ->. destruct r as [|[o' d'] t].
  - cbn [add]. split; [cbn; auto|]. split; [repeat constructor; cbn; lia|]. split; [eauto|]. intros x. cbn [diff_at].
    destruct (N.leb_spec (N.of_nat c) (N.of_nat x)); destruct (Nat.ltb_spec x c); try lia; reflexivity.
  - cbn [desc] in D. destruct D as [D1 D2]. pose proof (Forall_inv U) as U1. pose proof (Forall_inv_tail U) as U2. cbn [fst] in U1. cbn [add].
    destruct (N.eqb_spec o' (N.of_nat c)) as [->|NE].
    + split; [cbn [desc]; auto|]. split; [constructor; [cbn; lia|exact U2]|]. split; [eauto|]. intros x. cbn [diff_at].
      destruct (N.leb_spec (N.of_nat c) (N.of_nat x)); destruct (Nat.ltb_spec x c); try lia; reflexivity.
    + split; [|split; [|split; [eauto|]]].
      * cbn [desc]. split; [|auto]. constructor; [cbn; lia|]. revert D1. apply Forall_impl. intros q Hq. lia.
      * constructor; [cbn; lia|exact U].
      * intros x. cbn [diff_at]. destruct (N.leb_spec (N.of_nat c) (N.of_nat x)); destruct (Nat.ltb_spec x c); try lia; reflexivity.
Qed.

Lemma extra_any r a b i p : inv r a b -> p = (Z.of_nat a - Z.of_nat b)%Z -> forall n, (Z.of_nat (b + i + n) < 18446744073709551616)%Z ->
  exists r', fold_left (fun st k => add_offset_diff st (wrap_u 64 (Z.of_N (wrap_u 64 (Z.of_N (N.of_nat (a + i)) + - p)) + Z.of_nat k)) (p - Z.of_nat k - 1)%Z)
     (seq 0 n) (vecs r) = vecs r' /\
   desc r' /\ upto r' (b + i + n) /\ (0 < n -> exists t, r' = (N.of_nat (b + i + n - 1), p - Z.of_nat n)%Z :: t) /\
   (forall x, diff_at r' x = if Nat.ltb x (b + i) then diff_at r x else if Nat.eqb n 0 then diff_at r x else (p - Z.of_nat (Nat.min (x - (b + i)) (n - 1)) - 1)%Z).
Proof.
  intros (D & U & P) Hp. induction n as [|n IH]; intros Hn.
  - exists r. cbn [seq fold_left]. split; [reflexivity|]. split; [exact D|]. split; [revert U; apply Forall_impl; intros q; lia|].
    split; [lia|]. intros x. destruct (Nat.ltb x (b + i)); reflexivity.
  - destruct IH as (r' & E & D' & U' & Z1 & DA); [lia|]. rewrite seq_S, fold_left_app, E. cbn [fold_left Nat.add].
    rewrite (wrap64_id (Z.of_N (N.of_nat (a + i)) + - p)) by lia. rewrite wrap64_id by lia.
    replace (Z.to_N (Z.of_N (Z.to_N (Z.of_N (N.of_nat (a + i)) + - p)) + Z.of_nat n)) with (N.of_nat (b + i + n)) by lia. rewrite add_vecs.
    destruct (add_any r' (N.of_nat (b + i + n)) (p - Z.of_nat n - 1)%Z (b + i + n) D' U' eq_refl) as (D2 & U2 & (t & T) & DA2).
    eexists. split; [reflexivity|]. split; [exact D2|]. split; [revert U2; apply Forall_impl; intros q; lia|]. split.
    { intros _. exists t. rewrite T. f_equal. f_equal; lia. }
    intros x. rewrite DA2, DA. cbn [Nat.eqb]. destruct (Nat.ltb_spec x (b + i + n)); destruct (Nat.ltb_spec x (b + i)); try lia; try reflexivity.
    destruct (Nat.eqb_spec n 0); lia.
Qed.

Lemma record_any r a b i o : inv r a b -> small (a + i) -> small (b + o) ->
  exists r', record_diff (vecs r) (N.of_nat (a + i)) i o = vecs r' /\ inv r' (a + i) (b + o) /\
    (forall x, x < b -> diff_at r' x = diff_at r x) /\
    (forall x, b <= x -> x < b + o -> (Z.of_nat x + diff_at r' x = Z.of_nat a + Z.min (Z.of_nat (x - b)) (Z.of_nat i - 1))%Z).
Proof.
  intros IV Sa Sb. unfold small in *. pose proof IV as (D & U & P). unfold record_diff. rewrite last_diff.
  replace (match (match r with [] => None | (_, d) :: _ => Some d end) with Some d => d | None => 0%Z end)
    with (Z.of_nat a - Z.of_nat b)%Z by (rewrite <- P; destruct r as [|[? ?] ?]; reflexivity).
  destruct (Z.eqb_spec (Z.of_nat i - Z.of_nat o) 0) as [E|NE].
  - exists r. split; [reflexivity|]. split; [|split].
    + split; [exact D|]. split; [|lia]. revert U. apply Forall_impl. intros q Hq. lia.
    + reflexivity.
    + intros x H1 H2. rewrite (diff_at_upto r b x U H1), P. lia.
  - destruct (Z.ltb_spec 0 (Z.of_nat i - Z.of_nat o)) as [L|G].
    + rewrite wrap64_id by lia.
      replace (Z.to_N (Z.of_N (N.of_nat (a + i)) - (Z.of_nat i - Z.of_nat o) - (Z.of_nat a - Z.of_nat b))) with (N.of_nat (b + o)) by lia.
      replace (Z.of_nat a - Z.of_nat b + (Z.of_nat i - Z.of_nat o))%Z with (Z.of_nat (a + i) - Z.of_nat (b + o))%Z by lia.
      rewrite add_vecs. eexists. split; [reflexivity|].
      assert (U' : upto r (b + o)) by (revert U; apply Forall_impl; intros q; lia).
      destruct (add_any r _ (Z.of_nat (a + i) - Z.of_nat (b + o))%Z (b + o) D U' eq_refl) as (D2 & U2 & (t & T) & DA).
      split; [split; [exact D2|split; [exact U2|rewrite T; lia]]|]. split.
      * intros x H. rewrite DA. destruct (Nat.ltb_spec x (b + o)); [reflexivity|lia].
      * intros x H1 H2. rewrite DA. destruct (Nat.ltb_spec x (b + o)); [|lia]. rewrite (diff_at_upto r b x U H1), P. lia.
    + set (n := Z.abs_nat (Z.of_nat i - Z.of_nat o)). assert (Hn : o = i + n) by lia.
      destruct (extra_any r a b i (Z.of_nat a - Z.of_nat b) IV eq_refl n) as (r' & E & D' & U' & Z1 & DA); [lia|].
      exists r'. split; [exact E|]. destruct Z1 as [t T]; [lia|]. split; [|split].
      * split; [exact D'|]. split; [revert U'; apply Forall_impl; intros q; lia|]. rewrite T. lia.
      * intros x H. rewrite DA. destruct (Nat.ltb_spec x (b + i)); [reflexivity|lia].
      * intros x H1 H2. rewrite DA. destruct (Nat.ltb_spec x (b + i)).
        -- rewrite (diff_at_upto r b x U H1), P. lia.
        -- destruct (Nat.eqb_spec n 0); lia.
Qed.

Lemma record_sent segs : forall r a b, inv r a b -> small (a + in_total segs) -> small (b + out_total segs) ->
  exists r', record_all segs (vecs r, N.of_nat a) = (vecs r', N.of_nat (a + in_total segs)) /\
    inv r' (a + in_total segs) (b + out_total segs) /\
    forall x, (Z.of_nat x + diff_at r' x = if Nat.ltb x b then Z.of_nat x + diff_at r x else Z.of_nat a + sent_to segs (x - b))%Z.
Proof.
  induction segs as [|[i o] segs IH]; intros r a b IV Sa Sb; cbn [in_total out_total fold_right] in *.
  - exists r. rewrite !Nat.add_0_r. split; [reflexivity|]. split; [exact IV|]. intros x. cbn [sent_to].
    destruct (Nat.ltb_spec x b); [reflexivity|]. destruct IV as (D & U & P). rewrite (diff_at_upto r b x U) by lia. rewrite P. lia.
  - fold (in_total segs) in *. fold (out_total segs) in *. unfold small in *.
    destruct (record_any r a b i o IV) as (r1 & E1 & IV1 & B1 & C1); [unfold small; lia|unfold small; lia|].
    destruct (IH r1 (a + i) (b + o) IV1) as (r2 & E2 & IV2 & B2); [lia|lia|].
    exists r2. split; [|split].
    + unfold record_all. cbn [fold_left]. replace (N.of_nat a + N.of_nat i)%N with (N.of_nat (a + i)) by lia. rewrite E1.
      fold (record_all segs (vecs r1, N.of_nat (a + i))). rewrite E2. f_equal. f_equal. lia.
    + rewrite !Nat.add_assoc. exact IV2.
    + intros x. rewrite B2. cbn [sent_to]. destruct (Nat.ltb_spec x (b + o)) as [H|H].
      * destruct (Nat.ltb_spec x b) as [H2|H2]; [rewrite (B1 x H2); reflexivity|].
        rewrite (C1 x H2 H). destruct (Nat.ltb_spec (x - b) o); [reflexivity|lia].
      * destruct (Nat.ltb_spec x b) as [H2|H2]; [lia|]. destruct (Nat.ltb_spec (x - b) o); [lia|].
        replace (x - b - o) with (x - (b + o)) by lia. lia.
Qed.

Lemma correct_any search r x len : search_contract search -> desc r -> (Z.of_nat x < 18446744073709551616)%Z -> 0 < len ->
  correct_offset_with search (N.of_nat x) (fst (vecs r)) (snd (vecs r)) (N.of_nat len) = Ok (as_usize (Z.of_nat x + diff_at r x)).
Proof.
  intros SC D B Ln. unfold correct_offset_with, vecs, as_usize. cbn [fst snd].
  assert (NE : forall o d, In (o, d) r <-> exists i, nth_error (map fst (rev r)) i = Some o /\ nth_error (map snd (rev r)) i = Some d).
  { intros o d. rewrite in_rev. split.
    - intros I1. apply In_nth_error in I1. destruct I1 as [i E]. exists i. rewrite !nth_error_map, E. auto.
    - intros (i & E1 & E2). rewrite nth_error_map in E1, E2. destruct (nth_error (rev r) i) as [[o' d']|] eqn:E; [|discriminate].
      cbn in E1, E2. apply (nth_error_In _ i). congruence. }
  assert (EX : forall i o, nth_error (map fst (rev r)) i = Some o -> exists d, nth_error (map snd (rev r)) i = Some d).
  { intros i o E. rewrite nth_error_map in *. destruct (nth_error (rev r) i) as [[o' d']|]; [|discriminate]. cbn. eauto. }
  destruct r as [|p t] eqn:R; [cbn [rev map is_nil diff_at] in *; rewrite Z.add_0_r, Z.mod_small by lia; f_equal; lia|]. rewrite <- R in *.
  destruct (is_nil (map fst (rev r))) eqn:Nil.
  { exfalso. rewrite R in Nil. cbn [rev] in Nil. rewrite map_app in Nil. destruct (map fst (rev t)); discriminate. }
  pose proof (SC (map fst (rev r)) (N.of_nat x) (desc_strictly r D)) as C.
  assert (FIN : forall i o d, nth_error (map fst (rev r)) i = Some o -> nth_error (map snd (rev r)) i = Some d -> diff_at r x = d ->
     (do d0 <- idx (map snd (rev r)) i; Ok (wrap_u 64 (Z.of_N (N.of_nat x) + d0))) = Ok (Z.to_N ((Z.of_nat x + diff_at r x) mod 18446744073709551616))).
  { intros i o d E1 E2 E3. rewrite (idx_nth _ _ _ E2). cbn [bind]. rewrite nat_N_Z, <- E3. reflexivity. }
  destruct (search (map fst (rev r)) (N.of_nat x)) as [i|[|i]].
  - destruct (EX _ _ C) as [d E]. apply (FIN i (N.of_nat x) d C E). apply (diff_at_found r x (N.of_nat x) d D); [apply NE; eauto|lia|auto].
  - destruct C as (_ & _ & C).
    assert (D0 : diff_at r x = 0%Z).
    { apply diff_at_none. intros o d I1. apply NE in I1. destruct I1 as (i & E1 & _). apply (C i o); [lia|exact E1]. }
    destruct (N.leb_spec (N.of_nat len) 0) as [H|H]; [lia|]. rewrite D0, Z.add_0_r, Z.mod_small by lia. f_equal. lia.
  - destruct C as (L & C1 & C2). destruct (nth_error (map fst (rev r)) i) as [o|] eqn:E; [|apply nth_error_None in E; lia].
    destruct (EX _ _ E) as [d E2]. apply (FIN i o d E E2). pose proof (C1 i o ltac:(lia) E) as B1.
    apply (diff_at_found r x o d D); [apply NE; eauto|lia|].
    intros o' d' I1 L1. apply NE in I1. destruct I1 as (k & K1 & _).
    destruct (Nat.lt_trichotomy k i) as [H|[H|H]].
    + pose proof (desc_strictly r D k i o' o H K1 E). lia.
    + subst k. assert (o' = o) by congruence. lia.
    + pose proof (C2 k o' ltac:(lia) K1). lia.
Qed.

Lemma replace_each rx r ps : forall pre tail,
  replace_from rx (pre ++ whole ps tail) r (blen pre) (match_spans (blen pre) ps) =
  Ok (with_each ps (put_in (rx_expand rx) (pre ++ whole ps tail) r (match_spans (blen pre) ps)) tail).
Proof.
  induction ps as [|[gap m] ps IH]; intros pre tail; cbn [match_spans replace_from].
  - unfold whole. cbn [flat_map app]. apply str_from_app.
  - assert (W : pre ++ whole ((gap, m) :: ps) tail = (pre ++ gap ++ m) ++ whole ps tail) by (unfold whole; cbn [flat_map]; rewrite <- !app_assoc; reflexivity).
    assert (R1 : str_range (pre ++ whole ((gap, m) :: ps) tail) (blen pre) (blen pre + blen gap) = Ok gap).
    { unfold whole. cbn [flat_map]. rewrite <- !app_assoc. apply str_range_app. }
    rewrite R1. cbn [bind]. rewrite W. replace (blen pre + blen gap + blen m) with (blen (pre ++ gap ++ m)) by (rewrite !blen_app; lia).
    rewrite IH. cbn [bind put_in map with_each]. reflexivity.
Qed.

Lemma regex_any rx r ps tail : let text := whole ps tail in rx_find_iter rx text = match_spans 0 ps ->
  let out := with_each ps (put_in (rx_expand rx) text r (match_spans 0 ps)) tail in let segs := match_segments r ps tail in
  fits_isize (blen text) -> fits_isize (out_total segs) ->
  exists offs diffs, regex_apply rx r text = Ok (out, offs, diffs) /\
  forall search x, search_contract search -> out <> [] -> (N.of_nat x < 18446744073709551616)%N ->
    correct_offset_with search (N.of_nat x) offs diffs (N.of_nat (blen out)) = Ok (as_usize (sent_to segs x)).
Proof.
  intros text FI out segs S1 S2. unfold regex_apply, replace_all. rewrite FI.
  pose proof (replace_each rx r ps [] tail) as RF. cbn [app blen] in RF. unfold text at 1. rewrite RF. cbn [bind].
  rewrite (record_spans r ps tail). destruct (match_segments_totals r ps tail) as [T1 T2]. unfold fits_isize, segs, text in *.
  destruct (record_sent (match_segments r ps tail) [] 0 0) as (r' & E & IV & X).
  { unfold inv, upto. cbn. repeat constructor. } { unfold small. rewrite T1. lia. } { unfold small. lia. }
  change (vecs []) with (@nil N, @nil Z) in E. cbn [N.of_nat] in E. cbn [N.of_nat]. rewrite E. cbn [fst].
  exists (fst (vecs r')), (snd (vecs r')). split; [reflexivity|]. intros search x SC NE B.
  rewrite correct_any; [| exact SC | apply IV | lia |].
  - rewrite X. cbn [Nat.ltb Nat.leb]. rewrite Nat.sub_0_r. reflexivity.
  - destruct (blen out) eqn:Z1; [apply blen_zero in Z1; contradiction|lia].
Qed.

Lemma sent_at p : forall q y, sent_to (p ++ q) (out_total p + y) = (Z.of_nat (in_total p) + sent_to q y)%Z.
Proof.
  induction p as [|[i o] p IH]; intros q y; cbn [app sent_to in_total out_total fold_right Nat.add]; [lia|].
  fold (in_total p). fold (out_total p). destruct (Nat.ltb_spec (o + out_total p + y) o); [lia|].
  replace (o + out_total p + y - o) with (out_total p + y) by lia. rewrite IH. lia.
Qed.

Lemma sent_below segs : forall x, x < out_total segs -> (-1 <= sent_to segs x < Z.of_nat (in_total segs))%Z.
Proof.
  induction segs as [|[i o] segs IH]; intros x H; cbn [sent_to in_total out_total fold_right] in *; [lia|].
  fold (in_total segs) in *. fold (out_total segs) in *. destruct (Nat.ltb_spec x o); [lia|]. specialize (IH (x - o) ltac:(lia)). lia.
Qed.

Lemma sent_end segs x : sent_to segs x = Z.of_nat (in_total segs) <-> x = out_total segs.
Proof.
  destruct (Nat.lt_ge_cases x (out_total segs)) as [H|H].
  - pose proof (sent_below segs x H). lia.
  - pose proof (sent_at segs [] (x - out_total segs)) as E. rewrite app_nil_r in E. cbn [sent_to] in E.
    replace (out_total segs + (x - out_total segs)) with x in E by lia. lia.
Qed.

Lemma as_usize_eq z n : (-1 <= z < 18446744073709551615)%Z -> fits_isize n -> as_usize z = N.of_nat n <-> z = Z.of_nat n.
Proof.
  unfold as_usize, fits_isize. intros B F. destruct (Z.eq_dec z (-1)) as [->|NZ].
  - change (-1 mod 18446744073709551616)%Z with 18446744073709551615%Z. lia.
  - rewrite Z.mod_small by lia. lia.
Qed.

Lemma with_each_plain rx text r ps tail : has_dollar r = false -> forall s, with_each ps (put_in rx text r (match_spans s ps)) tail = with_replaced r ps tail.
Proof.
  intros ND. induction ps as [|[gap m] ps IH]; intros s; cbn [match_spans put_in map with_each]; [reflexivity|].
  unfold has_dollar in ND. rewrite ND. unfold put_in in IH. rewrite ND in IH. rewrite IH. unfold with_replaced. cbn [flat_map]. rewrite <- !app_assoc. reflexivity.
Qed.

Lemma regex_any_end rx r ps tail : let text := whole ps tail in rx_find_iter rx text = match_spans 0 ps ->
  let segs := match_segments r ps tail in
  forall out offs diffs, regex_apply rx r text = Ok (out, offs, diffs) -> out <> [] ->
  fits_isize (blen text) -> fits_isize (out_total segs) -> fits_isize (blen out) ->
  forall search, search_contract search ->
  (correct_offset_with search (N.of_nat (blen out)) offs diffs (N.of_nat (blen out)) = Ok (N.of_nat (blen text)) <-> blen out = out_total segs).
Proof.
  intros text FI segs out offs diffs E NE S1 S2 S3 search SC. destruct (regex_any rx r ps tail FI S1 S2) as (o & d & E' & H).
  fold text in E', H. rewrite E in E'. injection E' as EO -> ->. rewrite <- EO in H. unfold fits_isize in S3. rewrite (H search _ SC NE) by lia.
  destruct (match_segments_totals r ps tail) as [T1 T2]. fold segs in T1, T2 |- *. rewrite <- (sent_end segs). fold text in T1. rewrite T1.
  assert (G : forall (a b : N), Ok a = Ok b <-> a = b) by (intros; split; congruence). rewrite G. apply as_usize_eq; [|exact S1].
  unfold fits_isize in *. set (n := blen out) in *. destruct (Nat.lt_ge_cases n (out_total segs)) as [L|L].
  - pose proof (sent_below segs n L). lia.
  - pose proof (sent_at segs [] (n - out_total segs)) as E2. rewrite app_nil_r in E2. cbn [sent_to] in E2.
    replace (out_total segs + (n - out_total segs)) with n in E2 by lia. lia.
Qed.

Lemma out_nonempty r ps tail : r <> [] -> ps <> [] -> with_replaced r ps tail <> [].
Proof.
  intros R P. destruct ps as [|[gap m] ps]; [congruence|]. unfold with_replaced. cbn [flat_map]. intros H.
  apply app_eq_nil in H as [H _]. apply app_eq_nil in H as [H _]. apply app_eq_nil in H as [_ H]. contradiction.
Qed.

Lemma regex_any_iff rx r ps tail : has_dollar r = false -> let text := whole ps tail in rx_find_iter rx text = match_spans 0 ps ->
  let segs := match_segments r ps tail in
  forall out offs diffs, regex_apply rx r text = Ok (out, offs, diffs) -> fits_isize (blen text) -> fits_isize (blen out) ->
  forall search, search_contract search ->
  (points_back segs (fun x => correct_offset_with search (N.of_nat x) offs diffs (N.of_nat (blen out))) <->
   Forall (fun '(_, m) => m <> []) ps \/ r = []).
Proof.
  intros ND text FI segs out offs diffs E S1 S2 search SC.
  assert (OUT : out = with_replaced r ps tail).
  { unfold regex_apply, replace_all in E. rewrite FI in E. pose proof (replace_from_spec rx r ps ND [] tail) as RF. cbn [app blen] in RF.
    unfold text in E. rewrite RF in E. cbn [bind] in E. congruence. }
  destruct (match_segments_totals r ps tail) as [T1 T2]. split.
  - intros (f & F1 & F2 & _). assert (RN : r = [] \/ r <> []) by (destruct r; [left; reflexivity|right; discriminate]). destruct RN as [RN|RN]; [right; exact RN|left]. rewrite Forall_forall. intros [gap m] I1 ->.
    apply in_split in I1 as (p1 & p2 & P). assert (NE : out <> []). { rewrite OUT. apply out_nonempty; [exact RN|]. rewrite P. destruct p1; discriminate. }
    destruct (regex_any rx r ps tail FI S1) as (o & d & E' & H). { rewrite T2, <- OUT. exact S2. }
    rewrite (with_each_plain _ _ _ _ _ ND), <- OUT in E', H. fold text in E'. rewrite E in E'. injection E' as -> ->.
    set (p := flat_map (fun '(gap, m) => [(blen gap, blen gap); (blen m, blen r)]) p1 ++ [(blen gap, blen gap)]).
    set (q := flat_map (fun '(gap, m) => [(blen gap, blen gap); (blen m, blen r)]) p2 ++ [(blen tail, blen tail)]).
    assert (SG : segs = p ++ (0, blen r) :: q).
    { unfold segs, match_segments, p, q. rewrite P, flat_map_app. cbn [flat_map blen]. rewrite <- !app_assoc. reflexivity. }
    assert (LR : 0 < blen r) by (destruct (blen r) eqn:B; [apply blen_zero in B; contradiction|lia]).
    pose proof (F2 p ((0, blen r) :: q) SG LR) as FP.
    assert (OT : forall a b : list segment, out_total (a ++ b) = out_total a + out_total b /\ in_total (a ++ b) = in_total a + in_total b).
    { unfold out_total, in_total. intros a b. rewrite !fold_right_app. induction a as [|[i0 o0] a IHa]; cbn; [auto|]. destruct IHa. lia. }
    fold segs in T1, T2. assert (OO : out_total segs = out_total p + out_total ((0, blen r) :: q) /\ in_total segs = in_total p + in_total ((0, blen r) :: q)) by (rewrite SG; apply OT).
    destruct OO as [O1 O2].
    assert (OL : out_total p <= out_total segs) by lia.
    destruct (F1 _ OL) as [G _]. rewrite FP in G. rewrite (H search _ SC NE) in G by (unfold fits_isize in S2; rewrite T2, <- OUT in OL; lia).
    injection G as G. fold segs in G. rewrite SG in G. rewrite <- (Nat.add_0_r (out_total p)), sent_at in G. cbn [sent_to] in G.
    destruct (Nat.ltb_spec 0 (blen r)); [|lia].
    assert (FI2 : fits_isize (in_total p)) by (unfold fits_isize in *; fold text in T1; lia).
    apply as_usize_eq in G; [lia| |exact FI2]. unfold fits_isize in FI2. lia.
  - intros C. destruct (regex_points_back rx r ps tail ND FI C S1) as (_ & _ & o & d & E' & H). { rewrite <- OUT. exact S2. }
    fold text in E'. rewrite E in E'. injection E' as EO -> ->. rewrite EO. apply H. exact SC.
Qed.
