(** The mapping character filter. *)
From Coq Require Import List NArith ZArith Bool Lia Permutation Sorted ZifyBool ZifyNat ZifyN.
From Verif Require Import MBase MUtf8 MText MCodec MDict MCharDef MBuild MCharFilter SBuild SCharDef SCharFilter
  LBase LUtf8 LDict LBuild LMatrix LCharDef LOffset.
Import ListNotations.
Local Open Scope list_scope.

(** * The trie *)

Lemma str_leb_total a b : str_leb a b = false -> str_leb b a = true.
Proof.
  unfold str_leb. generalize (utf8 a) (utf8 b). clear. induction l as [|x l IH]; intros [|y l'] H; cbn in *; try discriminate; try reflexivity.
  destruct (N.ltb_spec x y), (N.ltb_spec y x); try discriminate; try lia; try reflexivity. auto.
Qed.

Lemma insert_sorted_str x l : StronglySorted (fun a b => str_leb a b = true) l ->
  StronglySorted (fun a b => str_leb a b = true) (insert_by str_leb x l).
Proof.
  induction 1 as [|y l S IH F]; cbn [insert_by]; [repeat constructor|]. destruct (str_leb x y) eqn:E.
  - constructor; [constructor; assumption|]. constructor; [exact E|]. revert F. apply Forall_impl. intros z H.
    unfold str_leb in *. eapply bytes_leb_trans; eassumption.
  - constructor; [exact IH|]. eapply Permutation_Forall; [apply insert_by_perm|]. constructor; [|exact F]. apply str_leb_total. exact E.
Qed.

Lemma stable_sort_sorted l : StronglySorted (fun a b => str_leb a b = true) (stable_sort str_leb l).
Proof. induction l as [|x l IH]; cbn [stable_sort]; [constructor|]. apply insert_sorted_str. exact IH. Qed.

Definition mapping_keyset (m : list (str * str)) : list (list N * N) :=
  map (fun '(value, key) => (utf8 key, wrap_u 32 (Z.of_N value))) (number_from 0 (stable_sort str_leb (map fst m))).

Lemma keyset_fst l : forall i, map fst (map (fun '(value, key) => (utf8 key, wrap_u 32 (Z.of_N value))) (number_from i l)) = map utf8 l.
Proof. induction l as [|x l IH]; intros i; cbn [number_from map fst]; [reflexivity|]. f_equal. apply IH. Qed.

Lemma mapping_keyset_keys m b : In b (map fst (mapping_keyset m)) <-> exists k v, In (k, v) m /\ b = utf8 k.
Proof.
  unfold mapping_keyset. rewrite keyset_fst, in_map_iff. split.
  - intros (k & <- & I1). eapply Permutation_in in I1; [|apply Permutation_sym, stable_sort_perm].
    apply in_map_iff in I1. destruct I1 as ([k' v] & <- & I1). exists k', v. auto.
  - intros (k & v & I1 & ->). exists k. split; [reflexivity|]. eapply Permutation_in; [apply stable_sort_perm|].
    apply in_map_iff. exists (k, v). auto.
Qed.

Lemma mapping_trie_input m : mapping_keys_ok m -> trie_input (mapping_keyset m).
Proof.
  intros (NE & ND & F & L). split; [|split].
  - intros E. apply (f_equal (map fst)) in E. unfold mapping_keyset in E. rewrite keyset_fst in E. destruct m as [|[k v] m]; [congruence|].
    assert (X : In k (stable_sort str_leb (map fst ((k, v) :: m)))) by (eapply Permutation_in; [apply stable_sort_perm|left; reflexivity]).
    destruct (stable_sort str_leb (map fst ((k, v) :: m))) as [|y ys]; [destruct X|cbn [map] in E; discriminate E].
  - apply Forall_forall. intros [b v] I1. split; [|split].
    + assert (I2 : In b (map fst (mapping_keyset m))) by (apply in_map_iff; exists (b, v); auto).
      apply mapping_keyset_keys in I2. destruct I2 as (k & w & I2 & ->). rewrite Forall_forall in F. destruct (F _ I2) as (K1 & K2 & K3).
      destruct k as [|c k]; [congruence|]. destruct (utf8_char_nonempty c) as (x & t & E). cbn. rewrite E. discriminate.
    + assert (I2 : In b (map fst (mapping_keyset m))) by (apply in_map_iff; exists (b, v); auto).
      apply mapping_keyset_keys in I2. destruct I2 as (k & w & I2 & ->). rewrite Forall_forall in F. destruct (F _ I2) as (K1 & K2 & K3).
      apply utf8_no_nul. exact K3.
    + unfold mapping_keyset in I1. apply in_map_iff in I1. destruct I1 as ([i k] & E & I1). injection E as _ <-.
      assert (B : (i < N.of_nat (length m))%N).
      { assert (G : forall {A} (l : list A) j i x, In (i, x) (number_from j l) -> (i < j + N.of_nat (length l))%N).
        { clear. induction l as [|y l IH]; intros j i x H; cbn [number_from] in H; [contradiction|]. cbn [length].
          destruct H as [E|H]; [injection E as -> _; lia|]. apply IH in H. lia. }
        apply G in I1. rewrite <- (Permutation_length (stable_sort_perm str_leb (map fst m))), map_length in I1. lia. }
      rewrite wrap_u_id; [lia|lia|]. change (2 ^ 32)%Z with 4294967296%Z. lia.
  - unfold mapping_keyset. rewrite keyset_fst.
    assert (ND' : NoDup (stable_sort str_leb (map fst m))) by (eapply Permutation_NoDup; [apply stable_sort_perm|exact ND]).
    assert (V : Forall valid_str (stable_sort str_leb (map fst m))).
    { eapply Permutation_Forall; [apply stable_sort_perm|]. apply Forall_map. revert F. apply Forall_impl. intros [k v] H. tauto. }
    pose proof (stable_sort_sorted (map fst m)) as S. revert S ND' V. generalize (stable_sort str_leb (map fst m)).
    induction 1 as [|x l S IH FS]; intros N V; cbn [map increasing]; [exact I|]. inversion N as [|? ? NI N']; subst.
    inversion V as [|? ? V1 V2]; subst. split; [|auto]. apply Forall_map. apply Forall_forall. intros y Iy. apply bytes_lt_leb.
    rewrite Forall_forall in FS, V2. split; [apply (FS y Iy)|]. intros E. apply utf8_inj in E; [|exact V1|auto]. subst. auto.
Qed.

Lemma exact_match_in da b : match exact_match_search da b with Some _ => In b (map fst da) | None => ~ In b (map fst da) end.
Proof.
  induction da as [|[k v] da IH]; cbn [exact_match_search map fst In]; [auto|].
  destruct (bytes_eqb k b) eqn:E.
  - left. apply bytes_eqb_spec. exact E.
  - destruct (exact_match_search da b); [auto|]. intros [H|H]; [|auto]. apply bytes_eqb_spec in H. congruence.
Qed.

Lemma last_error_snoc {A} (l : list A) x : last_error (l ++ [x]) = Some x.
Proof. unfold last_error. rewrite rev_app_distr. reflexivity. Qed.

Lemma longest_prefix da bs :
  match last_error (common_prefix_search da bs) with
  | Some (_, n) => 1 <= n <= length bs /\ In (firstn n bs) (map fst da) /\ forall k, n < k <= length bs -> ~ In (firstn k bs) (map fst da)
  | None => forall k, 1 <= k <= length bs -> ~ In (firstn k bs) (map fst da)
  end.
Proof.
  unfold common_prefix_search. set (g := fun n => match exact_match_search da (firstn n bs) with Some v => [(v, n)] | None => [] end).
  assert (G : forall m, match last_error (flat_map g (seq 1 m)) with
    | Some (_, n) => 1 <= n <= m /\ In (firstn n bs) (map fst da) /\ forall k, n < k <= m -> ~ In (firstn k bs) (map fst da)
    | None => forall k, 1 <= k <= m -> ~ In (firstn k bs) (map fst da) end).
  { induction m as [|m IH]; [cbn; intros k H; lia|]. rewrite seq_S, flat_map_app. cbn [flat_map]. rewrite app_nil_r.
    change (1 + m) with (S m). unfold g at 2. pose proof (exact_match_in da (firstn (S m) bs)) as X.
    destruct (exact_match_search da (firstn (S m) bs)) as [v|].
    - rewrite last_error_snoc. split; [lia|]. split; [exact X|]. intros k H. lia.
    - rewrite app_nil_r. destruct (last_error (flat_map g (seq 1 m))) as [[v n]|].
      + destruct IH as (A & B & C). split; [lia|]. split; [exact B|]. intros k H. destruct (Nat.eq_dec k (S m)) as [->|]; [exact X|]. apply C. lia.
      + intros k H. destruct (Nat.eq_dec k (S m)) as [->|]; [exact X|]. apply IH. lia. }
  apply G.
Qed.

(** * The loop *)

Lemma map_index_in m k v : NoDup (map fst m) -> In (k, v) m -> map_index m k = Ok v.
Proof.
  unfold map_index. intros ND I1. induction m as [|[k' v'] m IH]; [contradiction|]. cbn [find].
  cbn [map fst] in ND. inversion ND as [|? ? NI ND']; subst.
  destruct (str_eqb k' k) eqn:E.
  - apply str_eqb_spec in E. subst. destruct I1 as [I1|I1]; [congruence|]. exfalso. apply NI. apply in_map_iff. exists (k, v). auto.
  - destruct I1 as [I1|I1]; [injection I1 as -> ->; rewrite str_eqb_refl in E; discriminate|]. auto.
Qed.

Lemma app_prefix_length {A} (a b c d : list A) : a ++ b = c ++ d -> length a <= length c -> exists t, c = a ++ t /\ b = t ++ d.
Proof.
  revert c. induction a as [|x a IH]; intros c H L; [exists c; auto|]. destruct c as [|y c]; [cbn in L; lia|].
  cbn [app] in H. injection H as -> H. cbn [length] in L. destruct (IH c H ltac:(lia)) as (t & -> & ->). exists t. auto.
Qed.

Lemma mapping_loop_spec m f : mapping_keys_ok m -> f = MappingFilter m (mapping_keyset m) ->
  forall fuel text start result st, valid_str text -> length text <= fuel ->
  exists out segs st' e, mapping_loop fuel f text start result st = Some (Ok (result ++ out, fst st', snd st')) /\
    replaced m text out segs /\ record_all segs (st, start) = (st', e).
Proof.
  intros (_ & ND & FK & _) ->. rewrite Forall_forall in FK.
  induction fuel as [|fuel IH]; intros text start result st V L.
  - destruct text; [|cbn in L; lia]. exists [], [], st, start. cbn [mapping_loop]. rewrite app_nil_r. repeat split. constructor.
  - destruct text as [|c r]; [exists [], [], st, start; cbn [mapping_loop]; rewrite app_nil_r; repeat split; constructor|].
    cbn [mapping_loop mf_trie mf_mapping]. pose proof (longest_prefix (mapping_keyset m) (utf8 (c :: r))) as LP.
    destruct (last_error (common_prefix_search (mapping_keyset m) (utf8 (c :: r)))) as [[v n]|].
    + destruct LP as (Hn & I1 & MX). apply mapping_keyset_keys in I1. destruct I1 as (k & w & I1 & E).
      destruct (FK _ I1) as (K1 & K2 & K3).
      assert (UP : utf8 (c :: r) = utf8 k ++ skipn n (utf8 (c :: r))) by (rewrite <- E; symmetry; apply firstn_skipn).
      destruct (utf8_prefix k (c :: r) _ K2 V UP) as (t & ET & _).
      assert (EN : n = blen k).
      { rewrite <- blen_utf8, <- E, firstn_length. lia. }
      rewrite ET, EN, str_to_app, str_from_app. rewrite (map_index_in m k w ND I1).
      assert (Vt : valid_str t) by (rewrite ET in V; apply valid_str_app in V; tauto).
      assert (Lt : length t <= fuel).
      { assert (H : length (c :: r) = length k + length t) by (rewrite ET; apply app_length). cbn [length] in H, L. destruct k; [congruence|]. cbn [length] in H. lia. }
      destruct (IH t (start + N.of_nat (blen k))%N (result ++ w) (record_diff st (start + N.of_nat (blen k)) (blen k) (blen w)) Vt Lt)
        as (out & segs & st' & e & E1 & E2 & E3).
      exists (w ++ out), ((blen k, blen w) :: segs), st', e. split; [|split].
      * rewrite E1. rewrite <- app_assoc. reflexivity.
      * apply replaced_key; auto. intros k' v' t' I2 E4.
        destruct (Nat.le_gt_cases (length k') (length k)) as [|G]; [assumption|]. exfalso.
        destruct (app_prefix_length k t k' t' E4 ltac:(lia)) as (u & -> & ET').
        apply (MX (blen (k ++ u))).
        -- rewrite blen_utf8, ET, ET', app_assoc, (blen_app (k ++ u)). rewrite EN, blen_app. rewrite app_length in G.
           assert (1 <= blen u) by (pose proof (blen_length u); lia). lia.
        -- apply mapping_keyset_keys. exists (k ++ u), v'. split; [exact I2|]. rewrite ET, ET', app_assoc, utf8_app.
           rewrite <- blen_utf8. apply firstn_app_exact.
      * unfold record_all. cbn [fold_left]. exact E3.
    + inversion V as [|? ? Vc Vr]; subst. cbn [length] in L.
      destruct (IH r (start + N.of_nat (width c))%N (result ++ [c]) st Vr ltac:(lia)) as (out & segs & st' & e & E1 & E2 & E3).
      exists (c :: out), ((width c, width c) :: segs), st', e. split; [|split].
      * rewrite E1. rewrite <- app_assoc. reflexivity.
      * apply replaced_char; [|exact E2]. intros k v t I2 E4. destruct (FK _ I2) as (K1 & K2 & K3).
        apply (LP (blen k)).
        -- rewrite blen_utf8, E4, blen_app. pose proof (blen_length k). destruct k; [congruence|]. cbn [length] in *. lia.
        -- apply mapping_keyset_keys. exists k, v. split; [exact I2|]. rewrite E4, utf8_app, <- blen_utf8. apply firstn_app_exact.
      * unfold record_all. cbn [fold_left]. unfold record_diff at 2. rewrite Z.sub_diag. exact E3.
Qed.

Lemma replaced_totals m text out segs : replaced m text out segs -> in_total segs = blen text /\ out_total segs = blen out /\ Forall (fun s => 1 <= fst s) segs.
Proof.
  induction 1 as [|k v rest out segs I1 NE MX R (A & B & C)|c rest out segs NK R (A & B & C)]; cbn [in_total out_total fold_right].
  - auto.
  - fold (in_total segs) (out_total segs). rewrite !blen_app, A, B. repeat split. constructor; [|exact C]. cbn [fst].
    destruct k as [|c k]; [congruence|]. pose proof (blen_length (c :: k)). cbn [length] in *. lia.
  - fold (in_total segs) (out_total segs). cbn [blen]. rewrite A, B. repeat split. constructor; [|exact C]. apply width_pos.
Qed.

Lemma replaced_unique m text out segs : NoDup (map fst m) -> replaced m text out segs ->
  forall out' segs', replaced m text out' segs' -> out = out' /\ segs = segs'.
Proof.
  intros ND. induction 1 as [|k v rest out segs I1 NE MX R IH|c rest out segs NK R IH]; intros out' segs' R'.
  - inversion R' as [|k' v' rest' ? ? I1' NE' MX' R2 E|]; subst; [auto|]. destruct k'; [congruence|discriminate].
  - remember (k ++ rest) as text eqn:ET. destruct R' as [|k' v' rest' out' segs' I1' NE' MX' R'|c rest' out' segs' NK R'].
    + destruct k; [congruence|discriminate].
    + assert (L : length k' = length k).
      { pose proof (MX k' v' rest' I1' eq_refl). pose proof (MX' k v rest I1 ET). lia. }
      destruct (app_prefix_length k rest k' rest' (eq_sym ET) ltac:(lia)) as (t & -> & E2). rewrite app_length in L. destruct t; [|cbn in L; lia].
      rewrite app_nil_r in *. cbn [app] in E2. subst rest'.
      assert (v' = v).
      { pose proof (map_index_in m k v ND I1). pose proof (map_index_in m k v' ND I1'). congruence. }
      subst v'. destruct (IH _ _ R') as [-> ->]. auto.
    + exfalso. apply (NK k v rest I1). exact ET.
  - remember (c :: rest) as text eqn:ET. destruct R' as [|k' v' rest' out' segs' I1' NE' MX' R'|c' rest' out' segs' NK' R'].
    + discriminate.
    + exfalso. apply (NK k' v' rest' I1'). congruence.
    + injection ET as -> ->. destruct (IH _ _ R') as [-> ->]. auto.
Qed.

Lemma mapping_filter_spec m text : mapping_keys_ok m -> valid_str text ->
  exists f, mapping_new m = Ok f /\ trie_input (mf_trie f) /\
  exists out offs diffs segs, mapping_apply f text = Some (Ok (out, offs, diffs)) /\ replaced m text out segs.
Proof.
  intros K V. exists (MappingFilter m (mapping_keyset m)). split; [reflexivity|]. split; [apply mapping_trie_input; exact K|].
  destruct (mapping_loop_spec m _ K eq_refl (length text) text 0%N [] ([], []) V (le_n _)) as (out & segs & st' & e & E1 & E2 & E3).
  exists out, (fst st'), (snd st'), segs. split; [exact E1|exact E2].
Qed.

Lemma mapping_offsets m text f out offs diffs segs : mapping_keys_ok m -> valid_str text -> mapping_new m = Ok f ->
  mapping_apply f text = Some (Ok (out, offs, diffs)) -> replaced m text out segs -> fits_isize (blen text) -> fits_isize (blen out) ->
  forall search x, search_contract search -> x <= blen out ->
    correct_offset_with search (N.of_nat x) offs diffs (N.of_nat (blen out)) = Ok (N.of_nat (source_of segs x)).
Proof.
  intros K V NF AP RP S1 S2 search x SC Hx.
  assert (EF : Ok (MappingFilter m (mapping_keyset m)) = Ok f) by exact NF. assert (EF' : f = MappingFilter m (mapping_keyset m)) by congruence. subst f.
  destruct (mapping_loop_spec m _ K eq_refl (length text) text 0%N [] ([], []) V (le_n _)) as (out1 & segs1 & st' & e & E1 & E2 & E3).
  unfold mapping_apply in AP. rewrite E1 in AP. injection AP as <- <- <-. cbn [app] in *.
  destruct (replaced_unique m text _ _ (proj1 (proj2 K)) RP _ _ E2) as [_ ->].
  destruct (replaced_totals _ _ _ _ E2) as (T1 & T2 & T3). rewrite <- T2. unfold fits_isize in *.
  eapply record_source; [exact T3| | | |exact SC|].
  - unfold small. lia.
  - unfold small. lia.
  - unfold small. lia.
  - destruct st' as [a b]. exact E3.
Qed.
