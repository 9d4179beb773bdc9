(** The parts common to both dictionary builders: sorting, the entry map, the key set, the detail buffers. *)
From Coq Require Import List NArith ZArith Bool Lia ZifyBool ZifyNat ZifyN Permutation.
From Verif Require Import MBase MUtf8 MText MCodec MDict MBincode MTokenizer MDetails MBuild STok SBuild LBase LUtf8 LCodec LDict.
Import ListNotations.
Local Open Scope list_scope.

(** ** Order on byte strings *)

Lemma bytes_leb_refl a : bytes_leb a a = true.
Proof. induction a as [|x a IH]; [reflexivity|]. cbn. rewrite N.ltb_irrefl. exact IH. Qed.

Lemma bytes_leb_antisym a : forall b, bytes_leb a b = true -> bytes_leb b a = true -> a = b.
Proof.
  induction a as [|x a IH]; intros [|y b] H1 H2; cbn in *; try discriminate; [reflexivity|].
  destruct (N.ltb_spec x y), (N.ltb_spec y x); try discriminate; try lia.
  assert (x = y) by lia. subst. f_equal. auto.
Qed.

Lemma bytes_leb_total a : forall b, bytes_leb a b = false -> bytes_leb b a = true.
Proof.
  induction a as [|x a IH]; intros [|y b] H; cbn in *; try discriminate; [reflexivity|].
  destruct (N.ltb_spec x y), (N.ltb_spec y x); try discriminate; try lia; auto.
Qed.

Lemma bytes_leb_trans a : forall b c, bytes_leb a b = true -> bytes_leb b c = true -> bytes_leb a c = true.
Proof.
  induction a as [|x a IH]; intros [|y b] [|z c] H1 H2; cbn in *; try discriminate; try reflexivity.
  destruct (N.ltb_spec x y), (N.ltb_spec y x), (N.ltb_spec y z), (N.ltb_spec z y), (N.ltb_spec x z), (N.ltb_spec z x);
    try discriminate; try lia; try reflexivity. eauto.
Qed.

Lemma bytes_lt_leb a : forall b, bytes_lt a b <-> bytes_leb a b = true /\ a <> b.
Proof.
  induction a as [|x a IH]; intros [|y b]; cbn.
  - split; [tauto|intros [_ H]; congruence].
  - split; [intros _; split; [reflexivity|discriminate]|auto].
  - split; [tauto|intros [H _]; discriminate].
  - rewrite IH. destruct (N.ltb_spec x y), (N.ltb_spec y x).
    + lia.
    + split; [intros _; split; [reflexivity|intros E; injection E; lia]|intros _; left; lia].
    + split; [intros [L|[E _]]; lia|intros [E _]; discriminate].
    + assert (x = y) by lia. subst y. split.
      * intros [L|(_ & L & N)]; [lia|]. split; [exact L|congruence].
      * intros [L N]. right. split; [reflexivity|]. split; [exact L|congruence].
Qed.

(** ** Stable sorting *)

Section Sort.
Context {A : Type} (leb : A -> A -> bool).

Lemma insert_by_perm x l : Permutation (x :: l) (insert_by leb x l).
Proof.
  induction l as [|y l IH]; cbn; [reflexivity|]. destruct (leb x y); [reflexivity|].
  rewrite perm_swap. apply perm_skip. exact IH.
Qed.

Lemma stable_sort_perm l : Permutation l (stable_sort leb l).
Proof. induction l as [|x l IH]; cbn; [reflexivity|]. rewrite <- insert_by_perm. apply perm_skip. exact IH. Qed.

Lemma filter_insert_out p x l : p x = false -> filter p (insert_by leb x l) = filter p l.
Proof.
  intros P. induction l as [|y l IH]; cbn; [rewrite P; reflexivity|].
  destruct (leb x y); cbn; [rewrite P; reflexivity|]. rewrite IH. reflexivity.
Qed.

Lemma filter_insert_in p x l : p x = true -> (forall y, p y = true -> leb x y = true) ->
  filter p (insert_by leb x l) = x :: filter p l.
Proof.
  intros P H. induction l as [|y l IH]; cbn; [rewrite P; reflexivity|].
  destruct (leb x y) eqn:L; cbn; [rewrite P; reflexivity|].
  destruct (p y) eqn:Y; [rewrite (H y Y) in L; discriminate|]. exact IH.
Qed.

Lemma stable_sort_filter p l : (forall x y, p x = true -> p y = true -> leb x y = true) ->
  filter p (stable_sort leb l) = filter p l.
Proof.
  intros H. induction l as [|x l IH]; cbn; [reflexivity|].
  destruct (p x) eqn:P.
  - rewrite filter_insert_in; [rewrite IH; reflexivity|exact P|]. intros y Y. apply H; assumption.
  - rewrite filter_insert_out by exact P. exact IH.
Qed.

End Sort.

Lemma filter_map {A B} (f : A -> B) p l : filter p (map f l) = map f (filter (fun x => p (f x)) l).
Proof. induction l as [|x l IH]; cbn; [reflexivity|]. destruct (p (f x)); cbn; rewrite IH; reflexivity. Qed.

(* rows sorted by a key *)
Definition sorted_rows (key : row -> str) (rows : list row) : list row :=
  map snd (stable_sort (fun a b => str_leb (fst a) (fst b)) (map (fun r => (key r, r)) rows)).

Lemma sorted_rows_perm key rows : Permutation rows (sorted_rows key rows).
Proof.
  unfold sorted_rows. rewrite <- (map_id rows) at 1. rewrite <- stable_sort_perm, map_map. cbn. reflexivity.
Qed.

Lemma insert_by_forall {A} leb (P : A -> Prop) x l : P x -> Forall P l -> Forall P (insert_by leb x l).
Proof. intros Px F. eapply Permutation_Forall; [apply insert_by_perm|]. constructor; assumption. Qed.

Lemma sorted_rows_filter key rows p s : (forall r, p r = true -> key r = s) ->
  filter p (sorted_rows key rows) = filter p rows.
Proof.
  intros H. unfold sorted_rows. rewrite filter_map.
  set (q := fun x : str * row => p (snd x) && str_eqb (fst x) s).
  assert (Q : forall l, Forall (fun x => fst x = key (snd x)) l -> filter (fun x => p (snd x)) l = filter q l).
  { intros l F. apply filter_ext_in. intros x I. rewrite Forall_forall in F. unfold q.
    destruct (p (snd x)) eqn:P; [|reflexivity]. rewrite (F x I), (H _ P), str_eqb_refl. reflexivity. }
  assert (F1 : Forall (fun x : str * row => fst x = key (snd x)) (map (fun r => (key r, r)) rows))
    by (rewrite Forall_map; apply Forall_forall; reflexivity).
  assert (F2 : Forall (fun x => fst x = key (snd x))
                 (stable_sort (fun a b => str_leb (fst a) (fst b)) (map (fun r => (key r, r)) rows)))
    by (eapply Permutation_Forall; [apply stable_sort_perm|exact F1]).
  rewrite (Q _ F2), stable_sort_filter, <- (Q _ F1).
  - rewrite filter_map, map_map. cbn. apply map_id.
  - intros x y X Y. unfold q in X, Y. apply andb_true_iff in X, Y. destruct X as [_ X], Y as [_ Y].
    apply str_eqb_spec in X, Y. rewrite X, Y. apply bytes_leb_refl.
Qed.

(** ** The entry map *)

Definition push_all (ps : list (str * word_entry)) (m : entry_map) : entry_map :=
  fold_left (fun m '(k, w) => map_push k w m) ps m.

(* keys valid and strictly increasing *)
Fixpoint map_sorted (m : entry_map) : Prop :=
  match m with
  | [] => True
  | (k, _) :: r => valid_str k /\ Forall (fun x => bytes_lt (utf8 k) (utf8 (fst x))) r /\ map_sorted r
  end.

Lemma bytes_lt_trans a b c : bytes_lt a b -> bytes_lt b c -> bytes_lt a c.
Proof.
  rewrite !bytes_lt_leb. intros [L1 N1] [L2 N2]. split; [eapply bytes_leb_trans; eassumption|].
  intros ->. apply N1. apply bytes_leb_antisym; assumption.
Qed.

Lemma map_push_forall (P : str * list word_entry -> Prop) k e m :
  P (k, [e]) -> (forall es, P (k, es) -> P (k, es ++ [e])) -> Forall P m -> Forall P (map_push k e m).
Proof.
  intros H1 H2 F. induction F as [|[k' es] r Px F IH]; cbn [map_push]; [constructor; auto|].
  destruct (str_eqb k k') eqn:K; [apply str_eqb_spec in K; subst; constructor; auto|].
  destruct (str_leb k k'); repeat constructor; auto.
Qed.

Lemma map_push_sorted k e m : valid_str k -> map_sorted m -> map_sorted (map_push k e m).
Proof.
  intros V. induction m as [|[k' es] r IH]; cbn [map_push map_sorted]; [repeat split; auto|].
  intros (V' & F & Sr). destruct (str_eqb k k') eqn:K; [cbn; auto|].
  assert (NE : utf8 k <> utf8 k').
  { intros E. apply utf8_inj in E; auto. subst. rewrite str_eqb_refl in K. discriminate. }
  destruct (str_leb k k') eqn:L.
  - cbn [map_sorted]. repeat split; auto. constructor.
    + apply bytes_lt_leb. auto.
    + eapply Forall_impl; [|exact F]. intros x Hx. eapply bytes_lt_trans; [|exact Hx]. apply bytes_lt_leb. auto.
  - cbn [map_sorted]. repeat split; auto. apply map_push_forall; [|intros es' H; exact H|exact F].
    cbn [fst]. apply bytes_lt_leb. split; [apply bytes_leb_total; exact L|congruence].
Qed.

Lemma entries_of_lt tbl k : Forall (fun x => bytes_lt (utf8 k) (utf8 (fst x))) tbl -> entries_of tbl k = [].
Proof.
  induction 1 as [|[k' es] r L F IH]; cbn [entries_of]; [reflexivity|].
  destruct (str_eqb k' k) eqn:K; [|exact IH]. apply str_eqb_spec in K. subst.
  apply bytes_lt_leb in L. cbn [fst] in L. destruct L as [_ L]. congruence.
Qed.

Lemma entries_of_push k e m s : valid_str k -> map_sorted m ->
  entries_of (map_push k e m) s = if str_eqb k s then entries_of m s ++ [e] else entries_of m s.
Proof.
  intros V. induction m as [|[k' es] r IH]; cbn [map_push map_sorted].
  - intros _. cbn [entries_of]. destruct (str_eqb k s); reflexivity.
  - intros (V' & F & Sr). destruct (str_eqb k k') eqn:K.
    + apply str_eqb_spec in K. subst k'. cbn [entries_of]. destruct (str_eqb k s); reflexivity.
    + destruct (str_leb k k') eqn:L.
      * cbn [entries_of]. destruct (str_eqb k s) eqn:KS; [|reflexivity].
        apply str_eqb_spec in KS. subst s.
        destruct (str_eqb k' k) eqn:K'; [apply str_eqb_spec in K'; subst; rewrite str_eqb_refl in K; discriminate|].
        rewrite entries_of_lt; [reflexivity|].
        eapply Forall_impl; [|exact F]. intros x Hx. eapply bytes_lt_trans; [|exact Hx]. apply bytes_lt_leb. split; [exact L|].
        intros E. apply utf8_inj in E; auto. subst. rewrite str_eqb_refl in K. discriminate.
      * cbn [entries_of]. destruct (str_eqb k' s) eqn:KS; [|apply IH; exact Sr].
        destruct (str_eqb k s) eqn:K2; [|reflexivity]. apply str_eqb_spec in KS, K2. subst. rewrite str_eqb_refl in K. discriminate.
Qed.

Lemma push_all_sorted ps : forall m, Forall (fun p => valid_str (fst p)) ps -> map_sorted m -> map_sorted (push_all ps m).
Proof.
  induction ps as [|[k w] ps IH]; intros m F H; cbn; [exact H|].
  inversion F; subst. apply IH; [assumption|]. apply map_push_sorted; assumption.
Qed.

Lemma entries_of_push_all ps s : forall m, Forall (fun p => valid_str (fst p)) ps -> map_sorted m ->
  entries_of (push_all ps m) s = entries_of m s ++ map snd (filter (fun p => str_eqb (fst p) s) ps).
Proof.
  induction ps as [|[k w] ps IH]; intros m F H; cbn; [rewrite app_nil_r; reflexivity|].
  inversion F as [|? ? V F']; subst. cbn in V.
  fold (push_all ps (map_push k w m)). rewrite IH; [|assumption|apply map_push_sorted; assumption].
  rewrite entries_of_push by assumption. destruct (str_eqb k s); cbn; [rewrite <- app_assoc|]; reflexivity.
Qed.

Lemma push_count k e m : length (flat_map snd (map_push k e m)) = S (length (flat_map snd m)).
Proof.
  induction m as [|[k' es] r IH]; cbn [map_push]; [reflexivity|].
  destruct (str_eqb k k'); [cbn; rewrite !app_length; cbn; lia|].
  destruct (str_leb k k'); cbn; [reflexivity|]. rewrite !app_length, IH. lia.
Qed.

Lemma push_all_count ps : forall m, length (flat_map snd (push_all ps m)) = length (flat_map snd m) + length ps.
Proof.
  induction ps as [|[k w] ps IH]; intros m; cbn; [lia|]. fold (push_all ps (map_push k w m)). rewrite IH, push_count. lia.
Qed.

Lemma push_all_entries (P : word_entry -> Prop) ps : forall m, Forall (fun p => P (snd p)) ps ->
  Forall P (flat_map snd m) -> Forall P (flat_map snd (push_all ps m)).
Proof.
  induction ps as [|[k w] ps IH]; intros m F H; cbn; [exact H|]. inversion F as [|? ? Pw F']; subst. cbn in Pw. apply IH; [assumption|].
  clear IH. induction m as [|[k' es] r IH]; cbn [map_push flat_map snd] in *; [repeat constructor; assumption|].
  rewrite Forall_app in H. destruct H as [H1 H2].
  destruct (str_eqb k k'); cbn; rewrite ?Forall_app; [repeat split; auto; repeat constructor; auto|].
  destruct (str_leb k k'); cbn; rewrite ?Forall_app; [constructor; [assumption|]; rewrite Forall_app; auto|]. auto.
Qed.

(* keys of the map are keys that were pushed *)
Lemma push_all_keys (P : str -> Prop) ps : forall m, Forall (fun p => P (fst p)) ps ->
  Forall (fun x => P (fst x)) m -> Forall (fun x => P (fst x)) (push_all ps m).
Proof.
  induction ps as [|[k w] ps IH]; intros m F H; cbn; [exact H|]. inversion F; subst. apply IH; [assumption|].
  apply map_push_forall; cbn; auto.
Qed.

(** ** The key set *)

Lemma wrap_u_small b n : (0 <= b)%Z -> (Z.of_N n < 2 ^ b)%Z -> wrap_u b (Z.of_N n) = n.
Proof. intros Hb H. unfold wrap_u. rewrite Z.mod_small by lia. lia. Qed.

Lemma mapM_seq_nth {B} (f : nat -> res B) (l : list B) : forall a,
  (forall i x, nth_error l i = Some x -> f (a + i)%nat = Ok x) -> mapM f (seq a (length l)) = Ok l.
Proof.
  induction l as [|x l IH]; intros a H; cbn [length seq mapM]; [reflexivity|].
  rewrite <- (Nat.add_0_r a) at 1. rewrite (H 0%nat x eq_refl). cbn [bind].
  rewrite IH; [reflexivity|]. intros i y E. rewrite <- (H (S i) y E). f_equal. lia.
Qed.

Definition entry_fits (sys : bool) (e : word_entry) : Prop :=
  is_u32 (wid (we_id e)) /\ wsys (we_id e) = sys /\ is_i16 (we_cost e) /\ is_u16 (we_left e) /\ is_u16 (we_right e).

Lemma we_round_trip' e sys rest : entry_fits sys e -> we_deserialize (we_serialize e ++ rest) sys = Ok e.
Proof.
  intros (H1 & H2 & H3 & H4 & H5). rewrite we_round_trip by assumption. destruct e as [[i s] c l r]; cbn in *. subst. reflexivity.
Qed.

Lemma flat_map_const_length {A B} (f : A -> list B) n l : (forall x, length (f x) = n) -> length (flat_map f l) = n * length l.
Proof. intros H. induction l as [|x l IH]; cbn; [lia|]. rewrite app_length, IH, H. lia. Qed.

Lemma skipn_flat_map_const {A B} (f : A -> list B) n l rest i : (forall x, length (f x) = n) -> i <= length l ->
  skipn (n * i) (flat_map f l ++ rest) = flat_map f (skipn i l) ++ rest.
Proof.
  intros H L. rewrite <- (firstn_skipn i l) at 1. rewrite flat_map_app, <- app_assoc.
  replace (n * i) with (length (flat_map f (firstn i l))); [apply skipn_app_exact|].
  rewrite (flat_map_const_length _ n) by exact H. rewrite firstn_length_le by exact L. reflexivity.
Qed.

Lemma nth_skipn_cons {A} (l : list A) : forall i x, nth_error l i = Some x -> skipn i l = x :: skipn (S i) l.
Proof. induction l as [|y l IH]; intros [|i] x E; cbn in *; try discriminate; [congruence|]. apply IH. exact E. Qed.

(* a count of 32 or more runs into the bits of the position *)
Lemma pack_len_any id len : N.land (N.lor (N.shiftl id 5) len) 31 = (len mod 32)%N.
Proof.
  rewrite N.land_lor_distr_l. change 31%N with (N.ones 5). rewrite !N.land_ones, N.shiftl_mul_pow2, N.mod_mul by discriminate.
  reflexivity.
Qed.
Lemma pack_id_any id len : N.shiftr (N.lor (N.shiftl id 5) len) 5 = (id + N.ldiff (len / 32) id)%N.
Proof.
  rewrite N.shiftr_lor, N.shiftr_shiftl_l, N.shiftl_0_r by lia.
  rewrite (N.shiftr_div_pow2 len). change (2 ^ 5)%N with 32%N.
  rewrite N.add_nocarry_lxor.
  - apply N.bits_inj. intros n. rewrite N.lor_spec, N.lxor_spec, N.ldiff_spec. destruct (N.testbit id n), (N.testbit (len / 32) n); reflexivity.
  - apply N.bits_inj. intros n. rewrite N.land_spec, N.ldiff_spec, N.bits_0. destruct (N.testbit id n), (N.testbit (len / 32) n); reflexivity.
Qed.
Lemma ldiff_le a b : (N.ldiff a b <= a)%N.
Proof. apply N.ldiff_le. apply N.bits_inj. intros n. rewrite !N.ldiff_spec, N.bits_0. destruct (N.testbit a n), (N.testbit b n); reflexivity. Qed.
Lemma pack_value_any id len : (N.lor (N.shiftl id 5) len <= 32 * id + len)%N.
Proof.
  pose proof (N.div_mod (N.lor (N.shiftl id 5) len) 32 ltac:(lia)) as E.
  pose proof (pack_id_any id len) as P. pose proof (pack_len_any id len) as Q.
  change 31%N with (N.ones 5) in Q. rewrite N.land_ones in Q. rewrite N.shiftr_div_pow2 in P. change (2 ^ 5)%N with 32%N in *.
  pose proof (ldiff_le (len / 32) id). pose proof (N.div_mod len 32 ltac:(lia)). lia.
Qed.

(* what is left of the entries of a surface that starts at position id *)
Definition kept {A} (id : nat) (es : list A) : list A :=
  firstn (length es mod 32) (skipn (N.to_nat (N.ldiff (N.of_nat (length es / 32)) (N.of_nat id))) es).

Lemma kept_five {A} id (es : list A) : five_bits es (kept id es).
Proof.
  exists (N.to_nat (N.ldiff (N.of_nat (length es / 32)) (N.of_nat id))). split; [|reflexivity].
  pose proof (ldiff_le (N.of_nat (length es / 32)) (N.of_nat id)). lia.
Qed.

Lemma five_bits_all {A} (l l' : list A) : five_bits l l' -> length l <= 31 -> l' = l.
Proof.
  intros (j & J & ->) L. rewrite Nat.div_small in J by lia. assert (j = 0) by lia. subst j. rewrite Nat.mod_small by lia. apply firstn_all.
Qed.

Lemma five_bits_length {A} (l l' : list A) : five_bits l l' -> length l' = length l mod 32.
Proof.
  intros (j & J & ->). rewrite firstn_length, skipn_length. pose proof (Nat.div_mod (length l) 32 ltac:(lia)). lia.
Qed.

Lemma five_bits_forall2 {A B} (R : A -> B -> Prop) l1 l2 l2' : Forall2 R l1 l2 -> five_bits l2 l2' ->
  exists l1', five_bits l1 l1' /\ Forall2 R l1' l2'.
Proof.
  intros F (j & J & ->). exists (firstn (length l1 mod 32) (skipn j l1)). assert (L : length l1 = length l2) by (clear - F; induction F; cbn; congruence). rewrite <- L in *.
  split; [exists j; auto|]. generalize (length l1 mod 32) as n. clear J L. revert j. induction F as [|x y l1 l2 H F IH]; intros [|j] n; cbn [skipn].
  - rewrite !firstn_nil. constructor.
  - rewrite !firstn_nil. constructor.
  - destruct n; [constructor|]. cbn [firstn]. constructor; [exact H|]. apply (IH 0 n).
  - apply IH.
Qed.

Lemma five_bits_in {A} (l l' : list A) x : five_bits l l' -> In x l' -> In x l.
Proof.
  intros (j & _ & ->) I. rewrite <- (firstn_skipn j l). apply in_app_iff. right.
  rewrite <- (firstn_skipn (length l mod 32) (skipn j l)). apply in_app_iff. left. exact I.
Qed.

Lemma found_of_in {A B} (R : A -> B -> Prop) rows es e : found_of R rows es -> In e es -> exists r, In r rows /\ R r e.
Proof.
  intros (left & FB & FF) I. assert (X : exists r, In r left /\ R r e).
  { clear FB. induction FF as [|a b l1 l2 H F IH]; [destruct I|]. destruct I as [<-|I]; [exists a; split; [left; reflexivity|exact H]|].
    destruct (IH I) as (r & I1 & H1). exists r. split; [right; exact I1|exact H1]. }
  destruct X as (r & I1 & H1). exists r. split; [exact (five_bits_in _ _ _ FB I1)|exact H1].
Qed.

Lemma limits_room o rows : sys_limits o rows -> sys_room o rows.
Proof. intros []. constructor; assumption. Qed.
Lemma user_limits_room o rows : user_limits o rows -> user_room o rows.
Proof. intros []. constructor; assumption. Qed.

(* the entries behind one packed value *)
Lemma pd_entries_at da sys pre es post : Forall (entry_fits sys) es ->
  pd_entries (PrefixDict da (flat_map we_serialize (pre ++ es ++ post)) sys)
    (N.lor (N.shiftl (N.of_nat (length pre)) 5) (N.of_nat (length es))) = Ok (kept (length pre) es).
Proof.
  intros F. unfold pd_entries. rewrite pack_len_any, pack_id_any. cbn [pd_vals pd_system].
  assert (LW : forall x, length (we_serialize x) = 10) by exact we_serialize_length.
  replace (N.of_nat (length es) / 32)%N with (N.of_nat (length es / 32)) by (rewrite Nat2N.inj_div; reflexivity).
  replace (N.of_nat (length es) mod 32)%N with (N.of_nat (length es mod 32)) by (rewrite Nat2N.inj_mod; reflexivity).
  unfold kept. set (j := N.to_nat (N.ldiff (N.of_nat (length es / 32)) (N.of_nat (length pre)))).
  assert (J : j <= length es / 32) by (subst j; pose proof (ldiff_le (N.of_nat (length es / 32)) (N.of_nat (length pre))); lia).
  pose proof (Nat.div_mod (length es) 32 ltac:(lia)) as DM.
  replace (N.to_nat (N.of_nat (length pre) + N.ldiff (N.of_nat (length es / 32)) (N.of_nat (length pre)))) with (length pre + j) by (subst j; lia).
  rewrite Nat2N.id. set (n := length es mod 32) in *.
  set (ks := firstn n (skipn j es)). assert (LK : length ks = n) by (subst ks; rewrite firstn_length, skipn_length; lia).
  assert (FK : Forall (entry_fits sys) ks).
  { subst ks. rewrite <- (firstn_skipn j es), Forall_app in F. destruct F as [_ F]. rewrite <- (firstn_skipn n (skipn j es)), Forall_app in F. apply F. }
  assert (SP : pre ++ es ++ post = (pre ++ firstn j es) ++ ks ++ skipn n (skipn j es) ++ post).
  { subst ks. rewrite <- (firstn_skipn j es) at 1. rewrite <- (firstn_skipn n (skipn j es)) at 1. rewrite <- !app_assoc. reflexivity. }
  rewrite SP. set (pre' := pre ++ firstn j es). assert (LP : length pre' = length pre + j) by (subst pre'; rewrite app_length, firstn_length; lia).
  rewrite <- LP. generalize (skipn n (skipn j es) ++ post) as post'. intros post'. rewrite <- LK. clearbody ks pre'. clear - FK LW.
  unfold slice_from, serialized_len.
  destruct (Nat.leb_spec (length pre' * 10) (length (flat_map we_serialize (pre' ++ ks ++ post')))) as [H|H].
  2:{ rewrite (flat_map_const_length _ 10) in H by exact LW. rewrite app_length in H. lia. }
  cbn [bind]. rewrite Nat.mul_comm.
  pose proof (skipn_flat_map_const we_serialize 10 (pre' ++ ks ++ post') [] (length pre') LW) as SK.
  rewrite !app_nil_r in SK. rewrite SK by (rewrite app_length; lia).
  rewrite skipn_app_exact, flat_map_app. apply mapM_seq_nth. intros i e E. cbn [Nat.add].
  assert (I : i < length ks) by (apply nth_error_Some; congruence).
  destruct (Nat.leb_spec (10 * i) (length (flat_map we_serialize ks ++ flat_map we_serialize post'))) as [H1|H1].
  2:{ rewrite app_length, !(flat_map_const_length _ 10) in H1 by exact LW. lia. }
  cbn [bind]. rewrite (skipn_flat_map_const _ 10) by (auto; lia).
  rewrite (nth_skipn_cons _ _ _ E). cbn [flat_map]. rewrite <- app_assoc. apply we_round_trip'.
  rewrite Forall_forall in FK. apply FK. eapply nth_error_In; exact E.
Qed.

Lemma entry_values_flat m : entry_values m = flat_map we_serialize (flat_map snd m).
Proof.
  unfold entry_values. induction m as [|[k es] r IH]; cbn; [reflexivity|]. rewrite flat_map_app, IH. reflexivity.
Qed.

Fixpoint kept_table (id : nat) (m : entry_map) : entry_map :=
  match m with
  | [] => []
  | (k, es) :: r => (k, kept id es) :: kept_table (id + length es) r
  end.

Lemma kept_table_of m : forall id s, five_bits (entries_of m s) (entries_of (kept_table id m) s).
Proof.
  induction m as [|[k es] r IH]; intros id s; cbn [kept_table entries_of].
  - exists 0. auto.
  - destruct (str_eqb k s); [apply kept_five|apply IH].
Qed.

Lemma keyset_entries da sys m : forall pre,
  map_sorted m -> Forall (entry_fits sys) (flat_map snd m) ->
  (N.of_nat (length (flat_map snd (pre ++ m))) < 67108864)%N ->
  Forall2 (fun '(b, v) '(k, es) => b = utf8 k /\ valid_str k /\
             pd_entries (PrefixDict da (entry_values (pre ++ m)) sys) v = Ok es)
          (keyset_from (N.of_nat (length (flat_map snd pre))) m) (kept_table (length (flat_map snd pre)) m).
Proof.
  induction m as [|[k es] r IH]; intros pre Sm F C; cbn [keyset_from kept_table]; [constructor|].
  cbn [map_sorted] in Sm. destruct Sm as (V & K & Sr).
  cbn [flat_map snd] in F. rewrite Forall_app in F. destruct F as [F1 F2].
  assert (CC : (N.of_nat (length (flat_map snd pre)) + N.of_nat (length es) < 67108864)%N).
  { rewrite flat_map_app, app_length in C. cbn [flat_map snd] in C. rewrite app_length in C. lia. }
  assert (LE : wrap_u 32 (Z.of_nat (length es)) = N.of_nat (length es)).
  { rewrite <- nat_N_Z. apply wrap_u_small; [lia|]. change (2 ^ 32)%Z with 4294967296%Z. lia. }
  assert (SH : wrap_u 32 (Z.of_N (N.shiftl (N.of_nat (length (flat_map snd pre))) 5)) = N.shiftl (N.of_nat (length (flat_map snd pre))) 5).
  { apply wrap_u_small; [lia|]. rewrite N.shiftl_mul_pow2. change (2 ^ 5)%N with 32%N. change (2 ^ 32)%Z with 4294967296%Z. lia. }
  assert (NX : wrap_u 32 (Z.of_N (N.of_nat (length (flat_map snd pre)) + N.of_nat (length es)))
               = N.of_nat (length (flat_map snd (pre ++ [(k, es)])))).
  { rewrite wrap_u_small; [|lia|change (2 ^ 32)%Z with 4294967296%Z; lia].
    rewrite flat_map_app, app_length. cbn. rewrite app_nil_r. lia. }
  assert (NY : length (flat_map snd pre) + length es = length (flat_map snd (pre ++ [(k, es)]))).
  { rewrite flat_map_app, app_length. cbn. rewrite app_nil_r. lia. }
  cbv zeta. rewrite LE, SH, NX, NY. constructor.
  - split; [reflexivity|]. split; [exact V|]. rewrite entry_values_flat, flat_map_app. cbn [flat_map snd].
    apply pd_entries_at; assumption.
  - replace (pre ++ (k, es) :: r) with ((pre ++ [(k, es)]) ++ r) in C |- * by (rewrite <- app_assoc; reflexivity).
    apply IH; assumption.
Qed.

Lemma keyset_da_of sys m :
  map_sorted m -> Forall (entry_fits sys) (flat_map snd m) ->
  (N.of_nat (length (flat_map snd m)) < 67108864)%N ->
  da_of (PrefixDict (keyset_from 0 m) (entry_values m) sys) (kept_table 0 m).
Proof. intros. unfold da_of. cbn [pd_da]. apply (keyset_entries _ sys m []); assumption. Qed.

Lemma keyset_keys m : forall id, map fst (keyset_from id m) = map (fun x => utf8 (fst x)) m.
Proof. induction m as [|[k es] r IH]; intros id; cbn [keyset_from map fst]; [reflexivity|]. f_equal. apply IH. Qed.

Lemma utf8_no_nul s : no_nul s -> ~ In 0%N (utf8 s).
Proof.
  intros H I. unfold utf8 in I. apply in_flat_map in I. destruct I as (c & I & J).
  pose proof (utf8_char_no_nul c) as F. rewrite Forall_forall in F.
  apply (F ltac:(intros ->; exact (H I)) 0%N J). reflexivity.
Qed.

Lemma keyset_trie_input m :
  m <> [] ->
  map_sorted m ->
  Forall (fun x => fst x <> [] /\ no_nul (fst x)) m ->
  (N.of_nat (length (flat_map snd m)) < 67108864)%N ->
  trie_input (keyset_from 0 m).
Proof.
  intros NE Sm K C. split; [destruct m as [|[k es] r]; [congruence|discriminate]|]. split.
  - assert (G : forall m id, Forall (fun x => fst x <> [] /\ no_nul (fst x)) m ->
      (id + N.of_nat (length (flat_map snd m)) < 67108864)%N ->
      Forall (fun '(k, v) => k <> [] /\ ~ In 0%N k /\ (v < 2147483648)%N) (keyset_from id m)).
    { clear. induction m as [|[k es] r IH]; intros id K C; cbn [keyset_from]; [constructor|].
      inversion K as [|? ? K1 K2]; subst. cbn in K1. destruct K1 as [K1 K3].
      cbn [flat_map snd] in C. rewrite app_length in C.
      assert (LE : wrap_u 32 (Z.of_nat (length es)) = N.of_nat (length es)).
      { rewrite <- nat_N_Z. apply wrap_u_small; [lia|]. change (2 ^ 32)%Z with 4294967296%Z. lia. }
      assert (SH : wrap_u 32 (Z.of_N (N.shiftl id 5)) = N.shiftl id 5).
      { apply wrap_u_small; [lia|]. rewrite N.shiftl_mul_pow2. change (2 ^ 5)%N with 32%N. change (2 ^ 32)%Z with 4294967296%Z. lia. }
      cbv zeta. rewrite LE, SH. constructor.
      - repeat split.
        + destruct k as [|c k]; [congruence|]. destruct (utf8_char_nonempty c) as (b & t & E). cbn. rewrite E. discriminate.
        + apply utf8_no_nul. exact K3.
        + pose proof (pack_value_any id (N.of_nat (length es))). lia.
      - apply IH; auto. rewrite wrap_u_small; [lia|lia|change (2 ^ 32)%Z with 4294967296%Z; lia]. }
    apply G; auto.
  - rewrite keyset_keys. clear NE K C. induction m as [|[k es] r IH]; cbn [map increasing fst]; [exact I|].
    cbn [map_sorted] in Sm. destruct Sm as (V & F & Sr). split; [|auto]. rewrite Forall_map. exact F.
Qed.

(** ** Detail buffers *)

(* A list of byte blocks and the index of their offsets. *)
Definition index_bytes (chunks : list (list N)) : list N :=
  flat_map (fun i => le_bytes 4 (N.of_nat (length (concat (firstn i chunks))))) (seq 0 (length chunks)).

Lemma index_bytes_snoc chunks c :
  index_bytes (chunks ++ [c]) = index_bytes chunks ++ le_bytes 4 (N.of_nat (length (concat chunks))).
Proof.
  unfold index_bytes. rewrite app_length. cbn [length]. rewrite seq_app, flat_map_app. cbn [seq flat_map Nat.add].
  rewrite app_nil_r, firstn_app_exact. f_equal.
  assert (G : forall l, Forall (fun i => i <= length chunks) l ->
    flat_map (fun i => le_bytes 4 (N.of_nat (length (concat (firstn i (chunks ++ [c])))))) l
    = flat_map (fun i => le_bytes 4 (N.of_nat (length (concat (firstn i chunks))))) l).
  { induction 1 as [|i l Hi F IH]; cbn [flat_map]; [reflexivity|]. rewrite IH. f_equal. f_equal. f_equal. f_equal. f_equal.
    rewrite firstn_app. replace (i - length chunks) with 0 by lia. cbn. apply app_nil_r. }
  apply G. apply Forall_forall. intros i I. apply in_seq in I. lia.
Qed.

Lemma index_bytes_length chunks : length (index_bytes chunks) = 4 * length chunks.
Proof. unfold index_bytes. rewrite (flat_map_const_length _ 4); [rewrite seq_length; reflexivity|]. intros i. apply le_bytes_length. Qed.

Lemma firstn_concat_le chunks : forall i, length (concat (firstn i chunks)) <= length (@concat N chunks).
Proof.
  induction chunks as [|c l IH]; intros [|i]; cbn; rewrite ?app_length; try lia. specialize (IH i). lia.
Qed.

Lemma read_index_at chunks i : i < length chunks -> (N.of_nat (length (concat chunks)) < 4294967296)%N ->
  read_index (index_bytes chunks) (N.of_nat i) = Ok (N.of_nat (length (concat (firstn i chunks)))).
Proof.
  intros I B. unfold read_index. rewrite Nat2N.id. unfold slice_from.
  destruct (Nat.leb_spec (4 * i) (length (index_bytes chunks))) as [H|H]; [|rewrite index_bytes_length in H; lia].
  cbn [bind]. unfold index_bytes.
  set (f := fun i => le_bytes 4 (N.of_nat (length (concat (firstn i chunks))))).
  pose proof (skipn_flat_map_const f 4 (seq 0 (length chunks)) [] i (fun i => le_bytes_length _ _)) as SK.
  rewrite !app_nil_r in SK. rewrite SK by (rewrite seq_length; lia).
  assert (E : nth_error (seq 0 (length chunks)) i = Some i).
  { rewrite (nth_error_nth' _ 0) by (rewrite seq_length; exact I). rewrite seq_nth by exact I. reflexivity. }
  rewrite (nth_skipn_cons _ _ _ E). cbn [flat_map].
  assert (LF : length (f i) = 4) by apply le_bytes_length.
  replace (f i ++ flat_map f (skipn (S i) (seq 0 (length chunks)))) with ([] ++ f i ++ flat_map f (skipn (S i) (seq 0 (length chunks)))) by reflexivity.
  rewrite (slice_mid [] (f i)) by (cbn; lia). cbn [bind].
  rewrite <- (app_nil_r (f i)). apply read_u_app. change (256 ^ N.of_nat 4)%N with 4294967296%N.
  pose proof (firstn_concat_le chunks i). lia.
Qed.

Lemma concat_split (chunks : list (list N)) i c : nth_error chunks i = Some c ->
  concat chunks = concat (firstn i chunks) ++ c ++ concat (skipn (S i) chunks).
Proof.
  intros E. rewrite <- (firstn_skipn i chunks) at 1. rewrite concat_app, (nth_skipn_cons _ _ _ E). reflexivity.
Qed.

(** ** Splitting at zero bytes *)

Lemma split_by_app f a c r : Forall (fun x => f x = false) a -> f c = true ->
  split_by f (a ++ c :: r) = a :: split_by f r.
Proof.
  intros F C. induction F as [|x a X F IH]; cbn; [rewrite C; reflexivity|]. rewrite X, IH. reflexivity.
Qed.
Lemma split_by_none f a : Forall (fun x => f x = false) a -> split_by f a = [a].
Proof. induction 1 as [|x a X F IH]; cbn; [reflexivity|]. rewrite X, IH. reflexivity. Qed.

Lemma details_round_trip ds : ds <> [] -> Forall valid_str ds -> Forall no_nul ds ->
  decode_all (split_zero (utf8 (join [0%N] ds))) = Some ds.
Proof.
  intros NE V NN. unfold split_zero.
  assert (G : forall s, no_nul s -> Forall (fun x => (0 =? x)%N = false) (utf8 s)).
  { intros s H. apply Forall_forall. intros x I. apply N.eqb_neq. intros <-. exact (utf8_no_nul s H I). }
  induction ds as [|d ds IH]; [congruence|]. inversion V; inversion NN; subst.
  destruct ds as [|d' ds].
  - cbn [join]. rewrite split_by_none by auto. cbn. rewrite decode_encode by assumption. reflexivity.
  - change (join [0%N] (d :: d' :: ds)) with (d ++ [0%N] ++ join [0%N] (d' :: ds)).
    rewrite !utf8_app. cbn [utf8 flat_map utf8_char N.ltb N.compare app]. 
    rewrite split_by_app by auto. cbn [decode_all]. rewrite decode_encode by assumption.
    rewrite IH by (auto; discriminate). reflexivity.
Qed.

Lemma utf8_join_length ds : length (utf8 (join [0%N] ds)) <= total (fun f => 1 + blen f) ds.
Proof.
  rewrite blen_utf8. induction ds as [|d ds IH]; [cbn; lia|].
  assert (T : total (fun f => 1 + blen f) (d :: ds) = 1 + blen d + total (fun f => 1 + blen f) ds) by reflexivity.
  rewrite T. destruct ds as [|d' ds]; [cbn [join]; lia|].
  change (join [0%N] (d :: d' :: ds)) with (d ++ [0%N] ++ join [0%N] (d' :: ds)).
  rewrite !blen_app. change (blen [0%N]) with 1. lia.
Qed.

(** ** Numbers *)

Lemma parse_int_range radix lo hi s v : parse_int radix lo hi s = Some v -> (lo <= v <= hi)%Z.
Proof.
  unfold parse_int. set (x := match s with [] => None | _ => _ end). destruct x as [z|]; [|discriminate].
  destruct ((lo <=? z)%Z && (z <=? hi)%Z) eqn:E; [|discriminate]. intros H; injection H as <-. lia.
Qed.
Lemma parse_i16_range s v : parse_i16 s = Some v -> is_i16 v.
Proof. intros H. apply parse_int_range in H. unfold is_i16. lia. Qed.
Lemma parse_u16_range s v : parse_u16 s = Some v -> is_u16 v.
Proof.
  unfold parse_u16. destruct (parse_int 10 0 65535 s) as [z|] eqn:E; [|discriminate]. intros H; injection H as <-.
  apply parse_int_range in E. unfold is_u16. lia.
Qed.

Lemma number_from_nth {A} (l : list A) : forall i j x, nth_error (number_from i l) j = Some x <-> exists y, x = ((i + N.of_nat j)%N, y) /\ nth_error l j = Some y.
Proof.
  induction l as [|y l IH]; intros i [|j] x; cbn.
  - split; [discriminate|intros (? & _ & E); discriminate].
  - split; [discriminate|intros (? & _ & E); discriminate].
  - rewrite N.add_0_r. split; [intros E; injection E as <-; eauto|intros (z & -> & E); congruence].
  - rewrite IH. split; intros (z & -> & E); exists z; split; auto; f_equal; lia.
Qed.

Lemma number_from_in {A} (l : list A) i x : In (i, x) (number_from 0 l) -> nth_error l (N.to_nat i) = Some x.
Proof.
  intros I. apply In_nth_error in I. destruct I as [j E]. apply number_from_nth in E. destruct E as (y & E & N).
  injection E as E ->. replace (N.to_nat i) with j by lia. exact N.
Qed.

Lemma number_from_snd {A} (l : list A) : forall i, map snd (number_from i l) = l.
Proof. induction l as [|x l IH]; intros i; cbn; [reflexivity|]. rewrite IH. reflexivity. Qed.

Lemma Forall2_filter {A B} (R : A -> B -> Prop) p q l1 l2 : Forall2 R l1 l2 ->
  (forall a b, In a l1 -> R a b -> p a = q b) -> Forall2 R (filter p l1) (filter q l2).
Proof.
  intros F H. induction F as [|a b l1 l2 Rab F IH]; cbn; [constructor|].
  rewrite <- (H a b (or_introl eq_refl) Rab).
  assert (G : Forall2 R (filter p l1) (filter q l2)) by (apply IH; intros; apply H; [right|]; assumption).
  destruct (p a); [constructor; assumption|exact G].
Qed.

Lemma Forall2_map_l {A B C} (f : A -> B) (R : B -> C -> Prop) l1 l2 :
  Forall2 (fun a c => R (f a) c) l1 l2 <-> Forall2 R (map f l1) l2.
Proof.
  split; [induction 1; cbn; constructor; assumption|].
  revert l2. induction l1 as [|a l1 IH]; intros l2 F; inversion F; subst; constructor; auto.
Qed.

Lemma Forall2_map_r {A B C} (f : B -> C) (R : A -> C -> Prop) l1 l2 :
  Forall2 (fun a b => R a (f b)) l1 l2 <-> Forall2 R l1 (map f l2).
Proof.
  split; [induction 1; cbn; constructor; assumption|].
  revert l1. induction l2 as [|a l2 IH]; intros l1 F; inversion F; subst; constructor; auto.
Qed.

Lemma Forall2_impl {A B} (R Q : A -> B -> Prop) l1 l2 : Forall2 R l1 l2 -> (forall a b, In a l1 -> In b l2 -> R a b -> Q a b) -> Forall2 Q l1 l2.
Proof.
  intros F H. induction F as [|a b l1 l2 Rab F IH]; constructor.
  - apply H; [left; reflexivity|left; reflexivity|exact Rab].
  - apply IH. intros. apply H; [right|right|]; assumption.
Qed.

Lemma Forall2_length {A B} (R : A -> B -> Prop) l1 l2 : Forall2 R l1 l2 -> length l1 = length l2.
Proof. induction 1; cbn; congruence. Qed.
