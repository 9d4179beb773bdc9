(** Prefix dictionaries built from a table of surfaces. *)
From Coq Require Import List NArith ZArith Bool Lia ZifyBool ZifyNat ZifyN.
From Verif Require Import MBase MUtf8 MText MCodec MDict MCharDef MUnk MLattice MTokenizer STok LBase LUtf8.
Import ListNotations.

Lemma bytes_eqb_spec a : forall b, bytes_eqb a b = true <-> a = b.
Proof.
  induction a as [|x a IH]; intros [|y b]; cbn; try (split; congruence).
  rewrite andb_true_iff, N.eqb_eq, IH. split; [intros [-> ->]; reflexivity|intros H; injection H; auto].
Qed.

(* the double array lists the keys of the table in order, and each value leads to the entries of the key *)
Definition da_of (d : prefix_dict) (tbl : list (str * list word_entry)) : Prop :=
  Forall2 (fun '(b, v) '(k, es) => b = utf8 k /\ valid_str k /\ pd_entries d v = Ok es) (pd_da d) tbl.

Section Dict.
Variable d : prefix_dict.

Lemma exact_match_table da tbl k :
  Forall2 (fun '(b, v) '(k, es) => b = utf8 k /\ valid_str k /\ pd_entries d v = Ok es) da tbl -> valid_str k ->
  match exact_match_search da (utf8 k) with
  | Some v => pd_entries d v = Ok (entries_of tbl k)
  | None => entries_of tbl k = []
  end.
Proof.
  intros F V. induction F as [|[b v] [k' es] da tbl (-> & V' & E) F IH]; cbn [exact_match_search entries_of]; [reflexivity|].
  destruct (str_eqb k' k) eqn:K.
  - apply str_eqb_spec in K. subst k'. rewrite (proj2 (bytes_eqb_spec _ _) eq_refl). exact E.
  - destruct (bytes_eqb (utf8 k') (utf8 k)) eqn:B; [|exact IH].
    apply bytes_eqb_spec in B. apply utf8_inj in B; auto. subst. rewrite str_eqb_refl in K. discriminate.
Qed.

Lemma exact_match_key da tbl b v :
  Forall2 (fun '(b, v) '(k, es) => b = utf8 k /\ valid_str k /\ pd_entries d v = Ok es) da tbl ->
  exact_match_search da b = Some v -> exists k, b = utf8 k /\ valid_str k.
Proof.
  intros F. induction F as [|[b' v'] [k' es] da tbl (-> & V' & E) F IH]; cbn [exact_match_search]; [discriminate|].
  destruct (bytes_eqb (utf8 k') b) eqn:B; [|exact IH].
  intros _. apply bytes_eqb_spec in B. exists k'. auto.
Qed.

(* byte positions that are not character boundaries contribute nothing *)
Lemma flat_map_boundaries {B} (g : nat -> list B) s : forall off,
  (forall n, off < n <= off + blen s -> (forall j, j <= length s -> n <> off + blen (firstn j s)) -> g n = []) ->
  flat_map g (seq (S off) (blen s)) = flat_map (fun j => g (off + blen (firstn j s))) (seq 1 (length s)).
Proof.
  induction s as [|c r IH]; intros off H; [reflexivity|].
  cbn [length seq]. rewrite <- (seq_shift (length r) 1). cbn [flat_map].
  assert (FM : forall (f : nat -> list B) l, flat_map f (map S l) = flat_map (fun j => f (S j)) l).
  { intros f l. rewrite flat_map_concat_map, map_map, <- flat_map_concat_map. reflexivity. }
  rewrite FM. cbn [firstn blen].
  assert (W : 0 < width c) by apply width_pos.
  replace (width c + blen r) with ((width c - 1) + (1 + blen r)) by lia.
  rewrite seq_app, flat_map_app.
  assert (Z : flat_map g (seq (S off) (width c - 1)) = []).
  { assert (Q : forall n, In n (seq (S off) (width c - 1)) -> g n = []).
    { intros n I. apply in_seq in I. apply H; [cbn [blen]; lia|]. intros [|j] J; cbn [firstn blen]; lia. }
    induction (seq (S off) (width c - 1)) as [|x l IHl]; [reflexivity|]. cbn [flat_map].
    rewrite Q by (left; reflexivity). apply IHl. intros n I. apply Q. right. exact I. }
  rewrite Z. cbn [app]. rewrite seq_app, flat_map_app. cbn [seq flat_map]. rewrite app_nil_r.
  f_equal; [f_equal; lia|].
  replace (S off + (width c - 1) + 1) with (S (off + width c)) by lia.
  rewrite IH.
  - apply flat_map_ext. intros j. f_equal. lia.
  - intros n Hn N. apply H; [cbn [blen]; lia|]. intros [|j] J; cbn [firstn blen]; [lia|].
    cbn [length] in J. specialize (N j ltac:(lia)). lia.
Qed.

Lemma firstn_prefix_utf8 s : forall j, firstn (blen (firstn j s)) (utf8 s) = utf8 (firstn j s).
Proof.
  intros j. rewrite <- (firstn_skipn j s) at 2. rewrite utf8_app, <- blen_utf8. apply firstn_app_exact.
Qed.

Lemma mapM_flat_map {X Y Z} (f : Y -> res Z) (g : X -> list Y) l :
  mapM f (flat_map g l) = bind (mapM (fun x => mapM f (g x)) l) (fun r => Ok (concat r)).
Proof.
  induction l as [|x l IH]; cbn [flat_map mapM]; [reflexivity|].
  rewrite mapM_app, IH. destruct (mapM f (g x)); cbn; auto.
  destruct (mapM (fun x => mapM f (g x)) l); reflexivity.
Qed.

Variable tbl : list (str * list word_entry).
Hypothesis D : da_of d tbl.

Lemma dict_means_table : dict_means d tbl.
Proof.
  intros s V. unfold pd_prefix, common_prefix_search.
  set (g := fun n => match exact_match_search (pd_da d) (firstn n (utf8 s)) with Some v => [(v, n)] | None => [] end).
  rewrite blen_utf8.
  rewrite (flat_map_boundaries g s 0).
  2:{ intros n Hn N. subst g. cbn beta. destruct (exact_match_search (pd_da d) (firstn n (utf8 s))) as [v|] eqn:E; [|reflexivity].
      exfalso. destruct (exact_match_key _ _ _ _ D E) as (k & EK & VK).
      assert (P : exists r, s = k ++ r).
      { destruct (utf8_prefix k s (skipn n (utf8 s)) VK V) as (r & -> & _); [|exists r; reflexivity].
        rewrite <- EK. symmetry. apply firstn_skipn. }
      destruct P as [r ->].
      assert (L : n = blen k).
      { rewrite <- (firstn_length_le (utf8 (k ++ r)) (n := n)) by (rewrite blen_utf8; lia). rewrite EK. apply blen_utf8. }
      apply (N (length k)); [rewrite app_length; lia|]. rewrite firstn_app_exact. cbn. exact L. }
  cbn [Nat.add].
  rewrite mapM_flat_map.
  assert (G : forall j, In j (seq 1 (length s)) ->
    mapM (fun '(offset_len, prefix_len) => do es <- pd_entries d offset_len; Ok (map (fun e => (prefix_len, e)) es)) (g (blen (firstn j s)))
    = Ok (match exact_match_search (pd_da d) (utf8 (firstn j s)) with
          | Some _ => [map (fun e => (blen (firstn j s), e)) (entries_of tbl (firstn j s))] | None => [] end)).
  { intros j _. subst g. cbn beta. rewrite firstn_prefix_utf8.
    assert (Vj : valid_str (firstn j s)) by (unfold valid_str in *; rewrite <- (firstn_skipn j s), Forall_app in V; apply V).
    pose proof (exact_match_table _ _ (firstn j s) D Vj) as X.
    destruct (exact_match_search (pd_da d) (utf8 (firstn j s))) as [v|]; [|reflexivity].
    cbn [mapM bind]. rewrite X. reflexivity. }
  rewrite (mapM_ok_map _ _ _ G). cbn [bind]. f_equal.
  unfold prefix_words. rewrite flat_map_concat_map, concat_map, map_map.
  assert (CC : forall (X : Type) (f : nat -> list (list X)) l, concat (concat (map f l)) = concat (map (fun x => concat (f x)) l)).
  { intros X f l. induction l; cbn; [reflexivity|]. rewrite concat_app, IHl. reflexivity. }
  rewrite CC. f_equal. apply map_ext. intros j. rewrite map_map.
  assert (HH : forall j, valid_str (firstn j s)) by (intros i; unfold valid_str in *; rewrite <- (firstn_skipn i s), Forall_app in V; apply V).
  pose proof (exact_match_table _ _ (firstn j s) D (HH j)) as X.
  destruct (exact_match_search (pd_da d) (utf8 (firstn j s))) as [v|].
  - cbn. rewrite app_nil_r. reflexivity.
  - rewrite X. reflexivity.
Qed.

Lemma find_surface_table s : valid_str s -> pd_find_surface d s = Ok (entries_of tbl s).
Proof.
  intros V. unfold pd_find_surface. pose proof (exact_match_table _ _ s D V) as X.
  destruct (exact_match_search (pd_da d) (utf8 s)) as [v|]; [exact X|]. rewrite X. reflexivity.
Qed.

End Dict.
