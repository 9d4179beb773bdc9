(** The user dictionary builder. *)
From Coq Require Import List NArith ZArith Bool Lia ZifyBool ZifyNat ZifyN Permutation.
From Verif Require Import MBase MUtf8 MText MCodec MDict MCharDef MUnk MBincode MTokenizer MDetails MBuild STok SBuild LBase LUtf8 LCodec LDict LBuild SData LBincode LSysDict.
Import ListNotations.
Local Open Scope list_scope.

Lemma user_entry_cases o i r :
  user_entry o i r =
  match r with
  | [] => Panic
  | s :: _ =>
    if Nat.eqb (length r) (uo_simple_fields o) || Nat.leb 4 (length r) then
      match user_numbers o r with
      | Some (c, l, rr) => Ok (s, WordEntry (WordId (wrap_u 32 (Z.of_N i)) false) c l rr)
      | None => Err EParse
      end
    else Panic
  end.
Proof.
  unfold user_entry, user_numbers, is_simple, field.
  destruct r as [|f0 r]; [reflexivity|]. cbn [idx nth_error bind].
  destruct (Nat.eqb (length (f0 :: r)) (uo_simple_fields o)); [reflexivity|]. cbn [orb].
  destruct r as [|f1 [|f2 [|f3 r]]]; try reflexivity. cbn [idx nth_error bind length Nat.leb].
  destruct (parse_i16 f3); [|reflexivity]. cbn [ok_or bind].
  destruct (parse_u16 f1); [|reflexivity]. cbn [ok_or bind].
  destruct (parse_u16 f2); reflexivity.
Qed.

Lemma user_details_cases o r ds : user_details o r = Ok ds <-> user_row_details o r = Some ds.
Proof.
  unfold user_details, user_row_details, is_simple. destruct (Nat.eqb (length r) (uo_simple_fields o)).
  - destruct (uo_handler o) as [h|]; [destruct (h r)|]; split; congruence.
  - destruct (Nat.leb (uo_detailed_fields o) (length r)); split; congruence.
Qed.

Definition user_gives (o : user_options) (ir : N * row) (p : str * word_entry) : Prop :=
  fst p = hd [] (snd ir) /\ user_numbers o (snd ir) = Some (we_cost (snd p), we_left (snd p), we_right (snd p)) /\
  we_id (snd p) = WordId (wrap_u 32 (Z.of_N (fst ir))) false.

Definition user_step (o : user_options) (m : entry_map) (ir : N * row) : res entry_map :=
  let '(i, r) := ir in do '(k, w) <- user_entry o i r; Ok (map_push k w m).

Lemma user_fold_inv o l : forall m0 m, foldM (user_step o) l m0 = Ok m ->
  exists ps, m = push_all ps m0 /\ Forall2 (user_gives o) l ps.
Proof.
  induction l as [|[i r] l IH]; intros m0 m H; cbn [foldM] in H.
  - injection H as <-. exists []. split; [reflexivity|constructor].
  - apply bind_ok in H. destruct H as (m1 & H1 & H). unfold user_step in H1. apply bind_ok in H1. destruct H1 as ([k w] & E & H1).
    injection H1 as <-. rewrite user_entry_cases in E. destruct r as [|s r]; [discriminate|].
    match type of E with (if ?b then _ else _) = _ => destruct b; [|discriminate] end.
    destruct (user_numbers o (s :: r)) as [[[c l0] rr]|] eqn:SN; [|discriminate]. injection E as <- <-.
    destruct (IH _ _ H) as (ps & -> & F).
    exists ((s, WordEntry (WordId (wrap_u 32 (Z.of_N i)) false) c l0 rr) :: ps).
    split; [reflexivity|]. constructor; [|exact F]. unfold user_gives. cbn [fst snd hd we_cost we_left we_right we_id]. auto.
Qed.

(** ** Details *)

Definition user_chunk (o : user_options) (r : row) : list N :=
  match user_row_details o r with Some ds => enc_vec enc_string ds | None => [] end.

Lemma user_words_inv o rows : forall done words index w i,
  words = concat (map (user_chunk o) done) -> index = index_bytes (map (user_chunk o) done) ->
  foldM (add_user_words o) rows (words, index) = Ok (w, i) ->
  w = concat (map (user_chunk o) (done ++ rows)) /\ i = index_bytes (map (user_chunk o) (done ++ rows)) /\
  Forall (fun r => user_row_details o r <> None) rows.
Proof.
  induction rows as [|r rows IH]; intros done words index w i Hw Hi H; cbn [foldM] in H.
  - injection H as <- <-. rewrite app_nil_r. auto.
  - apply bind_ok in H. destruct H as ([w1 i1] & E & H). unfold add_user_words in E.
    apply bind_ok in E. destruct E as (ds & D & E). injection E as <- <-. apply user_details_cases in D.
    replace (done ++ r :: rows) with ((done ++ [r]) ++ rows) by (rewrite <- app_assoc; reflexivity).
    assert (Hw' : words ++ enc_vec enc_string ds = concat (map (user_chunk o) (done ++ [r]))).
    { rewrite map_app, concat_app, Hw. cbn [map concat]. unfold user_chunk at 3. rewrite D, app_nil_r. reflexivity. }
    assert (Hi' : index ++ le_bytes 4 (N.of_nat (length words)) = index_bytes (map (user_chunk o) (done ++ [r]))).
    { rewrite map_app. cbn [map]. rewrite index_bytes_snoc, Hw, Hi. reflexivity. }
    destruct (IH (done ++ [r]) _ _ _ _ Hw' Hi' H) as (A & B & C).
    repeat split; auto. constructor; [congruence|exact C].
Qed.

Lemma flat_map_total {A} (f : A -> list N) (g : A -> nat) l : (forall x, length (f x) = g x) -> length (flat_map f l) = total g l.
Proof. intros H. induction l as [|x l IH]; [reflexivity|]. cbn [flat_map]. rewrite app_length, H, IH. reflexivity. Qed.

Lemma enc_string_length s : length (enc_string s) = 8 + blen s.
Proof.
  unfold enc_string, enc_bytes. rewrite enc_vec_length. f_equal. rewrite <- blen_utf8.
  induction (utf8 s) as [|b l IH]; [reflexivity|]. cbn. rewrite IH. reflexivity.
Qed.

Lemma user_chunk_length o r : length (user_chunk o r) = user_row_size o r.
Proof.
  unfold user_chunk, user_row_size. destruct (user_row_details o r) as [ds|]; [|reflexivity].
  rewrite enc_vec_length. f_equal. apply flat_map_total. apply enc_string_length.
Qed.

Lemma user_chunks_length o rows : length (concat (map (user_chunk o) rows)) = total (user_row_size o) rows.
Proof. rewrite <- flat_map_concat_map. apply flat_map_total. apply user_chunk_length. Qed.

Lemma user_word_details_at o rows d i r ds :
  u_words_idx d = index_bytes (map (user_chunk o) rows) -> u_words d = concat (map (user_chunk o) rows) ->
  (N.of_nat (total (user_row_size o) rows) < 4294967296)%N ->
  nth_error rows i = Some r -> user_row_details o r = Some ds -> Forall valid_str ds ->
  user_word_details d (N.of_nat i) = Ok (Some ds).
Proof.
  intros EI EW B E D V. unfold user_word_details. rewrite EI, index_bytes_length, map_length.
  assert (I : i < length rows) by (apply nth_error_Some; congruence).
  destruct (N.leb_spec (N.of_nat (4 * length rows)) (4 * N.of_nat i)) as [H|H]; [lia|].
  rewrite read_index_at by (rewrite ?map_length, ?user_chunks_length; lia). cbn [bind]. rewrite Nat2N.id.
  assert (EC : nth_error (map (user_chunk o) rows) i = Some (user_chunk o r)) by (rewrite nth_error_map, E; reflexivity).
  pose proof (concat_split _ _ _ EC) as CS. rewrite <- EW in CS.
  set (pre := concat (firstn i (map (user_chunk o) rows))) in *. set (post := concat (skipn (S i) (map (user_chunk o) rows))) in *.
  unfold slice_from. destruct (Nat.leb_spec (length pre) (length (u_words d))) as [H1|H1]; [|rewrite CS, app_length in H1; lia].
  cbn [bind]. rewrite CS, skipn_app_exact. unfold user_chunk. rewrite D.
  pose proof (total_in (user_row_size o) rows r (nth_error_In _ _ E)) as TI. unfold user_row_size in TI at 1. rewrite D in TI.
  rewrite (rt_vec enc_string dec_string (fun s => valid_str s /\ (N.of_nat (blen s) < 18446744073709551616)%N));
    [reflexivity|apply rt_string|intros s _; rewrite enc_string_length; lia|].
  split.
  - apply Forall_forall. intros s Is. rewrite Forall_forall in V. split; [auto|].
    pose proof (total_in (fun f => 8 + blen f) ds s Is) as T2. cbn beta in T2. lia.
  - unfold short. assert (LT : length ds <= total (fun f => 8 + blen f) ds).
    { clear. unfold total. induction ds as [|x l IH]; cbn [fold_right length]; lia. }
    lia.
Qed.

Lemma user_word_details_past chunks d id :
  u_words_idx d = index_bytes chunks -> (N.of_nat (length chunks) <= id)%N -> user_word_details d id = Ok None.
Proof.
  intros EI L. unfold user_word_details. rewrite EI, index_bytes_length.
  destruct (N.leb_spec (N.of_nat (4 * length chunks)) (4 * id)) as [H|H]; [reflexivity|lia].
Qed.

(** ** The whole build *)

Lemma user_keyed rows keyed : mapM (fun r : row => do s <- field r 0; Ok (s, r)) rows = Ok keyed ->
  keyed = map (fun r => (hd [] r, r)) rows.
Proof.
  revert keyed. induction rows as [|r rows IH]; intros keyed H; cbn [mapM] in H; [injection H as <-; reflexivity|].
  apply bind_ok in H. destruct H as (y & H1 & H). apply bind_ok in H1. destruct H1 as (s & Hs & H1).
  apply bind_ok in H. destruct H as (ys & H2 & H). injection H as <-. injection H1 as <-.
  cbn [map]. f_equal; [|apply IH; exact H2]. destruct r; [discriminate|]. unfold field in Hs. cbn in Hs. injection Hs as <-. reflexivity.
Qed.

Lemma user_keyed_ok rows : Forall (fun r => r <> []) rows ->
  mapM (fun r : row => do s <- field r 0; Ok (s, r)) rows = Ok (map (fun r => (hd [] r, r)) rows).
Proof.
  intros F. apply mapM_ok_map. intros r I. rewrite Forall_forall in F. specialize (F r I). destruct r; [congruence|reflexivity].
Qed.

Lemma build_user_inv o rows d : build_user o rows = Ok d ->
  exists m, foldM (user_step o) (number_from 0 (sorted_rows (hd []) rows)) [] = Ok m /\
    u_dict d = PrefixDict (keyset_from 0 m) (entry_values m) false /\
    u_words d = concat (map (user_chunk o) (sorted_rows (hd []) rows)) /\
    u_words_idx d = index_bytes (map (user_chunk o) (sorted_rows (hd []) rows)) /\
    Forall (fun r => user_row_details o r <> None) (sorted_rows (hd []) rows).
Proof.
  unfold build_user. intros H. apply bind_ok in H. destruct H as (keyed & HK & H). apply user_keyed in HK. subst keyed.
  fold (sorted_rows (hd []) rows) in H. cbv zeta in H.
  apply bind_ok in H. destruct H as (m & HM & H). apply bind_ok in H. destruct H as ([w i] & HW & H).
  cbn [da_build ok_or bind] in H. injection H as <-. exists m. split; [exact HM|].
  apply (user_words_inv o _ [] [] []) in HW; [|reflexivity|reflexivity]. destruct HW as (-> & -> & F). cbn. auto.
Qed.

Section Built.
Variables (o : user_options) (rows : list row) (d : user_dictionary).
Hypothesis L : user_room o rows.
Hypothesis B : build_user o rows = Ok d.

Let srt := sorted_rows (hd []) rows.

Local Lemma u_sorted_length : length srt = length rows.
Proof. symmetry. apply Permutation_length. apply sorted_rows_perm. Qed.

Lemma user_built_table : exists m,
  u_dict d = PrefixDict (keyset_from 0 m) (entry_values m) false /\
  map_sorted m /\ Forall (fun x => fst x <> [] /\ no_nul (fst x)) m /\
  (N.of_nat (length (flat_map snd m)) < 67108864)%N /\ Forall (entry_fits false) (flat_map snd m) /\
  (forall s, Forall2 (fun r e => nth_error srt (N.to_nat (wid (we_id e))) = Some r /\ wsys (we_id e) = false /\ (wid (we_id e) < 67108864)%N /\
                       user_numbers o r = Some (we_cost e, we_left e, we_right e)) (user_rows_for s rows) (entries_of m s)).
Proof.
  destruct (build_user_inv _ _ _ B) as (m & HM & E1 & _). exists m. fold srt in HM.
  destruct (user_fold_inv _ _ _ _ HM) as (ps & -> & F).
  pose proof (ur_count _ _ L) as CNT.
  assert (FI : Forall (fun p => valid_str (fst p) /\ entry_fits false (snd p) /\ (fst p <> [] /\ no_nul (fst p))) ps).
  { apply Forall_forall. intros p I.
    assert (X : exists ir, In ir (number_from 0 srt) /\ user_gives o ir p).
    { clear - F I. induction F as [|a b l1 l2 R F IH]; [destruct I|]. destruct I as [->|I]; [exists a; split; [left|]; auto|].
      destruct (IH I) as (ir & J & R'). exists ir. split; [right|]; auto. }
    destruct X as ([i r] & J & G). apply number_from_in in J.
    destruct G as (G1 & G2 & G3). cbn [fst snd] in *. rewrite G1.
    assert (IR : In r rows) by (eapply Permutation_in; [symmetry; apply sorted_rows_perm|eapply nth_error_In; exact J]).
    assert (LT : N.to_nat i < length rows) by (rewrite <- u_sorted_length; apply nth_error_Some; congruence).
    pose proof (ur_surface _ _ L) as SS. rewrite Forall_forall in SS. specialize (SS r IR). destruct SS as (S1 & S2 & S3).
    split; [exact S1|]. split; [|auto].
    unfold entry_fits. rewrite G3. cbn. assert (WR : wrap_u 32 (Z.of_N i) = i) by (apply wrap_u_small; [lia|change (2 ^ 32)%Z with 4294967296%Z; lia]).
    rewrite WR. unfold is_u32. split; [lia|]. split; [reflexivity|].
    unfold user_numbers in G2. destruct (Nat.eqb (length r) (uo_simple_fields o)).
    - injection G2 as <- <- <-. destruct (ur_cost _ _ L). auto.
    - destruct r as [|? [|f1 [|f2 [|f3 r]]]]; try discriminate.
      destruct (parse_i16 f3) as [c|] eqn:P1; [|discriminate]. destruct (parse_u16 f1) as [l|] eqn:P2; [|discriminate].
      destruct (parse_u16 f2) as [rr|] eqn:P3; [|discriminate]. injection G2 as <- <- <-.
      repeat split; [eapply parse_i16_range| eapply parse_i16_range| eapply parse_u16_range|eapply parse_u16_range]; eassumption. }
  assert (SRT : map_sorted (push_all ps [])).
  { apply push_all_sorted; [|exact I]. eapply Forall_impl; [|exact FI]. intros p Hp. apply Hp. }
  repeat split.
  - exact E1.
  - exact SRT.
  - apply (push_all_keys (fun k => k <> [] /\ no_nul k)); [|constructor]. eapply Forall_impl; [|exact FI]. intros p Hp. apply Hp.
  - rewrite push_all_count. cbn. apply Forall2_length in F. rewrite <- F.
    replace (length (number_from 0 srt)) with (length srt) by (rewrite <- (number_from_snd srt 0) at 1; rewrite map_length; reflexivity).
    rewrite u_sorted_length. lia.
  - apply push_all_entries; [|constructor]. eapply Forall_impl; [|exact FI]. intros p Hp. apply Hp.
  - intros s. rewrite entries_of_push_all; [|eapply Forall_impl; [|exact FI]; intros p Hp; apply Hp|exact I]. cbn [entries_of app].
    apply Forall2_map_r.
    assert (F2 : Forall2 (user_gives o) (filter (fun ir => str_eqb (hd [] (snd ir)) s) (number_from 0 srt))
                   (filter (fun p => str_eqb (fst p) s) ps)).
    { apply Forall2_filter; [exact F|]. intros a b _ (G & _). rewrite G. reflexivity. }
    assert (EQ : user_rows_for s rows = map snd (filter (fun ir => str_eqb (hd [] (snd ir)) s) (number_from 0 srt))).
    { transitivity (user_rows_for s srt).
      - symmetry. unfold user_rows_for. unfold srt. apply sorted_rows_filter with (s := s).
        intros r E. apply str_eqb_spec in E. exact E.
      - rewrite <- (number_from_snd srt 0) at 1. unfold user_rows_for. rewrite filter_map. reflexivity. }
    rewrite EQ. apply Forall2_map_l. eapply Forall2_impl; [exact F2|].
    intros [i r] [k e] I1 _ (G1 & G2 & G3). cbn [fst snd] in *. apply filter_In in I1. destruct I1 as [I1 _].
    apply number_from_in in I1. assert (LT : N.to_nat i < length rows) by (rewrite <- u_sorted_length; apply nth_error_Some; intros X; exact (eq_ind (Some r) (fun y => match y with Some _ => True | None => False end) I None (eq_trans (eq_sym I1) X))).
    assert (WR : wrap_u 32 (Z.of_N i) = i) by (apply wrap_u_small; [lia|change (2 ^ 32)%Z with 4294967296%Z; lia]).
    rewrite G3, WR. cbn. repeat split; auto. lia.
Qed.

Lemma user_details_nth i r : nth_error srt i = Some r ->
  exists ds, user_row_details o r = Some ds /\ user_word_details d (N.of_nat i) = Ok (Some ds).
Proof.
  intros E. destruct (build_user_inv _ _ _ B) as (m' & _ & _ & W & X & D). fold srt in D, W, X.
  assert (IR : In r rows) by (eapply Permutation_in; [symmetry; apply sorted_rows_perm|eapply nth_error_In; exact E]).
  rewrite Forall_forall in D. specialize (D r (nth_error_In _ _ E)). cbn beta in D.
  destruct (user_row_details o r) as [ds|] eqn:UD; [|exfalso; apply D; reflexivity]. exists ds. split; [reflexivity|].
  eapply user_word_details_at; [exact X|exact W| |exact E|exact UD|].
  - rewrite <- (total_perm _ rows srt) by apply sorted_rows_perm. apply (ur_bytes _ _ L).
  - pose proof (ur_valid _ _ L) as V. rewrite Forall_forall in V. apply (V r IR). exact UD.
Qed.

Theorem user_built_any : exists tbl,
  dict_means (u_dict d) tbl /\
  trie_input (pd_da (u_dict d)) /\
  (forall s, valid_str s -> pd_find_surface (u_dict d) s = Ok (entries_of tbl s)) /\
  (forall s, found_of (user_found o d) (user_rows_for s rows) (entries_of tbl s)).
Proof.
  destruct user_built_table as (tbl & E1 & SRT & KN & CN & FT & EN). exists (kept_table 0 tbl).
  assert (DA : da_of (u_dict d) (kept_table 0 tbl)) by (rewrite E1; apply keyset_da_of; assumption).
  split; [apply dict_means_table; exact DA|]. split; [rewrite E1; apply keyset_trie_input; try assumption|].
  { intros ->. pose proof (ur_some _ _ L) as SO. destruct rows as [|r rs]; [congruence|]. specialize (EN (hd [] r)). cbn [entries_of] in EN.
    assert (X : In r (user_rows_for (hd [] r) (r :: rs))) by (unfold user_rows_for; apply filter_In; split; [left; reflexivity|apply str_eqb_refl]).
    remember (user_rows_for (hd [] r) (r :: rs)) as l. inversion EN as [Q|]. subst l. rewrite <- Q in X. destruct X. }
  split; [intros s V; apply find_surface_table; assumption|].
  intros s. destruct (five_bits_forall2 _ _ _ _ (EN s) (kept_table_of tbl 0 s)) as (found & FB & FF). exists found. split; [exact FB|].
  eapply Forall2_impl; [apply FF|]. intros r e _ _ (G1 & G2 & G3 & G4). unfold user_found. split; [exact G4|]. split; [exact G2|].
  split; [lia|]. destruct (user_details_nth _ _ G1) as (ds & D1 & D2). rewrite N2Nat.id in D2. eauto.
Qed.

Theorem user_details_by_id : exists sorted, Permutation rows sorted /\
    (forall i r, nth_error sorted i = Some r -> exists ds, user_row_details o r = Some ds /\ user_word_details d (N.of_nat i) = Ok (Some ds)) /\
    (forall id, (N.of_nat (length rows) <= id)%N -> user_word_details d id = Ok None).
Proof.
  exists srt. split; [apply sorted_rows_perm|]. split; [exact user_details_nth|].
  intros id H. destruct (build_user_inv _ _ _ B) as (m' & _ & _ & W & X & _). eapply user_word_details_past; [exact X|]. rewrite map_length.
  fold srt. rewrite u_sorted_length. exact H.
Qed.

End Built.

Theorem user_built o rows d : user_limits o rows -> build_user o rows = Ok d -> exists tbl,
  dict_means (u_dict d) tbl /\
  trie_input (pd_da (u_dict d)) /\
  (forall s, valid_str s -> pd_find_surface (u_dict d) s = Ok (entries_of tbl s)) /\
  (forall s, Forall2 (user_found o d) (user_rows_for s rows) (entries_of tbl s)).
Proof.
  intros L B. destruct (user_built_any o rows d (user_limits_room _ _ L) B) as (tbl & T1 & T2 & T3 & T4). exists tbl.
  split; [exact T1|]. split; [exact T2|]. split; [exact T3|]. intros s. destruct (T4 s) as (found & FB & FF).
  apply five_bits_all in FB; [subst found; exact FF|]. apply (ul_homographs _ _ L).
Qed.

Lemma user_found_count o rows d s : user_room o rows -> build_user o rows = Ok d -> valid_str s ->
  exists es, pd_find_surface (u_dict d) s = Ok es /\ length es = length (user_rows_for s rows) mod 32.
Proof.
  intros L B V. destruct (user_built_any o rows d L B) as (tbl & _ & _ & T3 & T4).
  exists (entries_of tbl s). split; [apply T3, V|]. destruct (T4 s) as (found & FB & FF).
  rewrite <- (Forall2_length _ _ _ FF). apply five_bits_length. exact FB.
Qed.

(** ** When the build succeeds *)

Lemma user_fold_total o l : forall m0, Forall (fun ir : N * row => long_enough o (snd ir)) l ->
  (Forall (fun ir => user_numbers o (snd ir) <> None) l -> exists m, foldM (user_step o) l m0 = Ok m) /\
  (~ Forall (fun ir => user_numbers o (snd ir) <> None) l -> foldM (user_step o) l m0 = Err EParse).
Proof.
  induction l as [|[i r] l IH]; intros m0 F; cbn [foldM]; [split; [eauto|intros H; exfalso; apply H; constructor]|].
  inversion F as [|? ? F1 F2]; subst. cbn [snd] in F1. unfold user_step at 1 3. rewrite user_entry_cases.
  destruct F1 as [NE LE]. destruct r as [|s r]; [congruence|].
  replace (Nat.eqb (length (s :: r)) (uo_simple_fields o) || Nat.leb 4 (length (s :: r))) with true
    by (symmetry; apply orb_true_iff; destruct LE as [->|LE]; [left; apply Nat.eqb_refl|right; apply Nat.leb_le; exact LE]).
  destruct (user_numbers o (s :: r)) as [[[c l0] rr]|] eqn:SN.
  - cbn [bind]. edestruct (IH (map_push s (WordEntry (WordId (wrap_u 32 (Z.of_N i)) false) c l0 rr) m0) F2) as [A C]. split.
    + intros K. apply A. inversion K; assumption.
    + intros K. apply C. intros G. apply K. constructor; [cbn [snd]; congruence|exact G].
  - cbn [bind]. split; [|reflexivity]. intros K. inversion K; subst. cbn [snd] in *. congruence.
Qed.

Lemma user_words_total o rows : forall st,
  Forall (fun r => user_details o r <> Panic) rows ->
  (Forall (fun r => user_row_details o r <> None) rows -> exists st', foldM (add_user_words o) rows st = Ok st') /\
  (~ Forall (fun r => user_row_details o r <> None) rows -> exists k, foldM (add_user_words o) rows st = Err k).
Proof.
  induction rows as [|r rows IH]; intros [w i] F; cbn [foldM]; [split; [eauto|intros H; exfalso; apply H; constructor]|].
  inversion F as [|? ? F1 F2]; subst. unfold add_user_words at 1 3.
  destruct (user_details o r) as [ds|k|] eqn:D; [| |congruence].
  - apply user_details_cases in D. cbn [bind]. edestruct (IH (w ++ enc_vec enc_string ds, i ++ le_bytes 4 (N.of_nat (length w))) F2) as [A C]. split.
    + intros K. apply A. inversion K; assumption.
    + intros K. apply C. intros G. apply K. constructor; [congruence|exact G].
  - cbn [bind]. split; [|eauto]. intros K. inversion K as [|? ? K1]; subst.
    destruct (user_row_details o r) as [ds|] eqn:E; [|congruence]. apply user_details_cases in E. congruence.
Qed.

Theorem user_build_outcome o rows :
  Forall (long_enough o) rows -> Forall (fun r => user_details o r <> Panic) rows ->
  (Forall (row_acceptable o) rows -> exists d, build_user o rows = Ok d) /\
  (Exists (fun r => user_numbers o r = None) rows -> build_user o rows = Err EParse) /\
  (Exists (fun r => ~ row_acceptable o r) rows -> exists k, build_user o rows = Err k).
Proof.
  intros LE NP. set (srt := sorted_rows (hd []) rows).
  assert (PM : Permutation rows srt) by apply sorted_rows_perm.
  assert (NE : Forall (fun r => r <> []) rows) by (eapply Forall_impl; [|exact LE]; intros r H; apply H).
  assert (UN : build_user o rows = do m <- foldM (user_step o) (number_from 0 srt) [];
               do wi <- foldM (add_user_words o) srt ([], []);
               Ok (UserDictionary (PrefixDict (keyset_from 0 m) (entry_values m) false) (snd wi) (fst wi))).
  { unfold build_user. rewrite user_keyed_ok by exact NE. cbn [bind]. cbv zeta.
    change (map snd (stable_sort (fun a b => str_leb (fst a) (fst b)) (map (fun r => (hd [] r, r)) rows))) with srt.
    unfold user_entry_map. fold (user_step o). destruct (foldM (user_step o) (number_from 0 srt) []); cbn [bind]; try reflexivity.
    destruct (foldM (add_user_words o) srt ([], [])) as [[w i]| |]; reflexivity. }
  assert (NF : forall (P : row -> Prop), Forall P rows <-> Forall (fun ir : N * row => P (snd ir)) (number_from 0 srt)).
  { intros P. rewrite <- (Forall_map snd P (number_from 0 srt)), number_from_snd. split; intros F; (eapply Permutation_Forall; [|exact F]); [exact PM|symmetry; exact PM]. }
  destruct (user_fold_total o (number_from 0 srt) [] (proj1 (NF _) LE)) as [A1 A2].
  assert (NPs : Forall (fun r => user_details o r <> Panic) srt) by (eapply Permutation_Forall; [exact PM|exact NP]).
  destruct (user_words_total o srt ([], []) NPs) as [B1 B2].
  split; [|split].
  - intros AC. rewrite UN. destruct A1 as [m ->]; [apply (NF (fun r => user_numbers o r <> None)); eapply Forall_impl; [|exact AC]; intros r H; apply H|].
    cbn [bind]. destruct B1 as [st ->]; [eapply Permutation_Forall; [exact PM|]; eapply Forall_impl; [|exact AC]; intros r H; apply H|].
    cbn. eauto.
  - intros EX. rewrite UN, A2; [reflexivity|]. intros F. apply (NF (fun r => user_numbers o r <> None)) in F.
    apply Exists_exists in EX. destruct EX as (r & I & E). rewrite Forall_forall in F. exact (F r I E).
  - intros EX. rewrite UN.
    assert (DEC : {Forall (fun r => user_numbers o r <> None) rows} + {~ Forall (fun r => user_numbers o r <> None) rows}).
    { apply Forall_dec. intros r. destruct (user_numbers o r); [left|right]; congruence. }
    destruct DEC as [G|G].
    + destruct A1 as [m ->]; [apply (NF (fun r => user_numbers o r <> None)); exact G|]. cbn [bind].
      destruct B2 as [k ->]; [|cbn; eauto]. intros F. apply Exists_exists in EX. destruct EX as (r & I & E). apply E.
      rewrite Forall_forall in G, F. split; [exact (G r I)|]. apply F. eapply Permutation_in; [exact PM|exact I].
    + rewrite A2; [cbn; eauto|]. intros F. apply G. apply (NF (fun r => user_numbers o r <> None)). exact F.
Qed.
