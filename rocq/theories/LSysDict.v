(** The system dictionary builder. *)
From Coq Require Import List NArith ZArith Bool Lia ZifyBool ZifyNat ZifyN Permutation.
From Verif Require Import MBase MUtf8 MText MCodec MDict MCharDef MUnk MBincode MTokenizer MDetails MBuild STok SBuild LBase LUtf8 LCodec LDict LBuild.
Import ListNotations.
Local Open Scope list_scope.

Lemma normalize_unify o s : sys_key o s = unify o s.
Proof.
  unfold sys_key, unify, normalize. destruct (o_normalize o); [|reflexivity]. apply map_ext. intros c.
  unfold normalize_char, unify_char. destruct (N.eqb_spec c 0x2015); [subst; reflexivity|reflexivity].
Qed.

Lemma sys_details_unify o r : sys_details o r = sys_row_details o r.
Proof.
  unfold sys_details, sys_row_details, unify. destruct (o_normalize o).
  - apply map_ext. intros s. unfold normalize. apply map_ext. intros c.
    unfold normalize_char, unify_char. destruct (N.eqb_spec c 0x2015); [subst; reflexivity|reflexivity].
  - rewrite map_id. reflexivity.
Qed.

Lemma valid_unify o s : valid_str s -> valid_str (unify o s).
Proof.
  unfold unify. destruct (o_normalize o); [|auto]. unfold valid_str. rewrite Forall_map. apply Forall_impl. intros c V.
  unfold unify_char. destruct (N.eqb_spec c 0x2015); [left; lia|]. destruct (N.eqb_spec c 0xFF5E); [left; lia|exact V].
Qed.
Lemma no_nul_unify o s : no_nul s -> no_nul (unify o s).
Proof.
  unfold unify, no_nul. destruct (o_normalize o); [|auto]. intros H I. apply in_map_iff in I. destruct I as (c & E & I).
  unfold unify_char in E. destruct (c =? 0x2015)%N; [discriminate|]. destruct (c =? 0xFF5E)%N; [discriminate|]. subst. auto.
Qed.
Lemma unify_nil o s : s <> [] -> unify o s <> [].
Proof. unfold unify. destruct (o_normalize o); [|auto]. destruct s; [congruence|discriminate]. Qed.

(** ** One row *)

Lemma sys_entry_cases o i r :
  sys_entry o i r =
  if Nat.ltb (length r) 4 then Panic
  else match sys_numbers r with
       | Some (c, l, rr) => Ok (Some (sys_surface o r, WordEntry (WordId (wrap_u 32 (Z.of_N i)) true) c l rr))
       | None => if o_skip_invalid o then Ok None else Err EParse
       end.
Proof.
  destruct r as [|f0 [|f1 [|f2 [|f3 r]]]]; try reflexivity.
  unfold sys_entry, field, sys_surface. cbn [idx nth_error bind sys_numbers length Nat.ltb Nat.leb hd].
  rewrite normalize_unify. unfold parsed.
  destruct (parse_i16 (trim f3)); [|destruct (o_skip_invalid o); reflexivity]. cbn [bind].
  destruct (parse_u16 (trim f1)); [|destruct (o_skip_invalid o); reflexivity]. cbn [bind].
  destruct (parse_u16 (trim f2)); [|destruct (o_skip_invalid o); reflexivity]. reflexivity.
Qed.

Definition usable (r : row) : bool := match sys_numbers r with Some _ => true | None => false end.

(* the row with number i gives the entry p *)
Definition row_gives (o : dict_options) (ir : N * row) (p : str * word_entry) : Prop :=
  fst p = sys_surface o (snd ir) /\ sys_numbers (snd ir) = Some (we_cost (snd p), we_left (snd p), we_right (snd p)) /\
  we_id (snd p) = WordId (wrap_u 32 (Z.of_N (fst ir))) true.

Definition sys_step (o : dict_options) (m : entry_map) (ir : N * row) : res entry_map :=
  let '(i, r) := ir in
  do e <- sys_entry o i r; Ok (match e with Some (k, w) => map_push k w m | None => m end).

Lemma sys_fold_inv o l : forall m0 m, foldM (sys_step o) l m0 = Ok m ->
  exists ps, m = push_all ps m0 /\ Forall2 (row_gives o) (filter (fun ir => usable (snd ir)) l) ps.
Proof.
  induction l as [|[i r] l IH]; intros m0 m H; cbn [foldM] in H.
  - injection H as <-. exists []. split; [reflexivity|constructor].
  - apply bind_ok in H. destruct H as (m1 & H1 & H). unfold sys_step in H1. apply bind_ok in H1. destruct H1 as (x & E & H1).
    injection H1 as <-. rewrite sys_entry_cases in E. destruct (Nat.ltb (length r) 4); [discriminate|].
    cbn [filter snd]. unfold usable at 1. destruct (sys_numbers r) as [[[c l0] rr]|] eqn:SN.
    + injection E as <-. destruct (IH _ _ H) as (ps & -> & F).
      exists ((sys_surface o r, WordEntry (WordId (wrap_u 32 (Z.of_N i)) true) c l0 rr) :: ps).
      split; [reflexivity|]. constructor; [|exact F]. unfold row_gives. cbn. auto.
    + destruct (o_skip_invalid o); [|discriminate]. injection E as <-. destruct (IH _ _ H) as (ps & -> & F). exists ps. auto.
Qed.

(* the whole loop *)
Lemma sys_fold_cases o l : forall m0,
  Forall (fun ir : N * row => 4 <= length (snd ir)) l ->
  (o_skip_invalid o = true \/ Forall (fun ir => usable (snd ir) = true) l -> exists m, foldM (sys_step o) l m0 = Ok m) /\
  (o_skip_invalid o = false -> ~ Forall (fun ir => usable (snd ir) = true) l -> foldM (sys_step o) l m0 = Err EParse).
Proof.
  induction l as [|[i r] l IH]; intros m0 L; cbn [foldM].
  - split; [eauto|]. intros _ H. exfalso. apply H. constructor.
  - inversion L as [|? ? L1 L2]; subst. cbn in L1. unfold sys_step at 1 3. rewrite sys_entry_cases.
    destruct (Nat.ltb_spec (length r) 4); [lia|].
    destruct (sys_numbers r) as [[[c l0] rr]|] eqn:SN.
    + cbn [bind]. edestruct (IH (map_push (sys_surface o r) (WordEntry (WordId (wrap_u 32 (Z.of_N i)) true) c l0 rr) m0) L2) as [A B]. split.
      * intros [K|K]; apply A; [auto|]. right. inversion K; assumption.
      * intros K N. apply B; [exact K|]. intros F. apply N. constructor; [cbn; unfold usable; rewrite SN; reflexivity|exact F].
    + destruct (o_skip_invalid o) eqn:K; cbn [bind].
      * edestruct (IH m0 L2) as [A B]. split; [intros _; apply A; auto|discriminate].
      * split; [|reflexivity]. intros [|F]; [discriminate|]. inversion F as [|? ? U]; subst. cbn in U. unfold usable in U. rewrite SN in U. discriminate.
Qed.

Lemma sys_fold_short o l : forall m0 m, Exists (fun ir : N * row => length (snd ir) < 4) l -> foldM (sys_step o) l m0 <> Ok m.
Proof.
  induction l as [|[i r] l IH]; intros m0 m X; [inversion X|]. cbn [foldM]. intros H. apply bind_ok in H. destruct H as (m1 & H1 & H).
  inversion X as [? ? S|? ? S]; subst.
  - cbn in S. unfold sys_step in H1. rewrite sys_entry_cases in H1. destruct (Nat.ltb_spec (length r) 4); [|lia]. discriminate.
  - exact (IH _ _ S H).
Qed.

(** ** The details *)

Definition sys_chunk (o : dict_options) (r : row) : list N :=
  le_bytes 4 (N.of_nat (length (utf8 (join [0%N] (sys_row_details o r))))) ++ utf8 (join [0%N] (sys_row_details o r)).

Lemma sys_words_inv o rows : forall done words index w i,
  words = concat (map (sys_chunk o) done) -> index = index_bytes (map (sys_chunk o) done) ->
  foldM (add_sys_words o) rows (words, index) = Ok (w, i) ->
  w = concat (map (sys_chunk o) (done ++ rows)) /\ i = index_bytes (map (sys_chunk o) (done ++ rows)).
Proof.
  induction rows as [|r rows IH]; intros done words index w i Hw Hi H; cbn [foldM] in H.
  - injection H as <- <-. rewrite app_nil_r. auto.
  - apply bind_ok in H. destruct H as ([w1 i1] & E & H). unfold add_sys_words in E. rewrite sys_details_unify in E.
    match type of E with (if ?b then _ else _) = _ => destruct b; [discriminate|] end. injection E as <- <-.
    replace (done ++ r :: rows) with ((done ++ [r]) ++ rows) by (rewrite <- app_assoc; reflexivity).
    eapply IH; [| |exact H].
    + rewrite map_app, concat_app, Hw. cbn. rewrite app_nil_r. reflexivity.
    + rewrite map_app. cbn [map]. rewrite index_bytes_snoc, Hw, Hi. reflexivity.
Qed.

Lemma sys_words_ok o rows : forall st, Forall (fun r => (N.of_nat (length (utf8 (join [0%N] (sys_row_details o r)))) <= u32_max)%N) rows ->
  exists st', foldM (add_sys_words o) rows st = Ok st'.
Proof.
  induction rows as [|r rows IH]; intros [w i] F; cbn [foldM]; [eauto|]. inversion F as [|? ? F1 F2]; subst.
  unfold add_sys_words. rewrite sys_details_unify.
  match goal with |- context [if ?b then _ else _] => destruct b eqn:B; [lia|] end. cbn [bind]. apply IH. exact F2.
Qed.

Lemma total_perm {A} (f : A -> nat) l1 l2 : Permutation l1 l2 -> total f l1 = total f l2.
Proof. unfold total. induction 1; cbn [fold_right]; lia. Qed.
Lemma total_in {A} (f : A -> nat) l x : In x l -> f x <= total f l.
Proof. unfold total. induction l as [|y l IH]; [intros []|]. cbn [fold_right]. intros [->|I]; [lia|]. specialize (IH I). lia. Qed.

Lemma sys_chunks_length o rows :
  length (concat (map (sys_chunk o) rows)) <= total (sys_row_size o) rows.
Proof.
  induction rows as [|r rows IH]; [cbn; lia|]. cbn [map concat]. rewrite app_length.
  change (total (sys_row_size o) (r :: rows)) with (sys_row_size o r + total (sys_row_size o) rows). unfold sys_row_size at 1.
  unfold sys_chunk at 1. rewrite app_length, le_bytes_length. pose proof (utf8_join_length (sys_row_details o r)). lia.
Qed.

Lemma word_details_at o rows d i r :
  d_words_idx d = index_bytes (map (sys_chunk o) rows) -> d_words d = concat (map (sys_chunk o) rows) ->
  (N.of_nat (total (sys_row_size o) rows) < 4294967296)%N ->
  nth_error rows i = Some r -> Forall valid_str (sys_row_details o r) -> Forall no_nul (sys_row_details o r) ->
  sys_row_details o r <> [] ->
  word_details d (N.of_nat i) = Ok (Some (sys_row_details o r)).
Proof.
  intros EI EW B E V NN NE. unfold word_details. rewrite EI, index_bytes_length, map_length.
  assert (I : i < length rows) by (apply nth_error_Some; congruence).
  destruct (N.leb_spec (N.of_nat (4 * length rows)) (4 * N.of_nat i)) as [H|H]; [lia|].
  pose proof (sys_chunks_length o rows) as CL.
  rewrite read_index_at by (rewrite ?map_length; lia). cbn [bind]. rewrite Nat2N.id.
  assert (EC : nth_error (map (sys_chunk o) rows) i = Some (sys_chunk o r)) by (rewrite nth_error_map, E; reflexivity).
  pose proof (concat_split _ _ _ EC) as CS. rewrite <- EW in CS.
  set (pre := concat (firstn i (map (sys_chunk o) rows))) in *. set (post := concat (skipn (S i) (map (sys_chunk o) rows))) in *.
  unfold sys_chunk in CS. set (body := utf8 (join [0%N] (sys_row_details o r))) in *.
  assert (LB : (N.of_nat (length body) < 4294967296)%N).
  { pose proof (utf8_join_length (sys_row_details o r)) as JL. fold body in JL.
    pose proof (total_in (sys_row_size o) rows r (nth_error_In _ _ E)) as TI.
    unfold sys_row_size at 1 in TI. lia. }
  unfold slice_from. destruct (Nat.leb_spec (length pre) (length (d_words d))) as [H1|H1]; [|rewrite CS, app_length in H1; lia].
  cbn [bind]. rewrite CS, skipn_app_exact, <- app_assoc, read_u_app by exact LB. cbn [bind]. rewrite Nat2N.id.
  replace (pre ++ le_bytes 4 (N.of_nat (length body)) ++ body ++ post)
    with ((pre ++ le_bytes 4 (N.of_nat (length body))) ++ body ++ post) by (rewrite <- app_assoc; reflexivity).
  rewrite slice_mid by (rewrite app_length, le_bytes_length; lia). cbn [bind].
  unfold body. rewrite details_round_trip by assumption. reflexivity.
Qed.

Lemma word_details_past chunks d id :
  d_words_idx d = index_bytes chunks -> (N.of_nat (length chunks) <= id)%N -> word_details d id = Ok None.
Proof.
  intros EI L. unfold word_details. rewrite EI, index_bytes_length.
  destruct (N.leb_spec (N.of_nat (4 * length chunks)) (4 * id)) as [H|H]; [reflexivity|lia].
Qed.

(** ** The whole build *)

Lemma keyed_rows o rows keyed : mapM (fun r => do s <- field r 0; Ok (sys_key o s, r)) rows = Ok keyed ->
  keyed = map (fun r => (sys_surface o r, r)) rows.
Proof.
  revert keyed. induction rows as [|r rows IH]; intros keyed H; cbn [mapM] in H; [injection H as <-; reflexivity|].
  apply bind_ok in H. destruct H as (y & H1 & H). apply bind_ok in H1. destruct H1 as (s & Hs & H1).
  apply bind_ok in H. destruct H as (ys & H2 & H). injection H as <-. injection H1 as <-.
  cbn [map]. f_equal; [|apply IH; exact H2]. unfold sys_surface. rewrite normalize_unify.
  destruct r; [discriminate|]. unfold field in Hs. cbn in Hs. injection Hs as <-. reflexivity.
Qed.

Lemma keyed_rows_ok o rows : Forall (fun r => r <> []) rows ->
  mapM (fun r => do s <- field r 0; Ok (sys_key o s, r)) rows = Ok (map (fun r => (sys_surface o r, r)) rows).
Proof.
  intros F. apply mapM_ok_map. intros r I. rewrite Forall_forall in F. specialize (F r I). destruct r; [congruence|].
  cbn. unfold sys_surface. rewrite normalize_unify. reflexivity.
Qed.

Lemma build_dict_inv o rows f : build_dict o rows = Ok f ->
  exists m, foldM (sys_step o) (number_from 0 (sorted_rows (sys_surface o) rows)) [] = Ok m /\
    f_da f = keyset_from 0 m /\ f_vals f = entry_values m /\
    f_words f = concat (map (sys_chunk o) (sorted_rows (sys_surface o) rows)) /\
    f_words_idx f = index_bytes (map (sys_chunk o) (sorted_rows (sys_surface o) rows)).
Proof.
  unfold build_dict. intros H. apply bind_ok in H. destruct H as (keyed & HK & H). apply keyed_rows in HK. subst keyed.
  fold (sorted_rows (sys_surface o) rows) in H. cbv zeta in H.
  apply bind_ok in H. destruct H as (m & HM & H). apply bind_ok in H. destruct H as ([w i] & HW & H).
  cbn [da_build ok_or bind] in H. injection H as <-. exists m. split; [exact HM|].
  apply (sys_words_inv o _ [] [] []) in HW; [|reflexivity|reflexivity]. destruct HW as [-> ->]. cbn. auto.
Qed.

Lemma skipn_nth {A} n (l : list A) : n < length l -> skipn n l <> [].
Proof. intros H E. apply (f_equal (@length A)) in E. rewrite skipn_length in E. cbn in E. lia. Qed.

Section Built.
Variables (o : dict_options) (rows : list row) (f : dict_files).
Hypothesis L : sys_room o rows.
Hypothesis B : build_dict o rows = Ok f.

Let srt := sorted_rows (sys_surface o) rows.

Local Lemma sorted_forall (P : row -> Prop) : Forall P rows -> Forall P srt.
Proof. intros F. eapply Permutation_Forall; [apply sorted_rows_perm|exact F]. Qed.
Local Lemma sorted_length : length srt = length rows.
Proof. symmetry. apply Permutation_length. apply sorted_rows_perm. Qed.

Lemma sys_row_valid : Forall (fun r => valid_str (sys_surface o r) /\ Forall valid_str (sys_row_details o r)) srt.
Proof.
  apply sorted_forall. eapply Forall_impl; [|apply (sr_valid _ _ L)]. intros r F. split.
  - unfold sys_surface. apply valid_unify. destruct F; [constructor|assumption].
  - unfold sys_row_details. rewrite Forall_map. rewrite <- (firstn_skipn 4 r), Forall_app in F.
    eapply Forall_impl; [|apply F]. intros s. apply valid_unify.
Qed.

Lemma sys_built_table : exists m,
  f_da f = keyset_from 0 m /\ f_vals f = entry_values m /\
  map_sorted m /\ Forall (fun x => fst x <> [] /\ no_nul (fst x)) m /\
  (N.of_nat (length (flat_map snd m)) < 67108864)%N /\ Forall (entry_fits true) (flat_map snd m) /\
  (forall s, Forall2 (fun r e => nth_error srt (N.to_nat (wid (we_id e))) = Some r /\ wsys (we_id e) = true /\ (wid (we_id e) < 67108864)%N /\
                       sys_numbers r = Some (we_cost e, we_left e, we_right e)) (sys_rows_for o s rows) (entries_of m s)).
Proof.
  destruct (build_dict_inv _ _ _ B) as (m & HM & E1 & E2 & _ & _). exists m. fold srt in HM.
  destruct (sys_fold_inv _ _ _ _ HM) as (ps & -> & F).
  pose proof (sr_count _ _ L) as CNT.
  assert (FI : Forall (fun p => valid_str (fst p) /\ entry_fits true (snd p) /\ (fst p <> [] /\ no_nul (fst p))) ps).
  { apply Forall_forall. intros p I.
    assert (X : exists ir, In ir (filter (fun ir => usable (snd ir)) (number_from 0 srt)) /\ row_gives o ir p).
    { clear - F I. induction F as [|a b l1 l2 R F IH]; [destruct I|]. destruct I as [->|I]; [exists a; split; [left|]; auto|].
      destruct (IH I) as (ir & J & R'). exists ir. split; [right|]; auto. }
    destruct X as ([i r] & J & G). apply filter_In in J. destruct J as [J _]. apply number_from_in in J.
    destruct G as (G1 & G2 & G3). cbn [fst snd] in *. rewrite G1.
    assert (IR : In r rows) by (eapply Permutation_in; [symmetry; apply sorted_rows_perm|eapply nth_error_In; exact J]).
    assert (LT : N.to_nat i < length rows) by (rewrite <- sorted_length; apply nth_error_Some; congruence).
    split; [|split].
    - pose proof sys_row_valid as V. rewrite Forall_forall in V. apply (V r). eapply nth_error_In; exact J.
    - unfold entry_fits. rewrite G3. cbn. assert (WR : wrap_u 32 (Z.of_N i) = i) by (apply wrap_u_small; [lia|change (2 ^ 32)%Z with 4294967296%Z; lia]).
      rewrite WR. unfold is_u32. split; [lia|]. split; [reflexivity|].
      unfold sys_numbers in G2. destruct r as [|? [|f1 [|f2 [|f3 r]]]]; try discriminate.
      destruct (parse_i16 (trim f3)) as [c|] eqn:P1; [|discriminate]. destruct (parse_u16 (trim f1)) as [l|] eqn:P2; [|discriminate].
      destruct (parse_u16 (trim f2)) as [rr|] eqn:P3; [|discriminate]. injection G2 as <- <- <-.
      repeat split; [eapply parse_i16_range| eapply parse_i16_range| eapply parse_u16_range|eapply parse_u16_range]; eassumption.
    - pose proof (sr_surface _ _ L) as SS. rewrite Forall_forall in SS. specialize (SS r IR). destruct SS as [S1 S2].
      unfold sys_surface. split; [apply unify_nil|apply no_nul_unify]; assumption. }
  assert (SRT : map_sorted (push_all ps [])).
  { apply push_all_sorted; [|exact I]. eapply Forall_impl; [|exact FI]. intros p Hp. apply Hp. }
  repeat split.
  - exact E1.
  - exact E2.
  - exact SRT.
  - apply (push_all_keys (fun k => k <> [] /\ no_nul k)); [|constructor]. eapply Forall_impl; [|exact FI]. intros p Hp. apply Hp.
  - rewrite push_all_count. cbn. apply Forall2_length in F. rewrite <- F.
    assert (LF : length (filter (fun ir => usable (snd ir)) (number_from 0 srt)) <= length rows).
    { rewrite <- sorted_length. replace (length srt) with (length (number_from 0 srt)) by (rewrite <- (number_from_snd srt 0) at 2; rewrite map_length; reflexivity).
      generalize (number_from 0 srt). induction l as [|x l IH]; cbn; [lia|]. destruct (usable (snd x)); cbn; lia. }
    lia.
  - apply push_all_entries; [|constructor]. eapply Forall_impl; [|exact FI]. intros p Hp. apply Hp.
  - intros s. rewrite entries_of_push_all; [|eapply Forall_impl; [|exact FI]; intros p Hp; apply Hp|exact I]. cbn [entries_of app].
    apply Forall2_map_r.
    assert (F2 : Forall2 (row_gives o) (filter (fun ir => str_eqb (sys_surface o (snd ir)) s) (filter (fun ir => usable (snd ir)) (number_from 0 srt)))
                   (filter (fun p => str_eqb (fst p) s) ps)).
    { apply Forall2_filter; [exact F|]. intros a b _ (G & _). rewrite G. reflexivity. }
    assert (EQ : sys_rows_for o s rows = map snd (filter (fun ir => str_eqb (sys_surface o (snd ir)) s) (filter (fun ir => usable (snd ir)) (number_from 0 srt)))).
    { transitivity (sys_rows_for o s srt).
      - symmetry. unfold sys_rows_for. unfold srt. apply sorted_rows_filter with (s := s).
        intros r. destruct (sys_numbers r); [|discriminate]. intros E. apply str_eqb_spec in E. exact E.
      - rewrite <- (number_from_snd srt 0) at 1. unfold sys_rows_for. rewrite filter_map. f_equal.
        generalize (number_from 0 srt). induction l as [|x l IH]; cbn [filter]; [reflexivity|].
        replace (usable (snd x)) with (match sys_numbers (snd x) with Some _ => true | None => false end) by reflexivity.
        destruct (sys_numbers (snd x)); cbn [filter]; [|exact IH].
        destruct (str_eqb (sys_surface o (snd x)) s); rewrite IH; reflexivity. }
    rewrite EQ. apply Forall2_map_l. eapply Forall2_impl; [exact F2|].
    intros [i r] [k e] I1 _ (G1 & G2 & G3). cbn [fst snd] in *. apply filter_In in I1. destruct I1 as [I1 _]. apply filter_In in I1. destruct I1 as [I1 _].
    apply number_from_in in I1. assert (LT : N.to_nat i < length rows) by (rewrite <- sorted_length; apply nth_error_Some; congruence).
    assert (WR : wrap_u 32 (Z.of_N i) = i) by (apply wrap_u_small; [lia|change (2 ^ 32)%Z with 4294967296%Z; lia]).
    rewrite G3, WR. cbn. repeat split; auto. lia.
Qed.

Theorem sys_built_any m cd u : exists tbl,
  dict_means (loaded_dict f) tbl /\
  trie_input (f_da f) /\
  (forall s, valid_str s -> pd_find_surface (loaded_dict f) s = Ok (entries_of tbl s)) /\
  (forall s, found_of (sys_found o (sys_dictionary f m cd u)) (sys_rows_for o s rows) (entries_of tbl s)).
Proof.
  destruct sys_built_table as (tbl & E1 & E2 & SRT & KN & CN & FT & EN). exists (kept_table 0 tbl).
  assert (DA : da_of (loaded_dict f) (kept_table 0 tbl)).
  { unfold loaded_dict. rewrite E1, E2. apply keyset_da_of; assumption. }
  split; [apply dict_means_table; exact DA|]. split; [rewrite E1; apply keyset_trie_input; try assumption|].
  { intros ->. pose proof (sr_some _ _ L) as SO. apply Exists_exists in SO. destruct SO as (r & IR & NR). specialize (EN (sys_surface o r)). cbn [entries_of] in EN.
    assert (X : In r (sys_rows_for o (sys_surface o r) rows)) by (unfold sys_rows_for; apply filter_In; split; [exact IR|]; destruct (sys_numbers r); [apply str_eqb_refl|congruence]).
    inversion EN as [Q|]. rewrite <- Q in X. destruct X. }
  split; [intros s V; apply find_surface_table; assumption|].
  intros s. destruct (five_bits_forall2 _ _ _ _ (EN s) (kept_table_of tbl 0 s)) as (found & FB & FF). exists found. split; [exact FB|].
  eapply Forall2_impl; [apply FF|]. intros r e IR0 _ (G1 & G2 & G3 & G4). unfold sys_found. split; [exact G4|]. split; [exact G2|].
  split; [lia|].
  destruct (build_dict_inv _ _ _ B) as (m' & _ & _ & _ & W & X).
  rewrite <- (N2Nat.id (wid (we_id e))).
  assert (IR' : In r rows) by (apply (five_bits_in _ _ _ FB) in IR0; apply filter_In in IR0; apply IR0).
  eapply word_details_at; [exact X|exact W| |exact G1| | |].
  - fold srt. rewrite <- (total_perm _ rows srt) by apply sorted_rows_perm. apply (sr_bytes _ _ L).
  - pose proof sys_row_valid as V. rewrite Forall_forall in V. apply (V r). eapply nth_error_In; exact G1.
  - pose proof (sr_nul _ _ L) as NN. rewrite Forall_forall in NN. unfold sys_row_details. rewrite Forall_map.
    eapply Forall_impl; [|apply (NN r IR')]. intros s'. apply no_nul_unify.
  - pose proof (sr_details _ _ L) as DD. rewrite Forall_forall in DD. specialize (DD r IR'). cbn beta in DD.
    unfold sys_row_details. intros E. apply map_eq_nil in E. apply (skipn_nth 4 r); [lia|exact E].
Qed.

End Built.

Theorem sys_built o rows f : sys_limits o rows -> build_dict o rows = Ok f -> forall m cd u, exists tbl,
  dict_means (loaded_dict f) tbl /\
  trie_input (f_da f) /\
  (forall s, valid_str s -> pd_find_surface (loaded_dict f) s = Ok (entries_of tbl s)) /\
  (forall s, Forall2 (sys_found o (sys_dictionary f m cd u)) (sys_rows_for o s rows) (entries_of tbl s)).
Proof.
  intros L B m cd u. destruct (sys_built_any o rows f (limits_room _ _ L) B m cd u) as (tbl & T1 & T2 & T3 & T4). exists tbl.
  split; [exact T1|]. split; [exact T2|]. split; [exact T3|]. intros s. destruct (T4 s) as (found & FB & FF).
  apply five_bits_all in FB; [subst found; exact FF|]. apply (sl_homographs _ _ L).
Qed.

Lemma sys_found_count o rows f s : sys_room o rows -> build_dict o rows = Ok f -> valid_str s ->
  exists es, pd_find_surface (loaded_dict f) s = Ok es /\ length es = length (sys_rows_for o s rows) mod 32.
Proof.
  intros L B V. destruct (sys_built_any o rows f L B (ConnMatrix [] 0) (CharDefinitions [] [] (LookupTable [] [])) (UnknownDictionary [] [])) as (tbl & _ & _ & T3 & T4).
  exists (entries_of tbl s). split; [apply T3, V|]. destruct (T4 s) as (found & FB & FF).
  rewrite <- (Forall2_length _ _ _ FF). apply five_bits_length. exact FB.
Qed.

(* every id: details of the sorted rows, None past the end *)
Theorem sys_details_by_id o rows f m cd u : sys_room o rows -> build_dict o rows = Ok f ->
  exists srt, Permutation rows srt /\
    (forall i r, nth_error srt i = Some r -> word_details (sys_dictionary f m cd u) (N.of_nat i) = Ok (Some (sys_row_details o r))) /\
    (forall id, (N.of_nat (length rows) <= id)%N -> word_details (sys_dictionary f m cd u) id = Ok None).
Proof.
  intros L B. destruct (build_dict_inv _ _ _ B) as (m' & _ & _ & _ & W & X).
  exists (sorted_rows (sys_surface o) rows). split; [apply sorted_rows_perm|]. split.
  - intros i r E. assert (IR' : In r rows) by (eapply Permutation_in; [symmetry; apply sorted_rows_perm|eapply nth_error_In; exact E]).
    eapply word_details_at; [exact X|exact W| |exact E| | |].
    + rewrite <- (total_perm _ rows) by apply sorted_rows_perm. apply (sr_bytes _ _ L).
    + pose proof (sys_row_valid o rows L) as V. rewrite Forall_forall in V. apply (V r). eapply nth_error_In; exact E.
    + pose proof (sr_nul _ _ L) as NN. rewrite Forall_forall in NN. unfold sys_row_details. rewrite Forall_map.
      eapply Forall_impl; [|apply (NN r IR')]. intros s'. apply no_nul_unify.
    + pose proof (sr_details _ _ L) as DD. rewrite Forall_forall in DD. specialize (DD r IR'). cbn beta in DD.
      unfold sys_row_details. intros E'. apply map_eq_nil in E'. apply (skipn_nth 4 r); [lia|exact E'].
  - intros id H. eapply word_details_past; [exact X|]. rewrite map_length.
    rewrite <- (Permutation_length (sorted_rows_perm (sys_surface o) rows)). exact H.
Qed.

(** ** When the build succeeds *)

Theorem sys_build_outcome o rows :
  (N.of_nat (total (sys_row_size o) rows) < 4294967296)%N ->
  Forall (fun r => r <> []) rows ->
  (Forall (fun r => 4 <= length r) rows -> o_skip_invalid o = true \/ Forall (fun r => sys_numbers r <> None) rows ->
     exists f, build_dict o rows = Ok f) /\
  (Forall (fun r => 4 <= length r) rows -> o_skip_invalid o = false -> Exists (fun r => sys_numbers r = None) rows ->
     build_dict o rows = Err EParse) /\
  (Exists (fun r => length r < 4) rows -> forall f, build_dict o rows <> Ok f).
Proof.
  intros SZ NE. set (srt := sorted_rows (sys_surface o) rows).
  assert (PM : Permutation rows srt) by apply sorted_rows_perm.
  assert (UN : build_dict o rows = do m <- foldM (sys_step o) (number_from 0 srt) [];
               do wi <- foldM (add_sys_words o) srt ([], []); Ok (DictFiles (keyset_from 0 m) (entry_values m) (fst wi) (snd wi))).
  { unfold build_dict. rewrite keyed_rows_ok by exact NE. cbn [bind]. fold (sorted_rows (sys_surface o) rows). fold srt. cbv zeta.
    unfold sys_entry_map. fold (sys_step o). destruct (foldM (sys_step o) (number_from 0 srt) []); cbn [bind]; try reflexivity.
    destruct (foldM (add_sys_words o) srt ([], [])) as [[w i]| |]; reflexivity. }
  assert (NF : forall (P : row -> Prop), Forall P rows -> Forall (fun ir : N * row => P (snd ir)) (number_from 0 srt)).
  { intros P F. rewrite <- Forall_map, number_from_snd. eapply Permutation_Forall; [exact PM|exact F]. }
  assert (US : forall r, sys_numbers r <> None <-> usable r = true) by (intros r; unfold usable; destruct (sys_numbers r); split; congruence).
  split; [|split].
  - intros L4 OK. rewrite UN. edestruct (sys_fold_cases o (number_from 0 srt) []) as [A _]; [exact (NF (fun r => 4 <= length r) L4)|].
    destruct A as [mm ->].
    { destruct OK as [K|K]; [left; exact K|right]. apply (NF (fun r => usable r = true)). eapply Forall_impl; [|exact K]. intros r. apply US. }
    cbn [bind]. destruct (sys_words_ok o srt ([], [])) as [st ->]; [|cbn; eauto].
    eapply Permutation_Forall; [exact PM|]. apply Forall_forall. intros r I.
    pose proof (total_in (sys_row_size o) rows r I) as TI. unfold sys_row_size at 1 in TI.
    pose proof (utf8_join_length (sys_row_details o r)). unfold u32_max. lia.
  - intros L4 SK EX. rewrite UN. edestruct (sys_fold_cases o (number_from 0 srt) []) as [_ A]; [exact (NF (fun r => 4 <= length r) L4)|].
    rewrite A; [reflexivity|exact SK|]. intros F. rewrite <- (Forall_map snd (fun r => usable r = true)), number_from_snd in F.
    apply Permutation_sym in PM. eapply Permutation_Forall in F; [|exact PM].
    apply Exists_exists in EX. destruct EX as (r & I & E). rewrite Forall_forall in F. specialize (F r I). apply US in F. congruence.
  - intros EX f H. rewrite UN in H. apply bind_ok in H. destruct H as (m & H & _). revert H. apply sys_fold_short.
    apply Exists_exists in EX. destruct EX as (r & I & E). apply Exists_exists.
    assert (J : In r (map snd (number_from 0 srt))) by (rewrite number_from_snd; eapply Permutation_in; [exact PM|exact I]).
    apply in_map_iff in J. destruct J as (ir & <- & J). eauto.
Qed.
