(** Which row decides the outcome of a build. *)
From Coq Require Import List NArith ZArith Bool Lia ZifyBool ZifyNat ZifyN Permutation Sorted.
From Verif Require Import MBase MUtf8 MText MCodec MDict MBincode MTokenizer MDetails MBuild STok SBuild LBase LUtf8 LCodec LDict LBuild SData LBincode LSysDict LUserDict LKinds.
Import ListNotations.
Local Open Scope list_scope.

Lemma bytes_lt_not_leb a b : bytes_lt a b <-> bytes_leb b a = false.
Proof.
  rewrite bytes_lt_leb. split.
  - intros [L N]. destruct (bytes_leb b a) eqn:E; [|reflexivity]. exfalso. apply N. apply bytes_leb_antisym; assumption.
  - intros E. split; [apply bytes_leb_total; exact E|]. intros ->. rewrite bytes_leb_refl in E. discriminate.
Qed.

Section Sort.
Context {A : Type} (leb : A -> A -> bool).
Hypothesis leb_total : forall a b, leb a b = false -> leb b a = true.
Hypothesis leb_trans : forall a b c, leb a b = true -> leb b c = true -> leb a c = true.

Lemma insert_by_sorted x l : StronglySorted (fun a b => leb a b = true) l -> StronglySorted (fun a b => leb a b = true) (insert_by leb x l).
Proof.
  induction 1 as [|y l S IH F]; cbn [insert_by]; [repeat constructor|]. destruct (leb x y) eqn:E.
  - constructor; [constructor; assumption|]. constructor; [exact E|]. revert F. apply Forall_impl. intros z H. eapply leb_trans; eassumption.
  - constructor; [exact IH|]. eapply Permutation_Forall; [apply insert_by_perm|]. constructor; [|exact F]. apply leb_total. exact E.
Qed.
Lemma stable_sort_by_sorted l : StronglySorted (fun a b => leb a b = true) (stable_sort leb l).
Proof. induction l as [|x l IH]; cbn [stable_sort]; [constructor|]. apply insert_by_sorted. exact IH. Qed.

Variable bad : A -> Prop.

(* inserting x before everything bad *)
Lemma insert_first x l : (forall y, In y l -> bad y -> leb x y = true) ->
  exists pre post, insert_by leb x l = pre ++ x :: post /\ Forall (fun y => ~ bad y) pre.
Proof.
  induction l as [|y l IH]; intros H; cbn [insert_by].
  - exists [], []. auto.
  - destruct (leb x y) eqn:E; [exists [], (y :: l); auto|].
    destruct IH as (pre & post & -> & F); [intros z I; apply H; right; exact I|].
    exists (y :: pre), post. split; [reflexivity|]. constructor; [|exact F]. intros B. rewrite (H y (or_introl eq_refl) B) in E. discriminate.
Qed.

(* inserting something else leaves x in front *)
Lemma insert_other x y pre post : (bad y -> leb y x = false) -> Forall (fun z => ~ bad z) pre -> StronglySorted (fun a b => leb a b = true) (pre ++ x :: post) ->
  exists pre' post', insert_by leb y (pre ++ x :: post) = pre' ++ x :: post' /\ Forall (fun z => ~ bad z) pre'.
Proof.
  intros B. induction pre as [|z pre IH]; intros F S; cbn [app insert_by].
  - destruct (leb y x) eqn:E; [|exists [], (insert_by leb y post); auto].
    exists [y], post. split; [reflexivity|]. constructor; [|constructor]. intros K. specialize (B K). congruence.
  - inversion F as [|? ? F1 F2]; subst. cbn [app] in S. inversion S as [|? ? S1 S2]; subst. destruct (leb y z) eqn:E.
    + exists (y :: z :: pre), post. split; [reflexivity|]. constructor; [|exact F]. intros K. specialize (B K).
      rewrite Forall_app in S2. destruct S2 as [_ S2]. inversion S2 as [|? ? S3 _]; subst. rewrite (leb_trans _ _ _ E S3) in B. discriminate.
    + destruct (IH F2 S1) as (pre' & post' & -> & F'). exists (z :: pre'), post'. split; [reflexivity|]. constructor; assumption.
Qed.

Lemma sort_first x pre post : (forall y, In y pre -> bad y -> leb y x = false) -> (forall y, In y post -> bad y -> leb x y = true) ->
  exists pre' post', stable_sort leb (pre ++ x :: post) = pre' ++ x :: post' /\ Forall (fun z => ~ bad z) pre'.
Proof.
  intros H1 H2. induction pre as [|y pre IH]; cbn [app stable_sort].
  - apply insert_first. intros y I B. apply H2; [|exact B]. eapply Permutation_in; [symmetry; apply stable_sort_perm|exact I].
  - destruct IH as (pre' & post' & E & F); [intros z I; apply H1; right; exact I|]. rewrite E.
    apply insert_other; [apply H1; left; reflexivity|exact F|]. rewrite <- E. apply stable_sort_by_sorted.
Qed.

(* there is a first one *)
Lemma first_exists l : (forall x, bad x \/ ~ bad x) -> Exists bad l ->
  exists x pre post, bad x /\ l = pre ++ x :: post /\ (forall y, In y pre -> bad y -> leb y x = false) /\ (forall y, In y post -> bad y -> leb x y = true).
Proof.
  intros D. induction l as [|a l IH]; intros X; [inversion X|].
  destruct (D a) as [B|B].
  - assert (DL : Exists bad l \/ ~ Exists bad l).
    { clear - D. induction l as [|b l IH]; [right; intros X; inversion X|]. destruct (D b); [left; left; assumption|]. destruct IH; [left; right; assumption|].
      right. intros X. inversion X; contradiction. }
    destruct DL as [XL|XL].
    + destruct (IH XL) as (x & pre & post & BX & -> & H1 & H2). destruct (leb a x) eqn:E.
      * exists a, [], (pre ++ x :: post). split; [exact B|]. split; [reflexivity|]. split; [intros y []|].
        intros y I BY. apply in_app_iff in I. destruct I as [I|[<-|I]]; [|exact E|eapply leb_trans; [exact E|apply H2; assumption]].
        eapply leb_trans; [exact E|]. apply leb_total. apply H1; assumption.
      * exists x, (a :: pre), post. split; [exact BX|]. split; [reflexivity|]. split; [|exact H2].
        intros y [<-|I] BY; [exact E|apply H1; assumption].
    + exists a, [], l. split; [exact B|]. split; [reflexivity|]. split; [intros y []|]. intros y I BY. exfalso. apply XL. apply Exists_exists. eauto.
  - assert (XL : Exists bad l) by (inversion X; [contradiction|assumption]). destruct (IH XL) as (x & pre & post & BX & -> & H1 & H2).
    exists x, (a :: pre), post. split; [exact BX|]. split; [reflexivity|]. split; [|exact H2]. intros y [<-|I] BY; [contradiction|apply H1; assumption].
Qed.
End Sort.

Lemma first_bad_sorted key bad rows r : first_bad key bad rows r ->
  exists pre post, sorted_rows key rows = pre ++ r :: post /\ Forall (fun r' => ~ bad r') pre.
Proof.
  intros (_ & pre & post & -> & H1 & H2). unfold sorted_rows. rewrite map_app. cbn [map].
  destruct (sort_first (fun a b : str * row => str_leb (fst a) (fst b))
              (fun a b => bytes_leb_total _ _) (fun a b c => bytes_leb_trans _ _ _) (fun x => bad (snd x)) (key r, r)
              (map (fun r => (key r, r)) pre) (map (fun r => (key r, r)) post)) as (pre' & post' & E & F).
  - intros y I B. apply in_map_iff in I. destruct I as (r' & <- & I). cbn [fst snd] in *. unfold str_leb. apply bytes_lt_not_leb. apply H1; assumption.
  - intros y I B. apply in_map_iff in I. destruct I as (r' & <- & I). cbn [fst snd] in *. unfold str_leb. specialize (H2 r' I B).
    rewrite bytes_lt_not_leb in H2. destruct (bytes_leb (utf8 (key r)) (utf8 (key r'))); [reflexivity|exfalso; apply H2; reflexivity].
  - exists (map snd pre'), (map snd post'). rewrite E, map_app. split; [reflexivity|]. rewrite Forall_map. exact F.
Qed.

Lemma first_bad_exists key (bad : row -> Prop) rows : (forall r, bad r \/ ~ bad r) -> Exists bad rows -> exists r, first_bad key bad rows r.
Proof.
  intros D X. destruct (first_exists (fun a b => str_leb (key a) (key b)) (fun a b => bytes_leb_total _ _) (fun a b c => bytes_leb_trans _ _ _) bad rows D X)
    as (r & pre & post & B & E & H1 & H2).
  exists r. split; [exact B|]. exists pre, post. split; [exact E|]. split.
  - intros r' I K. apply bytes_lt_not_leb. apply H1; assumption.
  - intros r' I K. rewrite bytes_lt_not_leb. specialize (H2 r' I K). cbn beta in H2. unfold str_leb in H2. congruence.
Qed.

(* a fold ends with the first failure *)
Lemma foldM_first {A B} (f : A -> B -> res A) pre x post (out : res A) : (forall a b, In b pre -> exists a', f a b = Ok a') -> (forall a, f a x = out) ->
  (forall a, out <> Ok a) -> forall a, foldM f (pre ++ x :: post) a = out.
Proof.
  intros H1 H2 N. induction pre as [|b pre IH]; intros a; cbn [app foldM].
  - rewrite H2. destruct out; [exfalso; eapply N; reflexivity|reflexivity|reflexivity].
  - destruct (H1 a b (or_introl eq_refl)) as (a' & ->). cbn [bind]. apply IH. intros a0 b0 I. apply H1. right. exact I.
Qed.

Lemma number_from_app {A} (l1 l2 : list A) : forall i, number_from i (l1 ++ l2) = number_from i l1 ++ number_from (i + N.of_nat (length l1)) l2.
Proof.
  induction l1 as [|x l1 IH]; intros i; cbn [app number_from length]; [f_equal; lia|]. rewrite IH. cbn [app]. do 3 f_equal. lia.
Qed.

Lemma number_from_in_snd {A} (l : list A) : forall i ir, In ir (number_from i l) -> In (snd ir) l.
Proof. induction l as [|x l IH]; intros i ir I; cbn in I; [contradiction|]. destruct I as [<-|I]; [left; reflexivity|right; eapply IH; exact I]. Qed.

(** ** The system dictionary *)

Lemma sys_row_bad_dec o r : sys_row_bad o r \/ ~ sys_row_bad o r.
Proof.
  unfold sys_row_bad. destruct (Nat.ltb_spec (length r) 4); [left; left; assumption|]. destruct (o_skip_invalid o), (sys_numbers r);
    try (right; intros [K|[K1 K2]]; [lia|congruence]). left. right. auto.
Qed.

Theorem sys_build_exact o rows :
  Forall (fun r => r <> []) rows ->
  (Exists (sys_row_bad o) rows -> exists r, first_bad (sys_surface o) (sys_row_bad o) rows r) /\
  (forall r, first_bad (sys_surface o) (sys_row_bad o) rows r -> build_dict o rows = if Nat.ltb (length r) 4 then Panic else Err EParse) /\
  (Forall (fun r => ~ sys_row_bad o r) rows -> (N.of_nat (total (sys_row_size o) rows) < 4294967296)%N -> exists f, build_dict o rows = Ok f) /\
  (Forall (fun r => ~ sys_row_bad o r) rows -> build_dict o rows <> Panic).
Proof.
  intros NE. split; [|split; [|split]].
  - apply first_bad_exists. apply sys_row_bad_dec.
  - intros r FB. pose proof FB as [B _]. destruct (first_bad_sorted _ _ _ _ FB) as (pre & post & E & F).
    unfold build_dict. rewrite keyed_rows_ok by exact NE. cbn [bind]. fold (sorted_rows (sys_surface o) rows). cbv zeta. unfold sys_entry_map. fold (sys_step o).
    rewrite E, number_from_app. cbn [number_from].
    rewrite (foldM_first (sys_step o) _ _ _ (if Nat.ltb (length r) 4 then Panic else Err EParse)).
    + destruct (Nat.ltb (length r) 4); reflexivity.
    + intros a [i r'] I. apply number_from_in_snd in I. cbn [snd] in I. rewrite Forall_forall in F. specialize (F r' I).
      unfold sys_step. rewrite sys_entry_cases. destruct (Nat.ltb_spec (length r') 4); [exfalso; apply F; left; assumption|].
      destruct (sys_numbers r') as [[[c l] rr]|] eqn:SN; [eexists; reflexivity|]. destruct (o_skip_invalid o) eqn:K; [eexists; reflexivity|].
      exfalso. apply F. right. auto.
    + intros a. unfold sys_step. rewrite sys_entry_cases. destruct (Nat.ltb_spec (length r) 4); [reflexivity|].
      destruct B as [B|[B1 B2]]; [lia|]. rewrite B2, B1. reflexivity.
    + intros a. destruct (Nat.ltb (length r) 4); discriminate.
  - intros F SZ. destruct (sys_build_outcome o rows SZ NE) as [A _]. apply A.
    + eapply Forall_impl; [|exact F]. intros r K. cbn beta in K. unfold sys_row_bad in K. lia.
    + destruct (o_skip_invalid o) eqn:K; [left; reflexivity|right]. eapply Forall_impl; [|exact F]. intros r N E. apply N. right. auto.
  - intros F. unfold build_dict. rewrite keyed_rows_ok by exact NE. cbn [bind]. fold (sorted_rows (sys_surface o) rows). cbv zeta.
    assert (SF : Forall (fun r => ~ sys_row_bad o r) (sorted_rows (sys_surface o) rows)).
    { apply Forall_forall. intros r I. rewrite Forall_forall in F. apply F. eapply Permutation_in; [|exact I]. apply Permutation_sym, sorted_rows_perm. }
    unfold sys_entry_map. fold (sys_step o).
    assert (G : forall l n m, Forall (fun r => ~ sys_row_bad o r) l -> exists m', foldM (sys_step o) (number_from n l) m = Ok m').
    { induction l as [|r l IH]; intros n m FL; [eexists; reflexivity|]. cbn [number_from foldM].
      pose proof (Forall_inv FL) as B. cbn beta in B. unfold sys_step at 1. rewrite sys_entry_cases.
      destruct (Nat.ltb_spec (length r) 4) as [L|L]; [exfalso; apply B; left; exact L|].
      destruct (sys_numbers r) as [[[c l'] rr]|] eqn:SN; [apply IH; exact (Forall_inv_tail FL)|].
      destruct (o_skip_invalid o) eqn:K; [apply IH; exact (Forall_inv_tail FL)|]. exfalso. apply B. right. auto. }
    destruct (G _ 0%N [] SF) as [m ->]. cbn [bind].
    assert (W : forall l st, foldM (add_sys_words o) l st <> Panic).
    { induction l as [|r l IH]; intros [w i]; [discriminate|]. cbn [foldM add_sys_words]. destruct (_ <? _)%N; cbn [bind]; [discriminate|apply IH]. }
    specialize (W (sorted_rows (sys_surface o) rows) ([], [])). destruct (foldM (add_sys_words o) _ _) as [[w i]|k|]; cbn [bind]; [|discriminate|congruence].
    destruct (da_build _); discriminate.
Qed.

(** ** User dictionaries *)

Theorem kind_build_exact k rows : let o := kind_user_options k in let bad := fun r => user_numbers o r = None in
  Forall (fun r => r <> []) rows ->
  (Exists bad rows -> exists r, first_bad (hd []) bad rows r) /\
  (forall r, first_bad (hd []) bad rows r -> build_user o rows = if Nat.ltb (length r) 4 then Panic else Err EParse) /\
  (Forall (fun r => ~ bad r) rows -> Exists (fun r => user_row_details o r = None) rows -> build_user o rows = Err EContent) /\
  (Forall (row_acceptable o) rows -> exists d, build_user o rows = Ok d).
Proof.
  intros o bad NE.
  assert (NB : forall r, ~ bad r -> length r = 3 \/ 4 <= length r).
  { intros r H. subst bad. cbn beta in H. unfold user_numbers in H. cbn [o kind_user_options uo_simple_fields] in H. destruct (Nat.eqb_spec (length r) 3); [left; assumption|].
    right. destruct r as [|? [|? [|? [|? ?]]]]; try (exfalso; apply H; reflexivity). cbn. lia. }
  split; [|split; [|split]].
  - apply first_bad_exists. intros r. subst bad. cbn beta. destruct (user_numbers o r); [right; discriminate|left; reflexivity].
  - intros r FB. pose proof FB as [B _]. destruct (first_bad_sorted _ _ _ _ FB) as (pre & post & E & F).
    unfold build_user. rewrite user_keyed_ok by exact NE. cbn [bind]. cbv zeta.
    change (map snd (stable_sort (fun a b => str_leb (fst a) (fst b)) (map (fun r => (hd [] r, r)) rows))) with (sorted_rows (hd []) rows).
    unfold user_entry_map. fold (user_step o). rewrite E, number_from_app. cbn [number_from].
    assert (NER : forall x, In x (pre ++ r :: post) -> x <> []).
    { intros x I. rewrite <- E in I. rewrite Forall_forall in NE. apply NE. eapply Permutation_in; [symmetry; apply sorted_rows_perm|exact I]. }
    rewrite (foldM_first (user_step o) _ _ _ (if Nat.ltb (length r) 4 then Panic else Err EParse)).
    + destruct (Nat.ltb (length r) 4); reflexivity.
    + intros a [i r'] I. apply number_from_in_snd in I. cbn [snd] in I. rewrite Forall_forall in F. specialize (F r' I).
      unfold user_step. rewrite user_entry_cases. assert (N : r' <> []) by (apply NER; apply in_app_iff; left; exact I). destruct r' as [|s r']; [congruence|].
      destruct (NB _ F) as [L|L].
      * destruct (user_numbers o (s :: r')) as [[[c l] rr]|] eqn:SN; [|exfalso; exact (F SN)]. cbn [o kind_user_options uo_simple_fields]. rewrite L. cbn. eexists. reflexivity.
      * destruct (user_numbers o (s :: r')) as [[[c l] rr]|] eqn:SN; [|exfalso; exact (F SN)].
        replace (Nat.leb 4 (length (s :: r'))) with true by (symmetry; apply Nat.leb_le; exact L). rewrite orb_true_r. eexists. reflexivity.
    + intros a. unfold user_step. rewrite user_entry_cases. assert (N : r <> []) by (apply NER; apply in_app_iff; right; left; reflexivity). destruct r as [|s r]; [congruence|].
      assert (N3 : Nat.eqb (length (s :: r)) (uo_simple_fields o) = false).
      { subst bad. cbn beta in B. unfold user_numbers in B. destruct (Nat.eqb (length (s :: r)) (uo_simple_fields o)); [discriminate|reflexivity]. }
      rewrite N3. cbn [orb]. rewrite B. destruct (Nat.ltb_spec (length (s :: r)) 4), (Nat.leb_spec 4 (length (s :: r))); try lia; reflexivity.
    + intros a. destruct (Nat.ltb (length r) 4); discriminate.
  - intros F X. assert (LE : Forall (fun r : row => length r = 3 \/ 4 <= length r) rows) by (eapply Forall_impl; [|exact F]; exact NB).
    destruct (kind_no_panic k rows LE) as [LO NP]. fold o in LO, NP.
    unfold build_user. rewrite user_keyed_ok by exact NE. cbn [bind]. cbv zeta.
    change (map snd (stable_sort (fun a b => str_leb (fst a) (fst b)) (map (fun r => (hd [] r, r)) rows))) with (sorted_rows (hd []) rows).
    pose proof (sorted_rows_perm (hd []) rows) as PM. set (srt := sorted_rows (hd []) rows) in *.
    unfold user_entry_map. fold (user_step o).
    assert (NF : forall (P : row -> Prop), Forall P rows -> Forall (fun ir : N * row => P (snd ir)) (number_from 0 srt)).
    { intros P G. rewrite <- (Forall_map snd P (number_from 0 srt)), number_from_snd. eapply Permutation_Forall; [exact PM|exact G]. }
    destruct (user_fold_total o (number_from 0 srt) [] (NF _ LO)) as [A1 _]. destruct A1 as [m ->]; [apply (NF (fun r => user_numbers o r <> None)); exact F|]. cbn [bind].
    assert (X' : Exists (fun r => user_row_details o r = None) srt).
    { apply Exists_exists in X. destruct X as (r & I & E). apply Exists_exists. exists r. split; [eapply Permutation_in; [exact PM|exact I]|exact E]. }
    assert (LS : Forall (fun r : row => length r = 3 \/ 4 <= length r) srt) by (eapply Permutation_Forall; [exact PM|exact LE]).
    assert (G : forall l st, Forall (fun r : row => length r = 3 \/ 4 <= length r) l -> Exists (fun r => user_row_details o r = None) l -> foldM (add_user_words o) l st = Err EContent).
    { clear. induction l as [|r l IH]; intros [w i] L X; [inversion X|]. inversion L as [|? ? L1 L2]; subst. cbn [foldM]. unfold add_user_words at 1.
      destruct (user_row_details o r) as [ds|] eqn:E.
      - apply user_details_cases in E. rewrite E. cbn [bind]. apply IH; [exact L2|]. inversion X as [? ? X1|? ? X1]; subst; [|exact X1].
        apply user_details_cases in E. congruence.
      - clear - E L1. unfold user_row_details in E. unfold user_details, is_simple. cbn [o kind_user_options uo_simple_fields uo_handler uo_detailed_fields] in *.
        destruct (Nat.eqb_spec (length r) 3) as [L|L].
        + destruct r as [|a [|b [|c [|]]]]; try discriminate. destruct k; discriminate.
        + destruct (Nat.leb (detailed_fields k) (length r)); [discriminate|reflexivity]. }
    rewrite (G srt ([], []) LS X'). reflexivity.
  - intros F. assert (LE : Forall (fun r : row => length r = 3 \/ 4 <= length r) rows).
    { eapply Forall_impl; [|exact F]. intros r [H _]. apply NB. exact H. }
    exact (proj1 (kind_build_outcome k rows LE) F).
Qed.
