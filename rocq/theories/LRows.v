(** The order of the rows of a dictionary source: what the builders make depends only on the order among homographs. *)
From Coq Require Import List NArith ZArith Bool Lia ZifyBool ZifyNat ZifyN Permutation Sorted.
From Verif Require Import MBase MUtf8 MText MCodec MDict MCharDef MUnk MBincode MTokenizer MDetails MBuild MConfig MBuilders
  STok SBuild SBuilders SRows LBase LUtf8 LCodec LDict LBuild LSysDict LBuilders LEmbedded.
Import ListNotations.
Local Open Scope list_scope.

Section Unique.
Context {A : Type} (key : A -> str).
Definition le_key (a b : A) : Prop := str_leb (key a) (key b) = true.

Lemma insert_sorted x l : StronglySorted le_key l -> StronglySorted le_key (insert_by (fun a b => str_leb (key a) (key b)) x l).
Proof.
  induction 1 as [|y l S IH F]; cbn [insert_by]; [repeat constructor|]. destruct (str_leb (key x) (key y)) eqn:E.
  - constructor; [constructor; assumption|]. constructor; [exact E|]. revert F. apply Forall_impl. intros z Z. unfold le_key, str_leb in *. eapply bytes_leb_trans; eassumption.
  - constructor; [exact IH|]. apply (insert_by_forall _ (le_key y)); [|exact F]. unfold le_key, str_leb in *. apply bytes_leb_total. exact E.
Qed.
Lemma stable_sort_sorted l : StronglySorted le_key (stable_sort (fun a b => str_leb (key a) (key b)) l).
Proof. induction l as [|x l IH]; cbn [stable_sort]; [constructor|]. apply insert_sorted, IH. Qed.

Lemma filter_key_in (x : A) l : In x l -> In x (filter (fun a => str_eqb (key a) (key x)) l).
Proof. intros I. apply filter_In. split; [exact I|]. apply str_eqb_refl. Qed.

Lemma sorted_unique l : forall l', Forall (fun a => valid_str (key a)) l -> StronglySorted le_key l -> StronglySorted le_key l' ->
  (forall s, filter (fun a => str_eqb (key a) s) l = filter (fun a => str_eqb (key a) s) l') -> l = l'.
Proof.
  induction l as [|x l IH]; intros [|y l'] V S S' H.
  - reflexivity.
  - specialize (H (key y)). cbn [filter] in H. rewrite str_eqb_refl in H. discriminate.
  - specialize (H (key x)). cbn [filter] in H. rewrite str_eqb_refl in H. discriminate.
  - assert (IX : In x (y :: l')).
    { assert (I := filter_key_in x (x :: l) (or_introl eq_refl)). rewrite H in I. apply filter_In in I. apply I. }
    assert (IY : In y (x :: l)).
    { assert (I := filter_key_in y (y :: l') (or_introl eq_refl)). rewrite <- H in I. apply filter_In in I. apply I. }
    assert (VY : valid_str (key y)) by (rewrite Forall_forall in V; apply (V y IY)).
    assert (VX : valid_str (key x)) by (inversion V; assumption).
    inversion S as [|? ? S1 F1]; subst. inversion S' as [|? ? S1' F1']; subst.
    assert (K : key x = key y).
    { assert (L1 : str_leb (key x) (key y) = true) by (destruct IY as [->|I]; [apply bytes_leb_refl|rewrite Forall_forall in F1; apply (F1 _ I)]).
      assert (L2 : str_leb (key y) (key x) = true) by (destruct IX as [->|I]; [apply bytes_leb_refl|rewrite Forall_forall in F1'; apply (F1' _ I)]).
      apply utf8_inj; [exact VX|exact VY|]. apply bytes_leb_antisym; assumption. }
    assert (E : x = y).
    { specialize (H (key x)). cbn [filter] in H. rewrite <- K, str_eqb_refl in H. injection H as H _. exact H. }
    subst y. f_equal. apply IH; [inversion V; assumption|assumption|assumption|]. intros s. specialize (H s). cbn [filter] in H.
    destruct (str_eqb (key x) s); [injection H as H; exact H|exact H].
Qed.
End Unique.

Lemma same_homographs_in key rows rows' : same_homographs key rows rows' -> forall r, In r rows -> In r rows'.
Proof. intros H r I. apply (filter_key_in key) in I. rewrite (H (key r)) in I. apply filter_In in I. apply I. Qed.
Lemma same_homographs_sym key rows rows' : same_homographs key rows rows' -> same_homographs key rows' rows.
Proof. intros H s. symmetry. apply H. Qed.

Lemma sorted_rows_same key rows rows' : Forall (fun r => valid_str (key r)) rows -> same_homographs key rows rows' ->
  map snd (stable_sort (fun a b => str_leb (fst a) (fst b)) (map (fun r => (key r, r)) rows)) =
  map snd (stable_sort (fun a b => str_leb (fst a) (fst b)) (map (fun r => (key r, r)) rows')).
Proof.
  intros V H. f_equal. apply (sorted_unique (A := str * row) fst).
  - eapply Permutation_Forall; [apply stable_sort_perm|]. rewrite Forall_map. exact V.
  - apply stable_sort_sorted.
  - apply stable_sort_sorted.
  - intros s.
    assert (P : forall l, filter (fun a : str * row => str_eqb (fst a) s) (stable_sort (fun a b => str_leb (fst a) (fst b)) l) = filter (fun a => str_eqb (fst a) s) l).
    { intros l. apply stable_sort_filter. intros x y X Y. apply str_eqb_spec in X, Y. rewrite X, Y. apply bytes_leb_refl. }
    rewrite !P, !filter_map. cbn [fst]. f_equal. apply H.
Qed.

Lemma keyed_empty f (rows : list row) : In [] rows -> mapM (fun r => do s <- field r 0; Ok (f s : str, r)) rows = Panic.
Proof.
  induction rows as [|r rows IH]; [intros []|]. intros I. destruct r as [|a r]; [reflexivity|]. destruct I as [I|I]; [discriminate|].
  cbn [mapM]. unfold field at 1. cbn [idx bind]. rewrite IH by exact I. reflexivity.
Qed.
Lemma has_empty (rows : list row) : In [] rows \/ Forall (fun r => r <> []) rows.
Proof.
  induction rows as [|r rows [I|F]]; [right; constructor|left; right; exact I|]. destruct r; [left; left; reflexivity|right; constructor; [discriminate|exact F]].
Qed.

Lemma build_dict_order o rows rows' : Forall (fun r => valid_str (sys_surface o r)) rows -> same_homographs (sys_surface o) rows rows' ->
  build_dict o rows = build_dict o rows'.
Proof.
  intros V H. unfold build_dict. destruct (has_empty rows) as [I|NE].
  - rewrite (keyed_empty (sys_key o)) by exact I. rewrite (keyed_empty (sys_key o)) by (apply (same_homographs_in _ _ _ H), I). reflexivity.
  - assert (NE' : Forall (fun r => r <> []) rows').
    { apply Forall_forall. intros r I. rewrite Forall_forall in NE. apply NE. apply (same_homographs_in _ _ _ (same_homographs_sym _ _ _ H)), I. }
    rewrite !keyed_rows_ok by assumption. cbn [bind]. rewrite (sorted_rows_same _ _ _ V H). reflexivity.
Qed.

Lemma user_keyed_ok (rows : list row) : Forall (fun r => r <> []) rows ->
  mapM (fun r => do s <- field r 0; Ok (s, r)) rows = Ok (map (fun r => (hd [] r, r)) rows).
Proof. intros F. apply mapM_ok_map. intros r I. rewrite Forall_forall in F. specialize (F r I). destruct r; [congruence|]. reflexivity. Qed.

Lemma build_user_order o rows rows' : Forall (fun r => valid_str (hd [] r)) rows -> same_homographs (hd []) rows rows' ->
  build_user o rows = build_user o rows'.
Proof.
  intros V H. unfold build_user. destruct (has_empty rows) as [I|NE].
  - rewrite (keyed_empty (fun s => s)) by exact I. rewrite (keyed_empty (fun s => s)) by (apply (same_homographs_in _ _ _ H), I). reflexivity.
  - assert (NE' : Forall (fun r => r <> []) rows').
    { apply Forall_forall. intros r I. rewrite Forall_forall in NE. apply NE. apply (same_homographs_in _ _ _ (same_homographs_sym _ _ _ H)), I. }
    rewrite !user_keyed_ok by assumption. cbn [bind].
    exact (f_equal (fun rows => do m <- user_entry_map o rows; do '(words, index) <- foldM (add_user_words o) rows ([], []);
      do da <- ok_or (da_build (keyset_from 0 m)) EIo; Ok (UserDictionary (PrefixDict da (entry_values m) false) index words)) (sorted_rows_same _ _ _ V H)).
Qed.

(** ** No homographs: any order *)

Lemma filter_single (key : row -> str) s rows : NoDup (map key rows) -> (List.length (filter (fun r => str_eqb (key r) s) rows) <= 1)%nat.
Proof.
  induction rows as [|r rows IH]; cbn [map filter List.length]; intros N; [lia|]. inversion N as [|? ? N1 N2]; subst. destruct (str_eqb (key r) s) eqn:E; [|auto].
  assert (X : filter (fun r => str_eqb (key r) s) rows = []).
  { destruct (filter (fun r => str_eqb (key r) s) rows) as [|r' l] eqn:F; [reflexivity|]. assert (I : In r' (r' :: l)) by (left; reflexivity).
    rewrite <- F in I. apply filter_In in I. destruct I as [I K]. apply str_eqb_spec in E, K. exfalso. apply N1. rewrite E, <- K. apply in_map, I. }
  rewrite X. cbn [List.length]. lia.
Qed.
Lemma filter_perm (p : row -> bool) rows rows' : Permutation rows rows' -> Permutation (filter p rows) (filter p rows').
Proof.
  induction 1 as [|x l l' H IH|x y l|l1 l2 l3 H1 IH1 H2 IH2]; cbn [filter]; [constructor| | |etransitivity; eassumption].
  - destruct (p x); [apply perm_skip|]; exact IH.
  - destruct (p x), (p y); try reflexivity. apply perm_swap.
Qed.
Lemma distinct_order key rows rows' : NoDup (map key rows) -> Permutation rows rows' -> same_homographs key rows rows'.
Proof.
  intros N P s. assert (L := filter_single key s rows N). assert (Q := filter_perm (fun r => str_eqb (key r) s) _ _ P).
  destruct (filter (fun r => str_eqb (key r) s) rows) as [|r [|? ?]]; cbn [List.length] in L; [|symmetry; apply Permutation_length_1_inv, Q|lia].
  symmetry. apply Permutation_nil, Q.
Qed.

(** ** The order of the files *)

Lemma filter_concat (p : row -> bool) ls : filter p (concat ls) = concat (map (filter p) ls).
Proof. induction ls as [|l ls IH]; [reflexivity|]. cbn [concat map]. rewrite filter_app, IH. reflexivity. Qed.

Lemma files_order key contents names names' : Permutation names names' -> NoDup names -> apart key contents names ->
  same_homographs key (concat (map contents names)) (concat (map contents names')).
Proof.
  intros P N AP s. rewrite !filter_concat. revert N AP. induction P as [|x l l' P IH|x y l|l1 l2 l3 P1 IH1 P2 IH2]; intros N AP.
  - reflexivity.
  - cbn [map concat]. f_equal. apply IH; [inversion N; assumption|]. intros n n' r r' I1 I2. apply AP; right; assumption.
  - cbn [map concat]. rewrite !app_assoc. f_equal. assert (XY : x <> y) by (inversion N as [|? ? N1 N2]; subst; intros ->; apply N1; left; reflexivity).
    set (p := fun r => str_eqb (key r) s). destruct (filter p (contents x)) as [|r l1] eqn:EX; [rewrite app_nil_r; reflexivity|].
    destruct (filter p (contents y)) as [|r' l2] eqn:EY; [rewrite app_nil_r; reflexivity|]. exfalso.
    assert (I : In r (filter p (contents x))) by (rewrite EX; left; reflexivity). assert (I' : In r' (filter p (contents y))) by (rewrite EY; left; reflexivity).
    apply filter_In in I, I'. destruct I as [I K], I' as [I' K']. unfold p in K, K'. apply str_eqb_spec in K, K'.
    apply (AP x y r r'); [right; left; reflexivity|left; reflexivity|exact XY|exact I|exact I'|congruence].
  - rewrite IH1 by assumption. apply IH2; [eapply Permutation_NoDup; eassumption|]. intros n n' r r' I1 I2. apply AP; (eapply Permutation_in; [symmetry; exact P1|assumption]).
Qed.

Lemma reader_all be k dir contents names : (forall n, In n names -> csv_file be k dir n (contents n)) -> mapM (row_reader be k dir) names = Ok (map contents names).
Proof. intros H. apply mapM_ok_map. intros n I. apply csv_file_read. auto. Qed.

Lemma build_files_order be be' k dir names names' contents : same_but_listing be be' -> be_glob be dir = Ok names -> be_glob be' dir = Ok names' ->
  Permutation names names' -> NoDup names -> (forall n, In n names -> csv_file be k dir n (contents n)) ->
  Forall (fun r => valid_str (sys_surface (kind_dict_options k) r)) (concat (map contents names)) ->
  apart (sys_surface (kind_dict_options k)) contents names ->
  build_dictionary be k dir = build_dictionary be' k dir.
Proof.
  intros (E1 & E2 & E3 & E4 & E5 & E6) G G' P N C V AP.
  assert (C' : forall n, In n names' -> csv_file be' k dir n (contents n)).
  { intros n I. destruct (C n) as (b & B1 & B2 & B3); [eapply Permutation_in; [symmetry; exact P|exact I]|]. exists b. rewrite <- E1, <- E3. auto. }
  assert (RT : forall enc p, read_text be enc p = read_text be' enc p) by (intros; unfold read_text; rewrite E1, E2; reflexivity).
  assert (W : forall b, written be b = written be' b) by (intros; unfold written; rewrite E5, E6; reflexivity).
  assert (D : build_dict_files be k dir = build_dict_files be' k dir).
  { unfold build_dict_files. rewrite !system_rows_reader, G, G'. cbn [bind]. rewrite (reader_all be k dir contents names C), (reader_all be' k dir contents names' C'). cbn [bind].
    rewrite (build_dict_order _ _ _ V (files_order _ _ _ _ P N AP)). destruct (build_dict _ (concat (map contents names'))) as [f| |]; cbn [bind]; try reflexivity.
    rewrite ?W, E4. destruct (written be' (f_words f)); cbn [bind]; try reflexivity. rewrite ?W. destruct (written be' (f_words_idx f)); cbn [bind]; try reflexivity.
    destruct (ok_or (be_yada be' (f_da f)) EIo); cbn [bind]; try reflexivity. rewrite ?W. reflexivity. }
  unfold build_dictionary. rewrite D.
  assert (CH : build_chardef_file be k dir = build_chardef_file be' k dir).
  { unfold build_chardef_file. rewrite RT. destruct (read_text be' _ _) as [t| |]; cbn [bind]; try reflexivity. destruct (char_def_of t) as [cd| |]; cbn [bind]; try reflexivity. rewrite W. reflexivity. }
  assert (UN : forall cd, build_unk_file be k dir cd = build_unk_file be' k dir cd).
  { intros cd. unfold build_unk_file. rewrite RT. destruct (read_text be' _ _) as [t| |]; cbn [bind]; try reflexivity. destruct (parse_unk _ _ _) as [u| |]; cbn [bind]; try reflexivity. apply W. }
  assert (MA : build_matrix_file be k dir = build_matrix_file be' k dir).
  { unfold build_matrix_file. rewrite RT. destruct (read_text be' _ _) as [t| |]; cbn [bind]; try reflexivity. destruct (build_matrix t) as [m| |]; cbn [bind]; try reflexivity. apply W. }
  rewrite CH, MA. destruct (unwrapped k (build_chardef_file be' k dir)) as [[cd c]| |]; cbn [bind]; try reflexivity. rewrite UN. reflexivity.
Qed.
