(** The order in which the lattice's edges are made, and what it means for ties. *)
From Coq Require Import List NArith ZArith Bool Lia ZifyBool ZifyNat ZifyN.
From Verif Require Import MBase MUtf8 MText MCodec MDict MCharDef MUnk MLattice MTokenizer STok LBase LUtf8 LScan LLat LVit LSeg LCon.
Import ListNotations.

(** ** before *)

Lemma before_in {X} (l : list X) x y : before l x y -> In x l /\ In y l.
Proof. intros (a & b & c & ->). split; apply in_app_iff; right; [left; reflexivity|right; apply in_app_iff; right; left; reflexivity]. Qed.

Lemma before_app {X} (l r : list X) x y : before (l ++ r) x y -> before l x y \/ before r x y \/ (In x l /\ In y r).
Proof.
  revert x y. induction l as [|z l IH]; intros x y (a & b & c & E); cbn [app] in E.
  - right. left. exists a, b, c. exact E.
  - destruct a as [|z' a]; cbn [app] in E; injection E as -> E.
    + assert (I : In y (l ++ r)) by (rewrite E; apply in_app_iff; right; left; reflexivity).
      apply in_app_iff in I as [I|I]; [|right; right; split; [left; reflexivity|exact I]].
      left. apply in_split in I as (b' & c' & ->). exists [], b', c'. reflexivity.
    + destruct (IH x y) as [(a' & b' & c' & ->)|[H|[H1 H2]]].
      * exists a, b, c. exact E.
      * left. exists (z' :: a'), b', c'. reflexivity.
      * right. left. exact H.
      * right. right. split; [right; exact H1|exact H2].
Qed.

Lemma before_filter {X} (P : X -> bool) l x y : before l x y -> P x = true -> P y = true -> before (filter P l) x y.
Proof.
  intros (a & b & c & ->) Hx Hy. exists (filter P a), (filter P b), (filter P c).
  rewrite filter_app. cbn [filter]. rewrite Hx, filter_app. cbn [filter]. rewrite Hy. reflexivity.
Qed.

Lemma before_map {X Y} (f : X -> Y) l x y : before (map f l) x y -> exists x' y', x = f x' /\ y = f y' /\ before l x' y'.
Proof.
  intros (a & b & c & E). apply map_eq_app in E as (a' & l1 & -> & <- & E). destruct l1 as [|x' l1]; [discriminate|]. cbn [map] in E. injection E as <- E.
  apply map_eq_app in E as (b' & l2 & -> & <- & E). destruct l2 as [|y' l2]; [discriminate|]. cbn [map] in E. injection E as <- <-.
  exists x', y'. split; [reflexivity|]. split; [reflexivity|]. exists a', b', l2. reflexivity.
Qed.

Lemma before_flat_map {X Y} (f : X -> list Y) l x y : before (flat_map f l) x y ->
  (exists i, In i l /\ before (f i) x y) \/ (exists i j, before l i j /\ In x (f i) /\ In y (f j)).
Proof.
  induction l as [|i l IH]; cbn [flat_map]; intros H.
  - destruct H as (a & b & c & E). destruct a; discriminate.
  - apply before_app in H as [H|[H|[H1 H2]]].
    + left. exists i. split; [left; reflexivity|exact H].
    + destruct (IH H) as [(j & I & B)|(j & k & (a & b & c & ->) & I1 & I2)].
      * left. exists j. split; [right; exact I|exact B].
      * right. exists j, k. split; [exists (i :: a), b, c; reflexivity|auto].
    + right. apply in_flat_map in H2 as (j & I & I2). apply in_split in I as (b & c & ->).
      exists i, j. split; [exists [], b, c; reflexivity|auto].
Qed.

Lemma before_enumerate {X} (l : list X) o k o' k' : before (enumerate l) (o, k) (o', k') -> o < o'.
Proof.
  intros (a & b & c & E). unfold enumerate in E.
  assert (F : map fst (combine (seq 0 (length l)) l) = seq 0 (length l)).
  { clear. generalize 0. induction l as [|x l IH]; intros n; [reflexivity|]. cbn [length seq combine map fst]. f_equal. apply IH. }
  rewrite E in F. rewrite map_app in F. cbn [map fst] in F. rewrite map_app in F. cbn [map fst] in F.
  assert (N : nth_error (seq 0 (length l)) (length (map fst a)) = Some o) by (rewrite <- F, nth_error_app2, Nat.sub_diag by lia; reflexivity).
  assert (N' : nth_error (seq 0 (length l)) (length (map fst a) + S (length (map fst b))) = Some o').
  { rewrite <- F, nth_error_app2 by lia. replace (_ + _ - _) with (S (length (map fst b))) by lia. cbn [nth_error].
    rewrite nth_error_app2, Nat.sub_diag by lia. reflexivity. }
  assert (G : forall n s i v, nth_error (seq s n) i = Some v -> v = s + i).
  { induction n as [|n IH]; intros s [|i] v H; cbn in H; try discriminate; [injection H as <-; lia|]. apply IH in H. lia. }
  apply G in N, N'. lia.
Qed.

Section Ties.
Variable A : adict.
Variable m : mode.
Variable text : str.

(** ** The edges of one position *)

Lemma filter_flat_map_nil {X Y} (P : Y -> bool) (f : X -> list Y) l : (forall x, In x l -> filter P (f x) = []) -> filter P (flat_map f l) = [].
Proof.
  induction l as [|x l IH]; intros H; [reflexivity|]. cbn [flat_map]. rewrite filter_app, (H x (or_introl eq_refl)). apply IH. intros y I. apply H. right. exact I.
Qed.

Lemma filter_all {X} (P : X -> bool) l b : (forall x, In x l -> P x = b) -> filter P l = if b then l else [].
Proof.
  induction l as [|x l IH]; intros H; [destruct b; reflexivity|]. cbn [filter]. rewrite (H x (or_introl eq_refl)), IH by (intros y I; apply H; right; exact I).
  destruct b; reflexivity.
Qed.

Lemma prefix_words_filter tbl k rest : k <> [] ->
  filter (fun w => str_eqb (fst w) k) (prefix_words tbl (k ++ rest)) = map (pair k) (entries_of tbl k).
Proof.
  intros NE. unfold prefix_words.
  assert (L : 1 <= length k) by (destruct k; [congruence|cbn; lia]).
  rewrite app_length. replace (seq 1 (length k + length rest)) with (seq 1 (length k - 1) ++ length k :: seq (S (length k)) (length rest)).
  2:{ change (length k :: seq (S (length k)) (length rest)) with (seq (length k) (S (length rest))).
      replace (length k) with (1 + (length k - 1)) at 2 by lia. rewrite <- seq_app. f_equal. lia. }
  rewrite flat_map_app, filter_app. cbn [flat_map]. rewrite filter_app, firstn_app_exact.
  assert (Z : forall n, n <> length k -> n <= length (k ++ rest) ->
     filter (fun w : str * word_entry => str_eqb (fst w) k) (map (pair (firstn n (k ++ rest))) (entries_of tbl (firstn n (k ++ rest)))) = []).
  { intros n H1 H2. rewrite (filter_all _ _ false); [reflexivity|]. intros w I. apply in_map_iff in I as (e & <- & _). cbn [fst].
    destruct (str_eqb (firstn n (k ++ rest)) k) eqn:E; [|reflexivity]. apply str_eqb_spec in E. exfalso. apply H1. rewrite <- E. rewrite firstn_length. lia. }
  rewrite (filter_flat_map_nil _ _ (seq 1 _)) by (intros n I; apply in_seq in I; apply Z; rewrite ?app_length; lia).
  rewrite (filter_flat_map_nil _ _ (seq (S _) _)) by (intros n I; apply in_seq in I; apply Z; rewrite ?app_length; lia).
  cbn [app]. rewrite app_nil_r. rewrite (filter_all _ _ true); [reflexivity|]. intros w I. apply in_map_iff in I as (e & <- & _). apply str_eqb_spec. reflexivity.
Qed.

Definition unk_block (found : bool) (start : nat) (s : str) (ok : nat * nat) : list edge :=
  match unk_surface A found s (fst ok) (snd ok) with
  | Some w => map (fun e => word_edge UNKNOWN start (w, e)) (a_unk A (snd ok))
  | None => []
  end.

Lemma unk_fold_blocks found start s cats : forall es ue,
  fst (fold_left (unk_step A found start s) cats (es, ue)) = es ++ flat_map (unk_block found start s) cats.
Proof.
  induction cats as [|[ord k] cats IH]; intros es ue; cbn [fold_left flat_map]; [rewrite app_nil_r; reflexivity|].
  unfold unk_step at 2, unk_block at 1. cbn [fst snd]. destruct (unk_surface A found s ord k) as [w|]; rewrite IH; [rewrite app_assoc|]; reflexivity.
Qed.

Lemma same_span ed ed' pre k rest pre' k' rest' : edge_word A text ed pre k rest -> edge_word A text ed' pre' k' rest' ->
  e_start ed = e_start ed' -> e_stop ed = e_stop ed' -> pre = pre' /\ k = k' /\ rest = rest'.
Proof.
  intros (T & _ & S1 & S2 & _) (T' & _ & S1' & S2' & _) E1 E2. rewrite T in T'. apply app_same_blen in T'; [|lia].
  destruct T' as [<- T']. apply app_same_blen in T'; [|lia]. destruct T' as [<- <-]. auto.
Qed.

Lemma prefixes_eq (k k' r r' : str) : k ++ r = k' ++ r' -> blen k = blen k' -> k = k' /\ r = r'.
Proof. intros E B. apply app_same_blen in E; assumption. Qed.

Lemma unk_block_by c r w ord cat e e0 : In (ord, cat) (enumerate (a_cats A c)) ->
  unk_surface A (negb (is_nil (dict_words A (c :: r)))) (c :: r) ord cat = Some w -> In e (a_unk A cat) -> e = e0 ->
  unknown_by A (c :: r) ord cat w e0.
Proof.
  intros I E IE <-. pose proof (unk_surface_span _ _ _ _ _ _ _ E) as (SP & IV). exists c, r. split; [reflexivity|].
  split; [apply enumerate_cat; exact I|]. split; [|split; [exact SP|exact IE]].
  destruct IV as [IV|IV]; [left; exact IV|right]. apply dict_words_nil. apply is_nil_false. exact IV.
Qed.

Lemma pos_ranked es ue pre k rest : text = pre ++ k ++ rest -> k <> [] ->
  exists new, fst (pos_step A m (blen pre) (k ++ rest) (es, ue)) = es ++ new /\
    forall x y, before new x y -> e_stop x = blen pre + blen k -> e_stop y = blen pre + blen k -> ranked A (k ++ rest) k (e_entry x) (e_entry y).
Proof.
  intros T NE. unfold pos_step.
  set (K := map (word_edge KNOWN (blen pre)) (dict_words A (k ++ rest))).
  assert (KN : forall x, In x K -> e_stop x = blen pre + blen k -> In (e_entry x) (entries_of (a_usr A) k ++ entries_of (a_sys A) k)).
  { intros x I S. apply in_map_iff in I as ([k1 e1] & <- & I). apply dict_words_in in I. destruct I as (_ & (r1 & EQ) & I).
    cbn [word_edge e_stop] in S. destruct (prefixes_eq _ _ _ _ EQ ltac:(lia)) as [<- <-]. cbn. apply in_app_iff. exact I. }
  assert (KB : forall x y, before K x y -> e_stop x = blen pre + blen k -> e_stop y = blen pre + blen k -> ranked A (k ++ rest) k (e_entry x) (e_entry y)).
  { intros x y B S1 S2. apply before_map in B as ([k1 e1] & [k2 e2] & -> & -> & B). cbn [word_edge e_stop e_entry] in *.
    pose proof (before_in _ _ _ B) as [I1 I2]. apply dict_words_in in I1, I2. destruct I1 as (_ & (r1 & EQ1) & _), I2 as (_ & (r2 & EQ2) & _).
    destruct (prefixes_eq _ _ _ _ EQ1 ltac:(lia)) as [<- <-]. destruct (prefixes_eq _ _ _ _ EQ2 ltac:(lia)) as [<- _].
    apply ranked_dict. assert (X : str_eqb k k = true) by (apply str_eqb_spec; reflexivity).
    apply (before_filter (fun w => str_eqb (fst w) k)) in B; [|exact X|exact X]. unfold dict_words in B.
    rewrite filter_app, !prefix_words_filter in B by exact NE. rewrite <- map_app in B.
    apply before_map in B as (a & b & E1 & E2 & B). injection E1 as ->. injection E2 as ->. exact B. }
  destruct (unk_active m ue (blen pre)); [|exists K; split; [reflexivity|exact KB]].
  destruct (k ++ rest) as [|c r] eqn:EQ; [exists K; split; [reflexivity|exact KB]|].
  rewrite unk_fold_blocks. eexists. rewrite <- app_assoc. split; [reflexivity|].
  set (found := negb (is_nil (dict_words A (c :: r)))) in *.
  assert (BL : forall ok x, In ok (enumerate (a_cats A c)) -> In x (unk_block found (blen pre) (c :: r) ok) -> e_stop x = blen pre + blen k ->
     unknown_by A (c :: r) (fst ok) (snd ok) k (e_entry x)).
  { intros [ord cat] x I1 I2 S. unfold unk_block in I2. cbn [fst snd] in *. destruct (unk_surface A found (c :: r) ord cat) as [w|] eqn:US; [|destruct I2].
    apply in_map_iff in I2 as (e & <- & IE). cbn [word_edge e_stop e_entry] in *.
    pose proof (unk_surface_prefix _ _ _ _ _ _ US) as (r1 & EW). rewrite <- EQ in EW. destruct (prefixes_eq _ _ _ _ EW ltac:(lia)) as [<- _].
    eapply unk_block_by; [exact I1|exact US|exact IE|reflexivity]. }
  intros x y B S1 S2. apply before_app in B as [B|[B|[I1 I2]]]; [apply KB; assumption| |].
  - apply before_flat_map in B as [([ord cat] & I & B)|([ord cat] & [ord' cat'] & B & I1 & I2)].
    + pose proof (before_in _ _ _ B) as [X1 X2]. pose proof (BL _ _ I X1 S1) as U1. pose proof (BL _ _ I X2 S2) as U2. cbn [fst snd] in *.
      apply (ranked_unknown A _ _ _ _ ord cat); [exact U1|exact U2|]. unfold unk_block in B. cbn [fst snd] in B.
      destruct (unk_surface A found (c :: r) ord cat) as [w|]; [|destruct B as (q1 & q2 & q3 & E); destruct q1; discriminate].
      apply before_map in B as (e1 & e2 & -> & -> & B). exact B.
    + pose proof (before_in _ _ _ B) as [X1 X2]. pose proof (BL _ _ X1 I1 S1) as U1. pose proof (BL _ _ X2 I2 S2) as U2. cbn [fst snd] in *.
      apply (ranked_category A _ _ _ _ ord cat ord' cat'); [exact U1|exact U2|]. eapply before_enumerate. exact B.
  - apply ranked_known; [apply KN; assumption|]. apply in_flat_map in I2 as ([ord cat] & I & I2).
    destruct (BL _ _ I I2 S2) as (c' & r' & E & H1 & H2 & H3 & H4). exists c', r', ord, cat. auto.
Qed.

(** ** The edges of all positions *)

Definition ordered (es : list edge) : Prop := forall x y, before es x y -> e_start x <= e_start y /\
  (e_start x = e_start y -> e_stop x = e_stop y -> forall pre k rest, edge_word A text x pre k rest -> ranked A (k ++ rest) k (e_entry x) (e_entry y)).

Lemma state_ordered p : ordered (fst (state_at A m text p)).
Proof.
  induction p as [|p IH].
  - intros x y (a & b & c & E). destruct a; discriminate.
  - rewrite state_S. pose proof (state_starts A m text p) as ST. pose proof (state_ok A m text p) as OK. unfold pure_step.
    destruct (reachb (fst (state_at A m text p)) p) eqn:RB; [|exact IH].
    destruct (reach_boundary A text _ _ OK RB) as (pre & s & T & <-). rewrite T at 1. rewrite suffix_at_app.
    destruct (state_at A m text (blen pre)) as [es ue]. cbn [fst] in *.
    destruct (pos_step_grows A m (blen pre) s es ue) as (new & E & F). rewrite E.
    intros x y B. apply before_app in B as [B|[B|[I1 I2]]].
    + apply IH. exact B.
    + rewrite Forall_forall in F. pose proof (before_in _ _ _ B) as [I1 I2]. rewrite (F x I1), (F y I2). split; [lia|]. intros _ SS pre' k rest EW.
      pose proof EW as (T' & NE & S1 & S2 & _). rewrite (F x I1) in S1. rewrite T in T'. apply app_same_blen in T'; [|exact S1]. destruct T' as [<- ->].
      destruct (pos_ranked es ue pre k rest T NE) as (new' & E' & RK). rewrite E in E'. apply app_inv_head in E'. subst new'.
      apply RK; [exact B|exact S2|congruence].
    + rewrite Forall_forall in F, ST. rewrite (F y I2). specialize (ST x I1). split; [lia|]. lia.
Qed.

Lemma scan_ordered : ordered (scan A m text).
Proof. exact (state_ordered (blen text)). Qed.

Lemma seg_suffix P pre s wl : seg P pre s wl -> concat (map fst wl) = s.
Proof. intros S. induction S as [|pre k e rest wl NE H S IH]; [reflexivity|]. cbn [map concat fst]. rewrite IH. reflexivity. Qed.

Lemma shows_same e1 e w : key e1 = key e -> In e1 (scan A m text) -> shows A text e w -> shows A text e1 w.
Proof.
  intros K I S. destruct (edge_info A m text e1 I) as (pre1 & k1 & rest1 & EW1).
  assert (S1 : shows A text e1 (k1, e_entry e1)) by (exists pre1, rest1; split; [exact EW1|reflexivity]).
  rewrite <- (shows_key A text _ _ _ _ S1 S K). exact S1.
Qed.

Lemma tied_wins wl wl' : seg (admitted A m text) [] text wl -> seg (admitted A m text) [] text wl' ->
  tied_words A m text wl wl' -> wins_tie A wl wl'.
Proof.
  intros G1 G2 [->|(a & [k e0] & z & b & [k' e0'] & e & e' & -> & -> & NE & S1 & S2 & I1 & I2 & ST & POS & (n & n' & L & H1 & H2))]; [left; reflexivity|].
  right. exists a, k, e0, b, k', e0', z. split; [reflexivity|]. split; [reflexivity|]. split; [exact NE|].
  destruct (nth_error (scan A m text) n) as [x|] eqn:X1; [|discriminate]. destruct (nth_error (scan A m text) n') as [y|] eqn:Y1; [|discriminate].
  cbn [option_map] in H1, H2.
  assert (KX : key x = key e) by congruence. assert (KY : key y = key e') by congruence. clear H1 H2.
  pose proof (shows_same x e _ KX (nth_error_In _ _ X1) S1) as SX. pose proof (shows_same y e' _ KY (nth_error_In _ _ Y1) S2) as SY.
  assert (B : before (scan A m text) x y).
  { apply nth_error_split in X1 as (l1 & l2 & E & L1). rewrite E in *. clear - Y1 L L1.
    rewrite nth_error_app2 in Y1 by lia. replace (n' - length l1) with (S (n' - length l1 - 1)) in Y1 by lia. cbn [nth_error] in Y1.
    apply nth_error_In, in_split in Y1 as (b & c & ->). exists l1, b, c. reflexivity. }
  destruct (scan_ordered x y B) as [O1 O2].
  assert (XS : e_stop x = e_stop e /\ e_stop y = e_stop e') by (unfold key in *; split; congruence). destruct XS as [XS YS].
  destruct SX as (p1 & r1 & EW1 & EE1), SY as (p2 & r2 & EW2 & EE2). cbn [fst snd] in *.
  pose proof EW1 as (T1 & N1 & A1 & B1 & _). pose proof EW2 as (T2 & N2 & A2 & B2 & _).
  assert (SUF : r1 = concat (map fst z)).
  { pose proof (seg_suffix _ _ _ _ G1) as E. rewrite map_app, concat_app in E. cbn [map concat fst] in E.
    assert (E2 : (p1 ++ k) ++ r1 = (concat (map fst a) ++ k) ++ concat (map fst z)) by (rewrite <- !app_assoc; etransitivity; [symmetry; exact T1|symmetry; exact E]).
    apply app_same_blen in E2; [apply E2|].
    assert (BL : blen text = blen ((concat (map fst a) ++ k) ++ concat (map fst z))) by (rewrite <- app_assoc; f_equal; symmetry; exact E).
    rewrite !blen_app in *. lia. }
  destruct (Nat.eq_dec (e_start x) (e_start y)) as [Q|Q].
  - right. destruct (same_span _ _ _ _ _ _ _ _ EW1 EW2 Q ltac:(congruence)) as (_ & <- & _). split; [reflexivity|].
    rewrite <- SUF, <- EE1, <- EE2. apply (O2 Q ltac:(congruence) p1). exact EW1.
  - left.
    (* both end at the same place *)
    assert (E : (p1 ++ k) ++ r1 = (p2 ++ k') ++ r2) by (rewrite <- !app_assoc; congruence).
    apply app_same_blen in E; [|rewrite !blen_app; lia]. destruct E as [E _].
    assert (LT : blen p1 < blen p2) by lia.
    apply app_eq_app in E. destruct E as (u & [[-> ->]|[-> ->]]); [rewrite blen_app in LT; lia|].
    rewrite app_length. rewrite blen_app in LT. destruct u; [cbn in LT; lia|]. cbn [length]. lia.
Qed.
End Ties.
