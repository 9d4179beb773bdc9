(** How much the search does. *)
From Coq Require Import List NArith ZArith Bool Lia ZifyBool ZifyNat ZifyN.
From Verif Require Import MBase MUtf8 MText MCodec MDict MCharDef MUnk MLattice MTokenizer STok SWork LBase LUtf8 LScan LLat LEdge LTok.
Import ListNotations.

Lemma fold_left_ind {X Y} (f : X -> Y -> X) (P : nat -> X -> Prop) (l : list Y) : forall n x, P n x -> (forall i x y, nth_error l i = Some y -> P (n + i) x -> P (S (n + i)) (f x y)) ->
  P (n + length l) (fold_left f l x).
Proof.
  induction l as [|y l IH]; intros n x H S; cbn [fold_left length]; [rewrite Nat.add_0_r; exact H|].
  replace (n + Datatypes.S (length l)) with (Datatypes.S n + length l) by lia. apply IH.
  - specialize (S 0 x y eq_refl). rewrite Nat.add_0_r in S. apply S, H.
  - intros i x' y' E. specialize (S (Datatypes.S i) x' y' E). replace (n + Datatypes.S i) with (Datatypes.S n + i) in S by lia. exact S.
Qed.
Lemma list_sum_app a b : list_sum (a ++ b) = list_sum a + list_sum b.
Proof. induction a; cbn [list_sum fold_right app] in *; [reflexivity|]. unfold list_sum in *. cbn [fold_right]. lia. Qed.

Section Work.
Variable A : adict.
Variable m : mode.

Definition count (f : edge -> bool) (es : list edge) : nat := length (filter f es).
Lemma count_app f a b : count f (a ++ b) = count f a + count f b.
Proof. unfold count. rewrite filter_app, app_length. reflexivity. Qed.

(* what a position adds *)
Lemma unk_fold found start s ks : forall es ue, exists new ue', fold_left (unk_step A found start s) ks (es, ue) = (es ++ new, ue') /\
  Forall (fun e => e_start e = start) new /\ length new <= list_sum (map (fun ok => length (a_unk A (snd ok))) ks).
Proof.
  induction ks as [|[ord k] ks IH]; intros es ue; cbn [fold_left map snd]; [exists [], ue; rewrite app_nil_r; auto|].
  unfold unk_step at 2. destruct (unk_surface A found s ord k) as [w|].
  - destruct (IH (es ++ map (fun e => word_edge UNKNOWN start (w, e)) (a_unk A k)) (Some (start + blen w))) as (new & ue' & E & F & L). rewrite E.
    exists (map (fun e => word_edge UNKNOWN start (w, e)) (a_unk A k) ++ new), ue'. rewrite app_assoc. split; [reflexivity|]. split.
    + apply Forall_app. split; [|exact F]. apply Forall_forall. intros x I. apply in_map_iff in I. destruct I as (e & <- & _). reflexivity.
    + rewrite app_length, map_length. unfold list_sum in *. cbn [fold_right]. lia.
  - destruct (IH es ue) as (new & ue' & E & F & L). rewrite E. exists new, ue'. split; [reflexivity|]. split; [exact F|]. unfold list_sum in *. cbn [fold_right]. lia.
Qed.
Lemma enumerate_snd {X} (l : list X) : forall n, map snd (combine (seq n (length l)) l) = l.
Proof. induction l as [|x l IH]; intros n; cbn [length seq combine map snd]; [reflexivity|]. rewrite IH. reflexivity. Qed.

Lemma pos_adds start s es ue : exists new ue', pos_step A m start s (es, ue) = (es ++ new, ue') /\
  Forall (fun e => e_start e = start) new /\ length new <= words_at A s.
Proof.
  unfold pos_step. set (ks := map (word_edge KNOWN start) (dict_words A s)).
  assert (F : Forall (fun e => e_start e = start) ks) by (apply Forall_forall; intros x I; apply in_map_iff in I; destruct I as ([k e] & <- & _); reflexivity).
  assert (L : length ks = length (prefix_words (a_usr A) s) + length (prefix_words (a_sys A) s)) by (unfold ks, dict_words; rewrite map_length, app_length; reflexivity).
  destruct s as [|c r].
  - assert (ks = []) by (apply length_zero_iff_nil; rewrite L; reflexivity). exists [], ue. rewrite H. rewrite !app_nil_r. destruct (unk_active m ue start); auto.
  - destruct (unk_active m ue start).
    + destruct (unk_fold (negb (is_nil (dict_words A (c :: r)))) start (c :: r) (enumerate (a_cats A c)) (es ++ ks) ue) as (new & ue' & E & F' & L').
      exists (ks ++ new), ue'. rewrite app_assoc. split; [exact E|]. split; [apply Forall_app; auto|]. rewrite app_length. cbn [words_at].
      rewrite <- (map_map snd (fun k => length (a_unk A k))) in L'. unfold enumerate in L'. rewrite enumerate_snd in L'. lia.
    + exists ks, ue. split; [reflexivity|]. split; [exact F|]. cbn [words_at]. lia.
Qed.
Lemma count_start_new p start new : Forall (fun e => e_start e = start) new -> count (fun e => Nat.eqb (e_start e) p) new = if Nat.eqb start p then length new else 0.
Proof.
  unfold count. induction 1 as [|e new E F IH]; cbn [filter length]; [destruct (Nat.eqb start p); reflexivity|]. rewrite E. destruct (Nat.eqb start p); cbn [length]; lia.
Qed.

Variable text : str.
Definition w (start : nat) : nat := words_at A (suffix_at text start).

Lemma scan_counts : length (scan A m text) <= list_sum (map w (seq 0 (blen text))) /\
  forall p, count (fun e => Nat.eqb (e_start e) p) (scan A m text) <= if Nat.ltb p (blen text) then w p else 0.
Proof.
  unfold scan. set (P := fun (n : nat) (st : list edge * option nat) => length (fst st) <= list_sum (map w (seq 0 n)) /\
    forall p, count (fun e => Nat.eqb (e_start e) p) (fst st) <= if Nat.ltb p n then w p else 0).
  assert (X : P (0 + length (seq 0 (blen text))) (fold_left (pure_step A m text) (seq 0 (blen text)) ([], None))).
  { apply fold_left_ind.
    - split; [cbn; lia|]. intros p. cbn. lia.
    - intros i [es ue] start E [L C]. cbn [Nat.add fst] in *. assert (I : i < length (seq 0 (blen text))) by (apply nth_error_Some; congruence). rewrite seq_length in I.
      assert (start = i). { apply (nth_error_nth _ _ 0) in E. rewrite seq_nth in E by exact I. lia. } subst start.
      assert (SE : list_sum (map w (seq 0 (S i))) = list_sum (map w (seq 0 i)) + w i) by (rewrite seq_S, map_app, list_sum_app; cbn; lia).
      unfold pure_step. cbn [fst]. destruct (reachb es i).
      + destruct (pos_adds i (suffix_at text i) es ue) as (new & ue' & E' & F' & L'). rewrite E'. split; cbn [fst].
        * rewrite app_length, SE. change (words_at A (suffix_at text i)) with (w i) in L'. lia.
        * intros p. rewrite count_app, (count_start_new p i new F'). change (words_at A (suffix_at text i)) with (w i) in L'. specialize (C p).
          destruct (Nat.eqb_spec i p) as [<-|NE]; [|destruct (Nat.ltb_spec p i), (Nat.ltb_spec p (S i)); lia].
          rewrite Nat.ltb_irrefl in C. destruct (Nat.ltb_spec i (S i)); lia.
      + split; cbn [fst]; [lia|]. intros p. specialize (C p). destruct (Nat.ltb_spec p i), (Nat.ltb_spec p (S i)); lia. }
  rewrite seq_length in X. exact X.
Qed.
End Work.

Lemma suffix_at_inside c r i : 0 < i < width c -> suffix_at (c :: r) i = [].
Proof.
  intros [L H]. unfold suffix_at. destruct (str_from (c :: r) i) as [x| |] eqn:E; try reflexivity. apply str_from_inv in E. destruct E as ([|c' a] & E & B); cbn [blen] in B; [lia|].
  cbn [app] in E. injection E as <- E. lia.
Qed.
Lemma suffix_at_over c r i : suffix_at (c :: r) (width c + i) = suffix_at r i.
Proof.
  unfold suffix_at. destruct (str_from r i) as [x| |] eqn:E.
  - apply str_from_inv in E. destruct E as (a & -> & <-). change (c :: a ++ x) with ((c :: a) ++ x). change (width c + blen a) with (blen (c :: a)). rewrite str_from_app. reflexivity.
  - destruct (str_from (c :: r) (width c + i)) as [x| |] eqn:E'; try reflexivity. apply str_from_inv in E'. destruct E' as ([|c' a] & E' & B); cbn [blen] in B; [pose proof (width_pos c); lia|].
    cbn [app] in E'. injection E' as <- E'. subst r. assert (blen a = i) by lia. subst i. rewrite str_from_app in E. discriminate E.
  - destruct (str_from (c :: r) (width c + i)) as [x| |] eqn:E'; try reflexivity. apply str_from_inv in E'. destruct E' as ([|c' a] & E' & B); cbn [blen] in B; [pose proof (width_pos c); lia|].
    cbn [app] in E'. injection E' as <- E'. subst r. assert (blen a = i) by lia. subst i. rewrite str_from_app in E. discriminate E.
Qed.
Lemma sum_zero {X} (f : X -> nat) l : (forall x, In x l -> f x = 0) -> list_sum (map f l) = 0.
Proof. induction l as [|x l IH]; intros H; [reflexivity|]. cbn [map]. unfold list_sum in *. cbn [fold_right]. rewrite (H x (or_introl eq_refl)). rewrite IH; [reflexivity|]. intros y I. apply H. right. exact I. Qed.
Lemma sum_places A text : list_sum (map (w A text) (seq 0 (blen text))) = words_in A text.
Proof.
  induction text as [|c r IH]; [reflexivity|]. cbn [blen words_in]. rewrite seq_app, map_app, list_sum_app. f_equal.
  - pose proof (width_pos c) as WP. destruct (width c) as [|n] eqn:W; [lia|]. cbn [seq map]. unfold list_sum. cbn [fold_right]. change (fold_right Nat.add 0) with list_sum. rewrite sum_zero.
    + replace (w A (c :: r) 0) with (words_at A (c :: r)); [lia|]. unfold w, suffix_at. change (str_from (c :: r) 0) with (str_from ([] ++ c :: r) (blen [])). rewrite str_from_app. reflexivity.
    + intros i I. apply in_seq in I. unfold w. rewrite suffix_at_inside; [reflexivity|lia].
  - rewrite <- IH. f_equal. cbn [Nat.add]. assert (G : forall n i, map (w A (c :: r)) (seq (width c + i) n) = map (w A r) (seq i n)).
    { induction n as [|n IHn]; intros i; cbn [seq map]; [reflexivity|]. f_equal; [unfold w; rewrite suffix_at_over; reflexivity|]. replace (S (width c + i)) with (width c + S i) by lia. apply IHn. }
    specialize (G (blen r) 0). rewrite Nat.add_0_r in G. exact G.
Qed.

Lemma ids_from_length f es : forall n, length (ids_from n f es) = count f es.
Proof. unfold count. induction es as [|e es IH]; intros n; cbn [ids_from filter]; [reflexivity|]. destruct (f e); cbn [length]; rewrite IH; reflexivity. Qed.
Lemma count_values (f : edge -> nat) es n : list_sum (map (fun i => count (fun e => Nat.eqb (f e) i) es) (seq 0 n)) <= length es.
Proof.
  induction es as [|e es IH]; [rewrite sum_zero; [apply Nat.le_refl|reflexivity]|].
  assert (G : forall a k, list_sum (map (fun i => count (fun e => Nat.eqb (f e) i) (e :: es)) (seq a k)) <= list_sum (map (fun i => count (fun e => Nat.eqb (f e) i) es) (seq a k)) + (if (Nat.leb a (f e)) then 1 else 0)).
  { intros a k. revert a. induction k as [|k IHk]; intros a; [cbn; lia|]. cbn [seq map]. unfold list_sum. cbn [fold_right]. change (fold_right Nat.add 0) with list_sum. specialize (IHk (S a)).
    assert (C : count (fun e0 => Nat.eqb (f e0) a) (e :: es) = (if Nat.eqb (f e) a then 1 else 0) + count (fun e0 => Nat.eqb (f e0) a) es) by (unfold count; cbn [filter]; destruct (Nat.eqb (f e) a); reflexivity).
    rewrite C. destruct (Nat.eqb_spec (f e) a), (Nat.leb_spec a (f e)), (Nat.leb_spec (S a) (f e)); lia. }
  specialize (G 0 n). cbn [Nat.leb] in G. cbn [length]. lia.
Qed.
Lemma combine_map {X Y Z} (f : X -> Y) (g : X -> Z) l : combine (map f l) (map g l) = map (fun x => (f x, g x)) l.
Proof. induction l; cbn; congruence. Qed.
Lemma sum_le {X} (f g : X -> nat) l : (forall x, In x l -> f x <= g x) -> list_sum (map f l) <= list_sum (map g l).
Proof. induction l as [|x l IH]; intros H; [cbn; lia|]. cbn [map]. unfold list_sum in *. cbn [fold_right]. pose proof (H x (or_introl eq_refl)). specialize (IH (fun y I => H y (or_intror I))). lia. Qed.
Lemma sum_plus {X} (f g : X -> nat) l : list_sum (map (fun x => f x + g x) l) = list_sum (map f l) + list_sum (map g l).
Proof. induction l as [|x l IH]; [reflexivity|]. cbn [map]. unfold list_sum in *. cbn [fold_right]. lia. Qed.
Lemma sum_times {X} (f : X -> nat) k l : list_sum (map (fun x => f x * k) l) = list_sum (map f l) * k.
Proof. induction l as [|x l IH]; [reflexivity|]. cbn [map]. unfold list_sum in *. cbn [fold_right]. lia. Qed.
Lemma sum_one n : list_sum (map (fun i => if Nat.eqb i 0 then 1 else 0) (seq 0 (S n))) = 1.
Proof.
  cbn [seq map]. unfold list_sum. cbn [fold_right]. change (fold_right Nat.add 0) with list_sum. rewrite sum_zero; [reflexivity|]. intros i I. apply in_seq in I. destruct i; [lia|reflexivity].
Qed.

Lemma words_in_le A K text : (forall pre r, text = pre ++ r -> words_at A r <= K) -> words_in A text <= K * length text.
Proof.
  induction text as [|c r IH]; intros H; cbn [words_in length]; [lia|]. pose proof (H [] (c :: r) eq_refl). assert (words_in A r <= K * length r) by (apply IH; intros pre q ->; apply (H (c :: pre) q); reflexivity). lia.
Qed.

Theorem edges_bounded t A m s l : represents t A -> valid_str s -> s <> [] -> sentence_lattice t m s = Ok l ->
  length (word_edges l) <= words_in A s /\
  forall K, 1 <= K -> (forall pre r, s = pre ++ r -> words_at A r <= K) -> length (word_edges l) <= K * length s /\ comparisons l <= K * (K * length s + 1).
Proof.
  intros R V NE H. assert (E : l = lat_of (blen s) (blen s) (scan A m s)).
  { unfold sentence_lattice in H. rewrite (set_text_scan t A R) in H; [|exact V|exact NE|left; auto]. injection H as <-. reflexivity. }
  assert (E1 : word_edges l = scan A m s) by (subst l; reflexivity). destruct (scan_counts A m s) as [L C]. rewrite sum_places in L. rewrite E1. split; [exact L|].
  intros K K1 HK. pose proof (words_in_le A K s HK) as W. split; [lia|].
  subst l. unfold comparisons, lat_of. cbn [ends_at starts_at]. rewrite combine_map, map_map.
  assert (ST : forall i, length (starts_of (blen s) (scan A m s) i) <= K).
  { intros i. unfold starts_of. rewrite app_length, ids_from_length. specialize (C i). destruct (Nat.eqb_spec i (blen s)) as [->|N]; cbn [length].
    - rewrite Nat.ltb_irrefl in C. lia.
    - destruct (Nat.ltb i (blen s)); [|lia]. assert (w A s i <= K); [|lia]. unfold w, suffix_at. destruct (str_from s i) as [x| |] eqn:E; try (cbn [words_at]; lia). apply str_from_inv in E. destruct E as (a & E & _). apply (HK a x E). }
  eapply Nat.le_trans; [apply (sum_le _ (fun i => length (ends_of (scan A m s) i) * K)); intros i _; apply Nat.mul_le_mono_l, ST|].
  rewrite sum_times.
  assert (EN : list_sum (map (fun i => length (ends_of (scan A m s) i)) (seq 0 (S (blen s)))) <= 1 + length (scan A m s)).
  { eapply Nat.le_trans; [apply (sum_le _ (fun i => (if Nat.eqb i 0 then 1 else 0) + count (fun e => Nat.eqb (e_stop e) i) (scan A m s)))|].
    - intros i _. unfold ends_of. rewrite app_length, ids_from_length. destruct (Nat.eqb i 0); cbn [length]; lia.
    - rewrite sum_plus, sum_one. pose proof (count_values e_stop (scan A m s) (S (blen s))). lia. }
  nia.
Qed.

Lemma prefix_words_size tbl n e s : table_size tbl n e -> length (prefix_words tbl s) <= n * e.
Proof.
  intros T. unfold prefix_words.
  assert (G : forall k a, 1 <= a -> a + k <= S (length s) -> length (flat_map (fun i => map (pair (firstn i s)) (entries_of tbl (firstn i s))) (seq a k)) <= (S n - a) * e).
  { intros k. induction k as [|k IH]; intros a A1 A2; [cbn; lia|]. cbn [seq flat_map]. rewrite app_length, map_length. specialize (IH (S a) ltac:(lia) ltac:(lia)).
    destruct (T (firstn a s)) as [T1 T2]. rewrite firstn_length_le in T2 by lia. destruct (Nat.le_gt_cases a n) as [AN|AN].
    - replace (S n - a) with (S (S n - S a)) by lia. cbn [Nat.mul]. lia.
    - destruct (entries_of tbl (firstn a s)) as [|x q]; [|exfalso; assert (a <= n) by (apply T2; discriminate); lia]. cbn [length]. replace (S n - a) with 0 by lia. replace (S n - S a) with 0 in IH by lia. lia. }
  specialize (G (length s) 1 ltac:(lia) ltac:(lia)). replace (S n - 1) with n in G by lia. exact G.
Qed.
Theorem words_bounded A n e c u s : dict_size A n e c u -> words_at A s <= 2 * n * e + c * u.
Proof.
  intros D. destruct s as [|ch r]; cbn [words_at]; [lia|]. pose proof (prefix_words_size _ _ _ (ch :: r) (size_sys _ _ _ _ _ D)). pose proof (prefix_words_size _ _ _ (ch :: r) (size_usr _ _ _ _ _ D)).
  assert (L : list_sum (map (fun k => length (a_unk A k)) (a_cats A ch)) <= length (a_cats A ch) * u).
  { generalize (a_cats A ch). induction l as [|k l IH]; [cbn; lia|]. cbn [map length]. unfold list_sum in *. cbn [fold_right]. pose proof (size_unk _ _ _ _ _ D k). lia. }
  pose proof (size_cats _ _ _ _ _ D ch). nia.
Qed.
Theorem linear_work t A m s l n e c u : represents t A -> dict_size A n e c u -> valid_str s -> s <> [] -> sentence_lattice t m s = Ok l ->
  let K := 2 * n * e + c * u + 1 in length (word_edges l) <= K * length s /\ comparisons l <= K * (K * length s + 1).
Proof.
  intros R D V NE H K. destruct (edges_bounded t A m s l R V NE H) as [_ B]. apply B; [subst K; lia|]. intros pre r _. pose proof (words_bounded A n e c u r D). subst K. lia.
Qed.

Lemma tiles_from_count text ts : forall off pos, tiles_from off pos text ts -> length ts <= length text.
Proof.
  revert text. induction ts as [|tk ts IH]; intros text off pos H; cbn [length]; [lia|]. cbn [tiles_from] in H. destruct H as (NE & _ & _ & _ & _ & rest & -> & H). apply IH in H. rewrite app_length. destruct (tk_text tk); [congruence|]. cbn [length]. lia.
Qed.
Theorem few_tokens t A text ts : represents t A -> valid_str text -> covered A text -> tokenize t text = Some (Ok ts) -> length ts <= length text.
Proof.
  intros R V C H. destruct (tokenize_tiles t A R text V C) as (ts' & E & T). rewrite H in E. injection E as <-. eapply tiles_from_count, T.
Qed.
