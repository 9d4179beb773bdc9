(** The words of the lattice, exactly, whether or not the text is covered. *)
From Coq Require Import List NArith ZArith Bool Lia Wf_nat ZifyBool ZifyNat ZifyN.
From Verif Require Import MBase MUtf8 MText MCodec MDict MCharDef MUnk MLattice MTokenizer STok LBase LUtf8 LScan LLat LVit LSeg LCon.
Import ListNotations.

Section Exact.
Variable A : adict.
Variable m : mode.
Variable text : str.

Notation W := (admitted A m text).
Notation st := (state_at A m text).

Definition active_at (pre : str) : Prop :=
  (exists r, text = pre ++ r /\ r <> []) /\ reachb (scan A m text) (blen pre) = true /\
  unk_active m (snd (st (blen pre))) (blen pre) = true.

Definition found_at (s : str) : bool := negb (is_nil (dict_words A s)).

Lemma span_surface c r ord w : span_at A (c :: r) ord w <->
  exists cat, In (ord, cat) (enumerate (a_cats A c)) /\ unk_surface A (found_at (c :: r)) (c :: r) ord cat = Some w.
Proof.
  split.
  - intros (c0 & r0 & cat & E & HC & IV & (c' & run & rest & E2 & -> & G)). injection E as <- <-. injection E2 as <- ->.
    exists cat. split.
    { unfold enumerate. apply enumerate_in. split; [lia|]. rewrite Nat.sub_0_r. exact HC. }
    unfold unk_surface, found_at.
    assert (B : a_invoke A cat || negb (negb (is_nil (dict_words A (c :: run ++ rest)))) = true).
    { destruct IV as [->|IV]; [reflexivity|]. destruct (dict_words A (c :: run ++ rest)) as [|[k0 e0] l] eqn:DW; [apply orb_true_r|].
      exfalso. apply (IV k0 e0). apply dict_words_in. rewrite DW. left. reflexivity. }
    rewrite B. f_equal. cbn [tl].
    destruct (a_group A cat).
    + destruct G as [G1 G2]. rewrite run_len_exact by assumption. cbn [firstn]. rewrite firstn_app_exact. reflexivity.
    + subst run. reflexivity.
  - intros (cat & I & U). pose proof (unk_surface_span _ _ _ _ _ _ _ U) as (SP & IV).
    exists c, r, cat. split; [reflexivity|]. split; [apply enumerate_cat; exact I|]. split; [|exact SP].
    destruct IV as [IV|IV]; [left; exact IV|right]. apply dict_words_nil. apply is_nil_false. exact IV.
Qed.

(* what one position does to the end of the latest span *)
Lemma unk_fold_snd found p s cats : forall es ue,
  (forall i j, nth_error (map fst cats) i = Some j -> forall i' j', nth_error (map fst cats) i' = Some j' -> i < i' -> j < j') ->
  (exists ord cat w, In (ord, cat) cats /\ unk_surface A found s ord cat = Some w /\
     snd (fold_left (unk_step A found p s) cats (es, ue)) = Some (p + blen w) /\
     forall ord' cat' w', In (ord', cat') cats -> unk_surface A found s ord' cat' = Some w' -> ord' <= ord) \/
  (snd (fold_left (unk_step A found p s) cats (es, ue)) = ue /\
     forall ord cat, In (ord, cat) cats -> unk_surface A found s ord cat = None).
Proof.
  induction cats as [|[o k] cats IH]; intros es ue SO; cbn [fold_left]; [right; split; [reflexivity|intros ? ? []]|].
  assert (SO' : forall i j, nth_error (map fst cats) i = Some j -> forall i' j', nth_error (map fst cats) i' = Some j' -> i < i' -> j < j').
  { intros i j H i' j' H' L. apply (SO (S i) j H (S i') j' H'). lia. }
  destruct (unk_step A found p s (es, ue) (o, k)) as [es1 ue1] eqn:E.
  destruct (IH es1 ue1 SO') as [(ord & cat & w & I & U & S1 & MX)|[S1 NO]].
  - left. exists ord, cat, w. split; [right; exact I|]. split; [exact U|]. split; [exact S1|].
    intros ord' cat' w' [J|J] U'; [|eapply MX; eassumption]. injection J as -> ->.
    apply (in_map fst) in I. cbn [fst] in I. apply In_nth_error in I as [i I].
    assert (L : ord' < ord) by (apply (SO 0 ord' eq_refl (S i) ord I); lia). lia.
  - unfold unk_step in E. destruct (unk_surface A found s o k) as [w|] eqn:U; injection E as <- <-.
    + left. exists o, k, w. split; [left; reflexivity|]. split; [exact U|]. split; [exact S1|].
      intros ord' cat' w' [J|J] U'; [injection J as <- <-; lia|]. rewrite (NO _ _ J) in U'. discriminate.
    + right. split; [exact S1|]. intros ord cat [J|J]; [injection J as <- <-; exact U|eapply NO; exact J].
Qed.

Lemma enumerate_sorted {X} (l : list X) i j i' j' :
  nth_error (map fst (enumerate l)) i = Some j -> nth_error (map fst (enumerate l)) i' = Some j' -> i < i' -> j < j'.
Proof.
  unfold enumerate. intros H H' L.
  assert (M : forall (x : list X) a, map fst (combine (seq a (length x)) x) = seq a (length x)).
  { intros x. induction x as [|y x IH]; intros a; cbn; [reflexivity|]. rewrite IH. reflexivity. }
  rewrite M in H, H'.
  assert (K : forall n a i j, nth_error (seq a n) i = Some j -> j = a + i).
  { intros n. induction n as [|n IH]; intros a [|i0] j0 Q; cbn in Q; try discriminate; [injection Q as <-; lia|].
    apply IH in Q. lia. }
  apply K in H, H'. lia.
Qed.

Lemma pos_step_snd p s es ue :
  (exists w, last_span A s w /\ unk_active m ue p = true /\ snd (pos_step A m p s (es, ue)) = Some (p + blen w)) \/
  ((unk_active m ue p = true -> forall ord w, ~ span_at A s ord w) /\ snd (pos_step A m p s (es, ue)) = ue).
Proof.
  unfold pos_step. destruct (unk_active m ue p) eqn:UA; [|right; split; [discriminate|reflexivity]].
  destruct s as [|c r]; [right; split; [intros _ ord w (? & ? & ? & ? & _); discriminate|reflexivity]|].
  fold (found_at (c :: r)).
  destruct (unk_fold_snd (found_at (c :: r)) p (c :: r) (enumerate (a_cats A c))
              (es ++ map (word_edge KNOWN p) (dict_words A (c :: r))) ue) as [(ord & cat & w & I & U & S1 & MX)|[S1 NO]].
  { intros i j H i' j' H' L. eapply enumerate_sorted; eassumption. }
  - left. exists w. split; [|split; [reflexivity|exact S1]]. exists ord. split; [apply span_surface; exists cat; auto|].
    intros ord' w' H. apply span_surface in H as (cat' & I' & U'). eapply MX; eassumption.
  - right. split; [|exact S1]. intros _ ord w H. apply span_surface in H as (cat & I & U). rewrite (NO _ _ I) in U. discriminate.
Qed.

Lemma reachb_at_iff p : p < blen text -> reachb (fst (st p)) p = reachb (scan A m text) p.
Proof.
  intros L. destruct (reachb (scan A m text) p) eqn:E; [apply reach_at; assumption|].
  destruct (reachb (fst (st p)) p) eqn:E2; [|reflexivity]. exfalso.
  destruct (scan_split A m text p L) as (new & ES & _). rewrite state_S in ES.
  destruct (st p) as [es ue]. destruct (pure_step_grows A m text es ue p) as (n1 & EQ & _). rewrite EQ in ES. cbn [fst] in E2.
  rewrite ES, <- app_assoc in E. rewrite (reachb_app _ _ _ E2) in E. discriminate.
Qed.

(* the position p is active and the last span there is w *)
Definition spans (p n : nat) : Prop := exists pre r w, text = pre ++ r /\ blen pre = p /\ active_at pre /\ last_span A r w /\ n = p + blen w.

Lemma span_last s ord w : span_at A s ord w -> exists w', last_span A s w'.
Proof.
  intros H. destruct (pos_step_snd 0 s [] None) as [(w' & L & _)|[N _]]; [exists w'; exact L|].
  exfalso. apply (N ltac:(unfold unk_active; destruct (is_search m); reflexivity) ord w). exact H.
Qed.

Lemma span_at_inj s ord w w' : span_at A s ord w -> span_at A s ord w' -> w = w'.
Proof.
  destruct s as [|c r]; [intros (? & ? & ? & ? & _); discriminate|].
  intros H H'. apply span_surface in H as (k & I & U). apply span_surface in H' as (k' & I' & U').
  apply enumerate_cat in I, I'. unfold has_cat in *. congruence.
Qed.

Lemma last_span_inj s w w' : last_span A s w -> last_span A s w' -> w = w'.
Proof.
  intros (o & H & M) (o' & H' & M'). assert (o = o') by (pose proof (M _ _ H'); pose proof (M' _ _ H); lia). subst o'.
  eapply span_at_inj; eassumption.
Qed.

Lemma state_snd p : p <= blen text ->
  match snd (st p) with
  | Some n => exists q, q < p /\ spans q n /\ forall q' n', q < q' < p -> ~ spans q' n'
  | None => forall q n, q < p -> ~ spans q n
  end.
Proof.
  induction p as [|p IH]; intros L; [cbn; intros; lia|].
  specialize (IH ltac:(lia)). rewrite state_S. unfold pure_step. rewrite reachb_at_iff by lia.
  pose proof (scan_ok A m text) as OK.
  assert (NS : forall ue, ue = snd (st p) -> (forall n, ~ spans p n) ->
    match ue with
    | Some n => exists q, q < S p /\ spans q n /\ forall q' n', q < q' < S p -> ~ spans q' n'
    | None => forall q n, q < S p -> ~ spans q n
    end).
  { intros ue -> N. destruct (snd (st p)) as [n|].
    - destruct IH as (q & H1 & H2 & H3). exists q. split; [lia|]. split; [exact H2|].
      intros q' n' Q. destruct (Nat.eq_dec q' p) as [->|NE]; [apply N|apply H3; lia].
    - intros q n Q. destruct (Nat.eq_dec q p) as [->|NE]; [apply N|apply IH; lia]. }
  destruct (reachb (scan A m text) p) eqn:RB.
  - destruct (reach_boundary A text _ _ OK RB) as (pre & s & T & EP).
    assert (SX : suffix_at text p = s) by (rewrite T, <- EP; apply suffix_at_app). rewrite SX.
    assert (UQ : forall pre' r', text = pre' ++ r' -> blen pre' = p -> pre' = pre /\ r' = s).
    { intros pre' r' T' E'. rewrite T in T'. apply app_same_blen in T'; [|lia]. destruct T' as [-> ->]. auto. }
    assert (NE : s <> []) by (intros ->; rewrite T, app_nil_r in L; lia).
    destruct (st p) as [es ue] eqn:ST.
    destruct (pos_step_snd p s es ue) as [(w & LS & UA & ->)|[NO E]].
    + exists p. split; [lia|]. split.
      * exists pre, s, w. split; [exact T|]. split; [exact EP|]. split; [|auto].
        split; [exists s; auto|]. rewrite EP, ST. auto.
      * intros; lia.
    + rewrite E. apply NS; [reflexivity|]. intros n (pre' & r' & w & T' & E' & (_ & _ & UA) & LS & _).
      destruct (UQ _ _ T' E') as [-> ->]. destruct LS as (ord & LS & _). rewrite EP, ST in UA. apply (NO UA _ _ LS).
  - apply NS; [reflexivity|]. intros n (pre' & r' & w & T' & E' & (_ & RB' & _) & _). rewrite E' in RB'. congruence.
Qed.

Lemma last_end_snd pre n : blen pre <= blen text -> last_end A text active_at pre n -> snd (st (blen pre)) = Some n.
Proof.
  intros L (pre' & r & w & T & AC & LT & LS & -> & NO). pose proof (state_snd (blen pre) L) as SS.
  assert (SP : spans (blen pre') (blen pre' + blen w)) by (exists pre', r, w; auto).
  destruct (snd (st (blen pre))) as [n|]; [|exfalso; eapply SS; [exact LT|exact SP]].
  destruct SS as (q & Q1 & (pq & rq & wq & T1 & E1 & A1 & L1 & ->) & Q3). f_equal.
  destruct (lt_eq_lt_dec q (blen pre')) as [[H|H]|H].
  - exfalso. eapply Q3; [|exact SP]. lia.
  - subst q. rewrite T1 in T. apply app_same_blen in T; [|lia]. destruct T as [-> ->].
    rewrite (last_span_inj _ _ _ L1 LS). lia.
  - exfalso. destruct L1 as (ord & L1 & _). eapply (NO pq rq); [exact T1|exact A1|lia|exact L1].
Qed.

Lemma snd_last_end pre n : blen pre <= blen text -> snd (st (blen pre)) = Some n -> last_end A text active_at pre n.
Proof.
  intros L E. pose proof (state_snd (blen pre) L) as SS. rewrite E in SS.
  destruct SS as (q & Q1 & (pq & rq & wq & T1 & E1 & A1 & L1 & ->) & Q3). subst q.
  exists pq, rq, wq. repeat (split; [solve [auto]|]). intros q r' ord w' T AC LT SP.
  destruct (span_last _ _ _ SP) as [w2 LS]. apply (Q3 (blen q) (blen q + blen w2)); [exact LT|].
  exists q, r', w2. auto.
Qed.

Lemma active_iff pre : active_at pre <->
  ((exists r, text = pre ++ r /\ r <> []) /\ reach W text pre /\
   (is_search m = true \/ forall n, last_end A text active_at pre n -> n <= blen pre)).
Proof.
  split.
  - intros ((r & T & NE) & RB & UA). split; [exists r; auto|]. split; [eapply reachb_reach; eauto|].
    unfold unk_active in UA. apply orb_true_iff in UA as [UA|UA]; [left; exact UA|right]. intros n H.
    apply last_end_snd in H; [|rewrite T, blen_app; lia]. rewrite H in UA. apply Nat.leb_le. exact UA.
  - intros ((r & T & NE) & RE & UA). split; [exists r; auto|]. split; [apply reach_reachb; exact RE|].
    unfold unk_active. destruct UA as [->|UA]; [reflexivity|]. apply orb_true_iff. right.
    destruct (snd (st (blen pre))) as [n|] eqn:E; [|reflexivity]. apply Nat.leb_le. apply UA.
    apply snd_last_end; [rewrite T, blen_app; lia|exact E].
Qed.

Lemma unk_edges_active pre s k e : text = pre ++ s -> active_at pre -> unknown_word A s k e ->
  In (word_edge UNKNOWN (blen pre) (k, e)) (scan A m text).
Proof.
  intros T (_ & RB & UA) UW.
  assert (L : blen pre < blen text).
  { destruct UW as (c & r & _ & _ & -> & _). rewrite T, blen_app.
    assert (0 < blen (c :: r)) by (apply blen_pos; discriminate). lia. }
  destruct (unk_surface_exact A s k e UW) as (c & r & ord & cat & -> & I & U & US).
  apply (in_state_scan A m text (blen pre)); [exact L|]. rewrite state_S.
  unfold pure_step. rewrite (reach_at _ _ _ _ L RB). rewrite T at 1. rewrite suffix_at_app.
  destruct (st (blen pre)) as [es ue]. unfold pos_step. cbn [snd] in UA. rewrite UA.
  eapply unk_fold_in; [exact I|exact US|exact U].
Qed.

(* unknown edges come from active positions *)
Lemma edge_active ed pre k rest : In ed (scan A m text) -> edge_word A text ed pre k rest -> e_type ed <> KNOWN -> active_at pre.
Proof.
  intros I EW TY. pose proof EW as (T & NE & S1 & S2 & _). pose proof (blen_pos k NE) as KP.
  assert (L : blen pre < blen text) by (rewrite T, !blen_app; lia).
  pose proof (scan_reachable A m text) as SR. unfold starts_reachable in SR. rewrite Forall_forall in SR. pose proof (SR ed I) as RB. rewrite S1 in RB.
  split; [exists (k ++ rest); split; [exact T|destruct k; [congruence|discriminate]]|]. split; [exact RB|].
  destruct (unk_active m (snd (st (blen pre))) (blen pre)) eqn:UA; [reflexivity|exfalso].
  destruct (scan_split A m text (blen pre) L) as (new & ES & F). rewrite ES in I. apply in_app_iff in I as [I|I].
  2:{ rewrite Forall_forall in F. apply F in I. lia. }
  rewrite state_S in I. unfold pure_step in I. rewrite (reach_at _ _ _ _ L RB) in I. rewrite T in I at 1. rewrite suffix_at_app in I.
  pose proof (state_starts A m text (blen pre)) as SS. rewrite Forall_forall in SS.
  destruct (st (blen pre)) as [es ue]. unfold pos_step in I. cbn [snd] in UA. rewrite UA in I. cbn [fst] in *.
  apply in_app_iff in I as [I|I]; [apply SS in I; lia|]. apply in_map_iff in I as ([k0 e0] & <- & _). apply TY. reflexivity.
Qed.

Lemma searched_admitted : searched A m text W active_at.
Proof.
  constructor; [|exact active_iff]. intros pre r k e. split.
  - intros H. destruct (admitted_reach _ _ _ _ _ _ _ H) as [T RE]. split; [exact T|]. split; [exact RE|].
    destruct H as (ed & rest & I & -> & EW & <-). pose proof EW as (_ & _ & _ & _ & _ & _ & _ & _ & K1 & K2).
    destruct (e_type ed) eqn:TY; [left; apply K1; reflexivity| | |];
      (right; split; [eapply edge_active; [exact I|exact EW|rewrite TY; discriminate]|apply K2; discriminate]).
  - intros (T & RE & [D|[AC U]]).
    + pose proof D as (NE & (rest & ->) & _). exists (word_edge KNOWN (blen pre) (k, e)), rest.
      split; [apply (dict_edges_present A m text pre (k ++ rest)); auto; apply reach_reachb; exact RE|].
      split; [reflexivity|]. split; [|reflexivity]. apply word_edge_word; auto; [left; exact D|congruence].
    + destruct (unknown_prefix A _ _ _ U) as (NE & rest & ->).
      exists (word_edge UNKNOWN (blen pre) (k, e)), rest. split; [apply (unk_edges_active pre (k ++ rest)); auto|].
      split; [reflexivity|]. split; [|reflexivity]. apply word_edge_word; auto; [right; exact U|discriminate].
Qed.

End Exact.

(** ** The searched words are determined *)

Lemma searched_nonempty A m s W Act pre r k e : searched A m s W Act -> W pre r k e -> k <> [].
Proof.
  intros H H1. apply (srch_words _ _ _ _ _ H) in H1 as (_ & _ & [(NE & _)|[_ U]]); [exact NE|].
  eapply unknown_prefix. exact U.
Qed.

Lemma searched_unique A m s W Act W' Act' : searched A m s W Act -> searched A m s W' Act' ->
  (forall pre r k e, W pre r k e <-> W' pre r k e) /\ (forall pre, Act pre <-> Act' pre).
Proof.
  intros H H'.
  assert (G : forall n W Act W' Act', searched A m s W Act -> searched A m s W' Act' ->
    forall pre, blen pre <= n -> (reach W s pre -> reach W' s pre) /\ (forall r k e, W pre r k e -> W' pre r k e) /\ (Act pre -> Act' pre)).
  { clear. intros n. induction n as [n IH] using lt_wf_ind. intros W Act W' Act' H H' pre L.
    assert (RR : reach W s pre -> reach W' s pre).
    { intros RE. destruct RE as [|pre k rest e RE T HW]; [constructor|].
      pose proof (searched_nonempty _ _ _ _ _ _ _ _ _ H HW) as NE. pose proof (blen_pos k NE). rewrite blen_app in L.
      destruct (IH (blen pre) ltac:(lia) W Act W' Act' H H' pre (le_n _)) as (I1 & I2 & _).
      eapply reach_step; [apply I1; exact RE|exact T|apply I2; exact HW]. }
    assert (AA : Act pre -> Act' pre).
    { intros AC. apply (srch_active _ _ _ _ _ H) in AC as (X1 & X2 & X3). apply (srch_active _ _ _ _ _ H').
      split; [exact X1|]. split; [apply RR; exact X2|]. destruct X3 as [X3|X3]; [left; exact X3|right].
      intros q (pre' & r & w & T & AC & LT & LS & -> & NO). apply X3. exists pre', r, w.
      split; [exact T|]. split; [apply (IH (blen pre') ltac:(lia) W' Act' W Act H' H pre' (le_n _)); exact AC|].
      split; [exact LT|]. split; [exact LS|]. split; [reflexivity|].
      intros q r' ord w' TQ AQ LQ. apply (NO q r' ord w' TQ); [|exact LQ].
      apply (IH (blen q) ltac:(lia) W Act W' Act' H H' q (le_n _)); exact AQ. }
    split; [exact RR|]. split; [|exact AA]. intros r k e HW. apply (srch_words _ _ _ _ _ H) in HW as (X1 & X2 & X3).
    apply (srch_words _ _ _ _ _ H'). split; [exact X1|]. split; [apply RR; exact X2|].
    destruct X3 as [X3|[X3 X4]]; [left; exact X3|right; auto]. }
  split.
  - intros pre r k e. split; intros X.
    + apply (G (blen pre) W Act W' Act' H H' pre (le_n _)); exact X.
    + apply (G (blen pre) W' Act' W Act H' H pre (le_n _)); exact X.
  - intros pre. split; intros X.
    + apply (G (blen pre) W Act W' Act' H H' pre (le_n _)); exact X.
    + apply (G (blen pre) W' Act' W Act H' H pre (le_n _)); exact X.
Qed.

(* segmentations into dictionary words are always searched; in search mode all segmentations are *)
Lemma searched_dict A m s W Act pre r wl : searched A m s W Act -> seg (fun _ => dict_word A) pre r wl -> s = pre ++ r -> reach W s pre -> seg W pre r wl.
Proof.
  intros H S. induction S as [pre|pre k e rest wl NE P S IH]; intros T RE; [constructor|].
  assert (WW : W pre (k ++ rest) k e) by (apply (srch_words _ _ _ _ _ H); auto).
  constructor; auto. apply IH; [rewrite <- app_assoc; exact T|]. eapply reach_step; eauto.
Qed.

Lemma searched_all A m s W Act pre r wl : searched A m s W Act -> is_search m = true ->
  seg (fun _ => candidate A) pre r wl -> s = pre ++ r -> reach W s pre -> seg W pre r wl.
Proof.
  intros H SM S. induction S as [pre|pre k e rest wl NE P S IH]; intros T RE; [constructor|].
  assert (WW : W pre (k ++ rest) k e).
  { apply (srch_words _ _ _ _ _ H). split; [exact T|]. split; [exact RE|]. destruct P as [P|P]; [left; exact P|right].
    split; [|exact P]. apply (srch_active _ _ _ _ _ H). split; [|auto]. exists (k ++ rest). split; [exact T|].
    destruct k; [congruence|discriminate]. }
  constructor; auto. apply IH; [rewrite <- app_assoc; exact T|]. eapply reach_step; eauto.
Qed.

Lemma searched_candidate A m s W Act pre r k e : searched A m s W Act -> W pre r k e -> candidate A r k e.
Proof. intros H X. apply (srch_words _ _ _ _ _ H) in X as (_ & _ & [X|[_ X]]); [left|right]; exact X. Qed.

(** ** The answer is determined *)

Lemma before_in {X} (l : list X) x y : before l x y -> In x l /\ In y l.
Proof.
  intros (a & b & c & ->). split; apply in_app_iff; right; [left; reflexivity|]. right. apply in_app_iff. right. left. reflexivity.
Qed.

Lemma before_asym {X} (l : list X) x y : NoDup l -> before l x y -> before l y x -> False.
Proof.
  intros ND (a & b & c & E) (a' & b' & c' & E').
  assert (P : nth_error l (length a) = Some x) by (rewrite E, nth_error_app2, Nat.sub_diag by lia; reflexivity).
  assert (Q : nth_error l (length a + S (length b)) = Some y).
  { rewrite E, nth_error_app2 by lia. replace (length a + S (length b) - length a) with (S (length b)) by lia. cbn.
    rewrite nth_error_app2, Nat.sub_diag by lia. reflexivity. }
  assert (P' : nth_error l (length a') = Some y) by (rewrite E', nth_error_app2, Nat.sub_diag by lia; reflexivity).
  assert (Q' : nth_error l (length a' + S (length b')) = Some x).
  { rewrite E', nth_error_app2 by lia. replace (length a' + S (length b') - length a') with (S (length b')) by lia. cbn.
    rewrite nth_error_app2, Nat.sub_diag by lia. reflexivity. }
  rewrite NoDup_nth_error in ND.
  assert (X1 : length a = length a' + S (length b')) by (apply ND; [apply nth_error_Some; congruence|congruence]).
  assert (X2 : length a' = length a + S (length b)) by (apply ND; [apply nth_error_Some; congruence|congruence]).
  lia.
Qed.

Lemma has_cat_inj A c o o' k : distinct_entries A -> has_cat A o k c -> has_cat A o' k c -> o = o'.
Proof.
  intros D H H'. pose proof (de_cats _ D c) as ND. rewrite NoDup_nth_error in ND. unfold has_cat in *.
  apply ND; [apply nth_error_Some; congruence|congruence].
Qed.

Lemma unknown_by_inj A s o k o' k' w w' e : distinct_entries A -> unknown_by A s o k w e -> unknown_by A s o' k' w' e -> o = o' /\ k = k'.
Proof.
  intros D (c & r & -> & H & _ & _ & U) (c' & r' & E & H' & _ & _ & U'). injection E as <- <-.
  pose proof (de_cat _ D _ _ _ _ (nth_error_In _ _ H) (nth_error_In _ _ H') U U'). subst k'. split; [|reflexivity]. eapply has_cat_inj; eassumption.
Qed.

Lemma ranked_asym A s k e e' : distinct_entries A -> ranked A s k e e' -> ranked A s k e' e -> False.
Proof.
  intros D.
  assert (KD : forall e, In e (entries_of (a_usr A) k ++ entries_of (a_sys A) k) -> forall o c, unknown_by A s o c k e -> False).
  { intros x I o c (? & ? & _ & _ & _ & _ & U). eapply de_kind; eassumption. }
  assert (KW : forall e, In e (entries_of (a_usr A) k ++ entries_of (a_sys A) k) -> unknown_word A s k e -> False).
  { intros x I (? & ? & ? & ? & _ & _ & _ & _ & U). eapply de_kind; eassumption. }
  intros [B|I U|o c o' c' U1 U2 L|o c U1 U2 B] [B2|I2 V|p d p' d' V1 V2 L2|p d V1 V2 B2].
  all: try (apply before_in in B as IB); try (apply before_in in B2 as IB2).
  all: try solve [eapply KD; [|eassumption]; tauto].
  all: try solve [eapply KW; [|eassumption]; tauto].
  - eapply before_asym; [apply (de_dict _ D)|exact B|exact B2].
  - destruct (unknown_by_inj _ _ _ _ _ _ _ _ _ D U1 V2), (unknown_by_inj _ _ _ _ _ _ _ _ _ D U2 V1). lia.
  - destruct (unknown_by_inj _ _ _ _ _ _ _ _ _ D U1 V2), (unknown_by_inj _ _ _ _ _ _ _ _ _ D U2 V1). lia.
  - destruct (unknown_by_inj _ _ _ _ _ _ _ _ _ D U1 V2), (unknown_by_inj _ _ _ _ _ _ _ _ _ D U2 V1). lia.
  - destruct (unknown_by_inj _ _ _ _ _ _ _ _ _ D U1 V2) as [_ ->]. eapply before_asym; [apply (de_unk _ D)|exact B|exact B2].
Qed.

Lemma first_difference {X} (p : list X) : forall q x y x2 y2 a b a2 b2,
  p ++ x :: a = q ++ y2 :: a2 -> p ++ y :: b = q ++ x2 :: b2 -> x <> y -> x2 <> y2 -> p = q /\ x = y2 /\ y = x2.
Proof.
  induction p as [|h p IH]; intros [|g q] x y x2 y2 a b a2 b2 E1 E2 N1 N2; cbn in *.
  - injection E1 as -> _. injection E2 as -> _. auto.
  - congruence.
  - congruence.
  - injection E1 as -> E1. injection E2 as E2. destruct (IH q _ _ _ _ _ _ _ _ E1 E2 N1 N2) as (-> & H). auto.
Qed.

Lemma wins_tie_asym A ws ws' : distinct_entries A -> wins_tie A ws ws' -> wins_tie A ws' ws -> ws = ws'.
Proof.
  intros D [H|(a & k & e & b & k' & e' & z & E1 & E2 & NE & H)] [H2|(a2 & k2 & e2 & b2 & k2' & e2' & z2 & E3 & E4 & NE2 & H2)]; auto.
  exfalso.
  assert (R1 : rev z ++ (k, e) :: rev a = rev z2 ++ (k2', e2') :: rev b2).
  { apply (f_equal (@rev _)) in E1, E4. rewrite rev_app_distr in E1, E4. cbn [rev] in E1, E4. rewrite <- app_assoc in E1, E4. cbn [app] in E1, E4. congruence. }
  assert (R2 : rev z ++ (k', e') :: rev b = rev z2 ++ (k2, e2) :: rev a2).
  { apply (f_equal (@rev _)) in E2, E3. rewrite rev_app_distr in E2, E3. cbn [rev] in E2, E3. rewrite <- app_assoc in E2, E3. cbn [app] in E2, E3. congruence. }
  destruct (first_difference _ _ _ _ _ _ _ _ _ _ R1 R2 NE NE2) as (EZ & X & Y).
  apply (f_equal (@rev _)) in EZ. rewrite !rev_involutive in EZ. subst z2. injection X as <- <-. injection Y as <- <-.
  destruct H as [H|[-> H]], H2 as [H2|[H2 H3]].
  - lia.
  - subst k'. lia.
  - lia.
  - eapply ranked_asym; eassumption.
Qed.

Lemma seg_iff (P Q : str -> str -> str -> word_entry -> Prop) pre s wl : (forall pre r k e, P pre r k e <-> Q pre r k e) -> seg P pre s wl <-> seg Q pre s wl.
Proof. intros H. split; apply seg_impl; intros; apply H; assumption. Qed.

Lemma exact_unique A m s wl wl' : distinct_entries A -> fits_i32 m s -> exact_answer A m s wl -> exact_answer A m s wl' -> wl = wl'.
Proof.
  intros D FI (W & Act & SR & H) (W' & Act' & SR' & H').
  destruct (searched_unique _ _ _ _ _ _ _ SR SR') as [EW _].
  assert (SI : forall l, seg W [] s l <-> seg W' [] s l) by (intros l; apply seg_iff; exact EW).
  destruct H as [[-> N]|[S B]], H' as [[-> N']|[S' B']].
  - reflexivity.
  - exfalso. apply (N wl'). apply SI. exact S'.
  - exfalso. apply (N' wl). apply SI. exact S.
  - apply SI in S' as S2. apply SI in S as S3. specialize (B FI _ S2). specialize (B' FI _ S3).
    destruct B as [B|[BE B]], B' as [B'|[BE' B']]; try lia. apply (wins_tie_asym A); assumption.
Qed.
