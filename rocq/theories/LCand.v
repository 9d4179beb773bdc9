(** The candidates at a position, exactly, and the tokens of several sentences. *)
From Coq Require Import List NArith ZArith Bool Lia ZifyBool ZifyNat ZifyN.
From Verif Require Import MBase MUtf8 MText MCodec MDict MCharDef MUnk MLattice MTokenizer STok SCand LBase LUtf8 LScan LLat LVit LSeg LEdge LTok.
Import ListNotations.

Section At.
Variable A : adict.
Variable m : mode.
Variable text : str.

Definition block_of (found : bool) (s : str) (ok : nat * nat) : list word :=
  match unk_surface A found s (fst ok) (snd ok) with Some w => map (pair w) (a_unk A (snd ok)) | None => [] end.

Lemma fold_blocks found start s cats : forall es ue,
  fst (fold_left (unk_step A found start s) cats (es, ue)) = es ++ map (word_edge UNKNOWN start) (concat (map (block_of found s) cats)).
Proof.
  induction cats as [|[ord k] cats IH]; intros es ue; cbn [fold_left map concat]; [rewrite app_nil_r; reflexivity|].
  unfold unk_step at 2. unfold block_of at 1. cbn [fst snd]. destruct (unk_surface A found s ord k) as [w|].
  - rewrite IH, map_app, map_map, <- app_assoc. reflexivity.
  - apply IH.
Qed.

Lemma block_spec found c r ord k : has_cat A ord k c -> found = negb (is_nil (dict_words A (c :: r))) ->
  unknown_block A (c :: r) ord k (block_of found (c :: r) (ord, k)).
Proof.
  intros H F. unfold block_of. cbn [fst snd]. destruct (unk_surface A found (c :: r) ord k) as [w|] eqn:E.
  - apply unk_surface_span in E as (SP & IV). apply block_made; [|exact SP].
    destruct IV as [IV|IV]; [left; exact IV|right]. rewrite F in IV. apply is_nil_false in IV. apply dict_words_nil. exact IV.
  - unfold unk_surface in E. destruct (a_invoke A k) eqn:I; [discriminate|]. destruct found; [|discriminate].
    apply block_none; [exact I|]. intros N. destruct (dict_words A (c :: r)) as [|[k' e] ws] eqn:D; [discriminate|].
    apply (N k' e). apply dict_words_in. rewrite D. left. reflexivity.
Qed.

Lemma blocks_spec c r : unknown_blocks A c r (map (block_of (negb (is_nil (dict_words A (c :: r)))) (c :: r)) (enumerate (a_cats A c))).
Proof.
  split.
  - rewrite map_length. unfold enumerate. rewrite combine_length, seq_length. apply Nat.min_id.
  - intros ord k H. exists (block_of (negb (is_nil (dict_words A (c :: r)))) (c :: r) (ord, k)). split; [|apply block_spec; [exact H|reflexivity]].
    rewrite nth_error_map. unfold enumerate, has_cat in *.
    assert (G : forall (l : list nat) o n, nth_error l o = Some k -> nth_error (combine (seq n (length l)) l) o = Some (n + o, k)).
    { induction l as [|x l IH]; intros [|o] n X; cbn in *; try discriminate.
      - injection X as ->. rewrite Nat.add_0_r. reflexivity.
      - rewrite (IH o (S n) X), Nat.add_succ_r. reflexivity. }
    rewrite (G _ ord 0 H). reflexivity.
Qed.

(* what the end of the last unknown span says *)
Definition ends_span (p : nat) (i : nat) : Prop :=
  exists pre' c r ord k w, text = pre' ++ c :: r /\ has_cat A ord k c /\ (a_invoke A k = true \/ no_dict_word A (c :: r)) /\
    unk_span A ord k (c :: r) w /\ blen pre' < p /\ i = blen pre' + blen w.

Lemma fold_span found c r pre cats : text = pre ++ c :: r -> (found = false -> no_dict_word A (c :: r)) ->
  (forall ord k, In (ord, k) cats -> has_cat A ord k c) -> forall es ue,
  (forall i, ue = Some i -> ends_span (S (blen pre)) i) ->
  forall i, snd (fold_left (unk_step A found (blen pre) (c :: r)) cats (es, ue)) = Some i -> ends_span (S (blen pre)) i.
Proof.
  intros T F. induction cats as [|[ord k] cats IH]; intros C es ue U i; cbn [fold_left snd]; [apply U|].
  unfold unk_step at 2. destruct (unk_surface A found (c :: r) ord k) as [w|] eqn:E.
  - apply IH; [intros o k' H; apply C; right; exact H|]. intros j H. injection H as <-.
    apply unk_surface_span in E as (SP & IV). exists pre, c, r, ord, k, w. split; [exact T|]. split; [apply C; left; reflexivity|].
    split; [destruct IV; auto|]. split; [exact SP|]. split; [lia|reflexivity].
  - apply IH; [intros o k' H; apply C; right; exact H|exact U].
Qed.

Definition state (p : nat) := fold_left (pure_step A m text) (seq 0 p) ([], None).

Lemma state_S p : state (S p) = pure_step A m text (state p) p.
Proof. unfold state. rewrite seq_S, fold_left_app. reflexivity. Qed.

Lemma state_ok p : edges_ok A text (fst (state p)).
Proof. unfold state. apply scan_fold_ok. constructor. Qed.

Lemma ends_span_mono p i : ends_span p i -> ends_span (S p) i.
Proof. intros (pre' & c & r & ord & k & w & H1 & H2 & H3 & H4 & H5 & H6). exists pre', c, r, ord, k, w. repeat split; auto. Qed.

Lemma state_span p : forall i, snd (state p) = Some i -> ends_span p i.
Proof.
  induction p as [|p IH]; [intros i H; discriminate|]. rewrite state_S. unfold pure_step.
  pose proof (state_ok p) as OK. destruct (state p) as [es ue]. cbn [fst snd] in *.
  destruct (reachb es p) eqn:RB; [|intros i H; apply ends_span_mono, IH, H].
  destruct (reach_boundary A text es p OK RB) as (pre & s & E & <-).
  rewrite E, suffix_at_app. unfold pos_step. destruct (unk_active m ue (blen pre)); [|intros i H; apply ends_span_mono, IH, H].
  destruct s as [|c r]; [intros i H; apply ends_span_mono, IH, H|]. apply fold_span; [exact E| |apply enumerate_cat|intros i H; apply ends_span_mono, IH, H].
  intros H. apply is_nil_false in H. apply dict_words_nil. exact H.
Qed.

Lemma state_grows p n : exists new, fst (state (p + n)) = fst (state p) ++ new /\ Forall (fun e => p <= e_start e < p + n) new.
Proof.
  induction n as [|n (new & E & F)].
  - exists []. rewrite Nat.add_0_r, app_nil_r. auto.
  - rewrite Nat.add_succ_r, state_S. destruct (state (p + n)) as [es ue]. cbn [fst] in E.
    destruct (pure_step_grows A m text es ue (p + n)) as (new' & E' & F'). rewrite E', E. exists (new ++ new'). rewrite app_assoc. split; [reflexivity|].
    apply Forall_app. split; [eapply Forall_impl; [|exact F]|eapply Forall_impl; [|exact F']]; cbn; lia.
Qed.

Lemma filter_none {X} f (l : list X) : Forall (fun x => f x = false) l -> filter f l = [].
Proof. intros F. induction F as [|x l H F IH]; cbn; [reflexivity|]. rewrite H. exact IH. Qed.
Lemma filter_all {X} f (l : list X) : Forall (fun x => f x = true) l -> filter f l = l.
Proof. intros F. induction F as [|x l H F IH]; cbn; [reflexivity|]. rewrite H, IH. reflexivity. Qed.

(* the edges that start at p are those made when the scan is at p *)
Lemma scan_at p : p < blen text -> exists new, fst (pure_step A m text (state p) p) = fst (state p) ++ new /\
  filter (fun ed => Nat.eqb (e_start ed) p) (scan A m text) = new.
Proof.
  intros L. destruct (state_grows 0 p) as (b & Eb & Fb). destruct (state_grows (S p) (blen text - S p)) as (a & Ea & Fa).
  replace (S p + (blen text - S p)) with (blen text) in Ea, Fa by lia. rewrite state_S in Ea.
  destruct (state p) as [es ue] eqn:St. destruct (pure_step_grows A m text es ue p) as (new & E & F). exists new. split; [exact E|].
  unfold scan. change (fold_left _ _ _) with (state (blen text)). rewrite Ea, E.
  assert (Es : es = b) by (rewrite Nat.add_0_l, St in Eb; exact Eb). rewrite !filter_app, (filter_none _ a), (filter_none _ es), (filter_all _ new).
  - rewrite app_nil_r. reflexivity.
  - eapply Forall_impl; [|exact F]. intros e [-> _]. apply Nat.eqb_refl.
  - rewrite Es. eapply Forall_impl; [|exact Fb]. cbn. intros e H. apply Nat.eqb_neq. lia.
  - eapply Forall_impl; [|exact Fa]. cbn. intros e H. apply Nat.eqb_neq. lia.
Qed.

Lemma reachb_state p : p < blen text -> reachb (scan A m text) p = true -> reachb (fst (state p)) p = true.
Proof.
  intros L. unfold reachb. destruct (Nat.eqb p 0); [reflexivity|]. cbn [orb]. intros H. apply existsb_exists in H as (e & I & S). apply Nat.eqb_eq in S.
  apply existsb_exists. exists e. split; [|apply Nat.eqb_eq; exact S].
  destruct (state_grows p (blen text - p)) as (a & Ea & Fa). replace (p + (blen text - p)) with (blen text) in Ea, Fa by lia.
  unfold scan in I. change (fold_left _ _ _) with (state (blen text)) in I. rewrite Ea in I. apply in_app_iff in I as [I|I]; [exact I|].
  pose proof (state_ok (blen text)) as OK. rewrite Ea in OK. apply Forall_app in OK as [_ OK]. rewrite Forall_forall in OK, Fa.
  destruct (OK e I) as (pre & k & rest & _ & NE & S1 & S2 & _). pose proof (blen_pos k NE). apply Fa in I. lia.
Qed.

Lemma edges_for ty pre ws : Forall2 (edge_for ty pre) ws (map (word_edge ty (blen pre)) ws).
Proof. induction ws as [|[k e] ws IH]; constructor; auto. split; [reflexivity|]. split; [reflexivity|]. split; [reflexivity|]. split; [apply kanji_only|reflexivity]. Qed.

Lemma candidates_scan pre c r : text = pre ++ c :: r ->
  let here := filter (fun ed => Nat.eqb (e_start ed) (blen pre)) (scan A m text) in
  (reachb (scan A m text) (blen pre) = true ->
   exists blocks known unknown, here = known ++ unknown /\ unknown_blocks A c r blocks /\
     Forall2 (edge_for KNOWN pre) (prefix_words (a_usr A) (c :: r) ++ prefix_words (a_sys A) (c :: r)) known /\
     (Forall2 (edge_for UNKNOWN pre) (concat blocks) unknown \/ is_search m = false /\ under_unknown A text pre /\ unknown = [])) /\
  (reachb (scan A m text) (blen pre) = false -> here = []).
Proof.
  intros T. cbn zeta. assert (L : blen pre < blen text) by (rewrite T, blen_app; pose proof (blen_pos (c :: r) ltac:(discriminate)); lia).
  destruct (scan_at (blen pre) L) as (new & E & ->). split.
  - intros RB. apply (reachb_state _ L) in RB. pose proof (state_span (blen pre)) as SP. destruct (state (blen pre)) as [es ue]. cbn [fst snd] in *.
    unfold pure_step in E. cbn [fst] in E. rewrite RB, T, suffix_at_app in E. unfold pos_step in E.
    exists (map (block_of (negb (is_nil (dict_words A (c :: r)))) (c :: r)) (enumerate (a_cats A c))).
    destruct (unk_active m ue (blen pre)) eqn:UA.
    + rewrite fold_blocks, <- app_assoc in E. apply app_inv_head in E. rewrite <- E.
      eexists _, _. split; [reflexivity|]. split; [apply blocks_spec|]. split; [apply edges_for|left; apply edges_for].
    + cbn [fst] in E. apply app_inv_head in E. rewrite <- E. eexists _, []. split; [symmetry; apply app_nil_r|]. split; [apply blocks_spec|]. split; [apply edges_for|right].
      unfold unk_active in UA. apply orb_false_iff in UA as [S U]. split; [exact S|]. split; [|reflexivity].
      destruct ue as [i|]; [|discriminate]. destruct (SP i eq_refl) as (pre' & c' & r' & ord & k & w & H1 & H2 & H3 & H4 & H5 & H6).
      apply Nat.leb_gt in U. exists pre', c', r', ord, k, w. repeat split; auto. lia.
  - intros RB. unfold pure_step in E. destruct (reachb (fst (state (blen pre))) (blen pre)) eqn:RB'.
    + exfalso. destruct (state_grows (blen pre) (blen text - blen pre)) as (a & Ea & _). replace (blen pre + (blen text - blen pre)) with (blen text) in Ea by lia.
      unfold scan in RB. change (fold_left _ _ _) with (state (blen text)) in RB. rewrite Ea in RB. rewrite (reachb_app _ a _ RB') in RB. discriminate.
    + rewrite <- (app_nil_r (fst (state (blen pre)))) in E at 1. apply app_inv_head in E. symmetry. exact E.
Qed.
End At.

Theorem candidates_exactly t A : represents t A -> forall m s, valid_str s -> forall l pre c r,
  sentence_lattice t m s = Ok l -> s = pre ++ c :: r ->
  (reached l (blen pre) ->
   exists blocks known unknown, starting_at l (blen pre) = known ++ unknown /\ unknown_blocks A c r blocks /\
     Forall2 (edge_for KNOWN pre) (prefix_words (a_usr A) (c :: r) ++ prefix_words (a_sys A) (c :: r)) known /\
     (Forall2 (edge_for UNKNOWN pre) (concat blocks) unknown \/ m = Normal /\ under_unknown A s pre /\ unknown = [])) /\
  (~ reached l (blen pre) -> starting_at l (blen pre) = []).
Proof.
  intros R m s V l pre c r L T. assert (NE : s <> []) by (rewrite T; destruct pre; discriminate).
  destruct (sentence_lattice_scan t A R m s V NE) as (l' & L' & W). rewrite L in L'. injection L' as <-.
  destruct (candidates_scan A m s pre c r T) as [C1 C2]. unfold starting_at. rewrite W. split.
  - intros RE. destruct C1 as (b & kn & un & H1 & H2 & H3 & H4); [eapply reached_reachb; eassumption|].
    exists b, kn, un. repeat (split; [assumption|]). destruct H4 as [H4|(S & H4)]; [left; exact H4|right]. split; [|exact H4]. destruct m; [reflexivity|discriminate].
  - intros NR. apply C2. destruct (reachb (scan A m s) (blen pre)) eqn:RB; [|reflexivity]. exfalso. apply NR.
    unfold reachb in RB. apply orb_true_iff in RB as [RB|RB]; [left; apply Nat.eqb_eq; exact RB|right].
    apply existsb_exists in RB as (e & I & S). apply Nat.eqb_eq in S. exists e. rewrite W. split; assumption.
Qed.

Theorem by_sentence t A : represents t A -> forall text ss, valid_str text -> sentences text ss ->
  exists tss, Forall2 (fun s ts => tokenize t s = Some (Ok ts)) ss tss /\ tokenize t text = Some (Ok (placed tss)).
Proof.
  intros R text ss V H. revert V. induction H as [|s O|s rest ss (b & c & -> & D & F) S IH]; intros V.
  - exists []. split; [constructor|reflexivity].
  - destruct (tokenize_total t A R s V) as [ts E]. exists [ts]. split; [repeat constructor; exact E|]. cbn [placed map]. rewrite app_nil_r. exact E.
  - pose proof V as V'. apply valid_str_app in V' as [_ V2]. destruct (IH V2) as (tss & F2 & E).
    destruct (tokenize_app t A R b c rest V D) as (ts1 & ts2 & E1 & E2 & E3). rewrite E in E2. injection E2 as <-.
    exists (ts1 :: tss). split; [constructor; assumption|exact E3].
Qed.
