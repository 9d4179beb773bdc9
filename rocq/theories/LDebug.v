(** A debug build panics or agrees with a release build, and agrees when the costs fit. *)
From Coq Require Import List NArith ZArith Bool Lia ZifyBool ZifyNat ZifyN.
From Verif Require Import MBase MUtf8 MText MCodec MDict MCharDef MUnk MLattice MTokenizer MLattice32 MDebug.
From Verif Require Import STok SWork SCast SDebug LBase LUtf8 LScan LLat LVit LSeg LTok LWork LCast XSample.
From Verif Require Import MBuild MConfig MBuilders SBuild SBuilders LSysDict LBuilders.
Import ListNotations.

Lemma checked_i32_ok z : is_i32 z -> checked_i32 z = Ok z.
Proof. unfold is_i32, checked_i32. intros H. replace ((-2147483648 <=? z)%Z && (z <=? 2147483647)%Z) with true by lia. reflexivity. Qed.
Lemma checked_i32_inv z : checked_i32 z = Panic \/ (checked_i32 z = Ok z /\ is_i32 z).
Proof. unfold is_i32, checked_i32. destruct ((-2147483648 <=? z)%Z && (z <=? 2147483647)%Z) eqn:E; [right; split; [reflexivity|lia]|left; reflexivity]. Qed.
Lemma checked_u32_ok z : (0 <= z < 4294967296)%Z -> checked_u32 z = Ok (Z.to_N z).
Proof. unfold checked_u32. intros H. replace ((0 <=? z)%Z && (z <? 4294967296)%Z) with true by lia. reflexivity. Qed.
Lemma checked_u32_inv z : checked_u32 z = Panic \/ (checked_u32 z = Ok (Z.to_N z) /\ (0 <= z < 4294967296)%Z).
Proof. unfold checked_u32. destruct ((0 <=? z)%Z && (z <? 4294967296)%Z) eqn:E; [right; split; [reflexivity|lia]|left; reflexivity]. Qed.

(** ** Panics or agrees *)

Definition refines {X} (a b : res X) : Prop := a = Panic \/ a = b.
Lemma refines_refl {X} (a : res X) : refines a a.
Proof. right. reflexivity. Qed.
Lemma refines_bind {X Y} (a b : res X) (f g : X -> res Y) : refines a b -> (forall x, b = Ok x -> refines (f x) (g x)) -> refines (bind a f) (bind b g).
Proof. intros [-> | ->] H; [left; reflexivity|]. destruct b as [x| |]; cbn [bind]; [apply H; reflexivity|right; reflexivity|right; reflexivity]. Qed.
Lemma refines_foldM {X Y} (f g : X -> Y -> res X) : (forall x y, refines (f x y) (g x y)) -> forall l x, refines (foldM f l x) (foldM g l x).
Proof. intros H. induction l as [|y l IH]; intros x; cbn [foldM]; [apply refines_refl|]. apply refines_bind; [apply H|]. intros x1 _. apply IH. Qed.
Lemma refines_mapM {X Y} (f g : X -> res Y) : (forall x, refines (f x) (g x)) -> forall l, refines (mapM f l) (mapM g l).
Proof. intros H. induction l as [|x l IH]; cbn [mapM]; [apply refines_refl|]. apply refines_bind; [apply H|]. intros y _. apply refines_bind; [exact IH|]. intros; apply refines_refl. Qed.

Lemma checked_refines z : refines (checked_i32 z) (Ok (wrap32 z)).
Proof. destruct (checked_i32_inv z) as [->|[-> H]]; [left; reflexivity|]. right. rewrite wrap32_id by exact H. reflexivity. Qed.
Lemma penalty_refines m e : refines (penalty_cost_debug m e) (Ok (penalty_cost32 m e)).
Proof.
  destruct m as [|p]; [apply refines_refl|]. cbn [penalty_cost_debug penalty_cost32]. unfold penalty_of_debug, num_chars_debug, penalty_of32, num_chars32.
  destruct (checked_u32_inv (Z.of_nat (e_stop e) - Z.of_nat (e_start e))) as [->|[-> H]]; [left; reflexivity|]. cbn [bind].
  unfold wrap_u. rewrite Z.mod_small by exact H.
  destruct (_ <=? kanji_threshold p)%N; [apply refines_refl|]. destruct (e_kanji e); [apply checked_refines|].
  destruct (other_threshold p <? _)%N; [apply checked_refines|apply refines_refl].
Qed.
Lemma cm_cost_refines c f b : refines (cm_cost_debug c f b) (cm_cost c f b).
Proof.
  unfold cm_cost_debug, cm_cost. destruct (checked_u32_inv (Z.of_N f * Z.of_N (cm_backward c))) as [->|[-> H]]; [left; reflexivity|]. cbn [bind].
  rewrite Z2N.id by lia. destruct (checked_u32_inv (Z.of_N b + Z.of_N f * Z.of_N (cm_backward c))) as [->|[-> H2]]; [left; reflexivity|]. cbn [bind].
  right. unfold wrap_u. rewrite Z.mod_small by exact H2. reflexivity.
Qed.
Lemma through_refines cm m es right l : refines (through_cost_debug cm m es right l) (through_cost32 cm m es right l).
Proof.
  unfold through_cost_debug, through_cost32. apply refines_bind; [apply refines_refl|]. intros le _. apply refines_bind; [apply cm_cost_refines|]. intros c _.
  destruct (checked_refines (e_path_cost le + c)) as [->| ->]; [left; reflexivity|]. cbn [bind].
  destruct (penalty_refines m le) as [->| ->]; [left; reflexivity|]. cbn [bind].
  destruct (checked_refines (wrap32 (e_path_cost le + c) + penalty_cost32 m le)) as [->| ->]; [left; reflexivity|]. apply refines_refl.
Qed.
Lemma step_refines cm m lefts es r : refines (path_cost_step_debug cm m lefts es r) (path_cost_step32 cm m lefts es r).
Proof.
  unfold path_cost_step_debug, path_cost_step32. apply refines_bind; [apply refines_refl|]. intros re _.
  apply refines_bind; [apply refines_mapM; intros l; apply through_refines|]. intros cs _. destruct (min_by_cost cs) as [[best bl]|]; [|apply refines_refl].
  destruct (checked_refines (we_cost (e_entry re) + best)) as [->| ->]; [left; reflexivity|]. apply refines_refl.
Qed.
Lemma calculate_refines cm m l : refines (calculate_path_costs_debug cm m l) (calculate_path_costs32 cm m l).
Proof.
  unfold calculate_path_costs_debug, calculate_path_costs32. apply refines_bind; [|intros; apply refines_refl]. apply refines_foldM. intros es i.
  apply refines_bind; [apply refines_refl|]. intros lefts _. apply refines_bind; [apply refines_refl|]. intros rights _. apply refines_foldM. intros; apply step_refines.
Qed.
Lemma sentence_refines t st s : tokenize_sentence_debug t st s = Some Panic \/ tokenize_sentence_debug t st s = tokenize_sentence32 t st s.
Proof.
  unfold tokenize_sentence_debug, tokenize_sentence32. destruct st as [[[l toks] bp] p].
  destruct (set_text32 _ _ _ _ _ _ _) as [l1| |]; [|right; reflexivity|right; reflexivity].
  destruct (calculate_refines (d_matrix (t_dictionary t)) (t_mode t) l1) as [-> | ->]; [left; reflexivity|right; reflexivity].
Qed.
Lemma sentences_refines t ss : forall st, tokenize_sentences_debug t ss st = Some Panic \/ tokenize_sentences_debug t ss st = tokenize_sentences32 t ss st.
Proof.
  induction ss as [|s ss IH]; intros st; [right; reflexivity|]. cbn [tokenize_sentences_debug tokenize_sentences32].
  destruct (sentence_refines t st s) as [-> | ->]; [left; reflexivity|]. destruct (tokenize_sentence32 t st s) as [[st'| |]|]; [apply IH|right; reflexivity|right; reflexivity|right; reflexivity].
Qed.
Theorem panics_or_agrees t text : tokenize_debug t text = Some Panic \/ tokenize_debug t text = tokenize32 t text.
Proof.
  unfold tokenize_debug, tokenize32. destruct (sentences_refines t (split_inclusive is_delimiter text) (default_lattice, [], 0, 0)) as [-> | ->]; [left; reflexivity|right; reflexivity].
Qed.

(** ** Agrees when the costs fit *)

Lemma penalty_checked m s e k : fits_i32 m s -> blen k <= blen s -> e_stop e = e_start e + blen k -> e_kanji e = is_kanji_only k ->
  penalty_cost_debug m e = Ok (penalty_cost m e).
Proof.
  intros F L S K. pose proof (fits_small m s F) as B. destruct m as [|p]; [reflexivity|]. cbn [penalty_cost_debug penalty_cost].
  unfold penalty_of_debug, num_chars_debug, penalty_of, num_chars. rewrite S.
  rewrite checked_u32_ok by lia. cbn [bind]. replace (N.to_nat (Z.to_N (Z.of_nat (e_start e + blen k) - Z.of_nat (e_start e)))) with (blen k) by lia.
  replace (e_start e + blen k - e_start e) with (blen k) by lia.
  unfold fits_i32 in F. cbn [penalty_max] in *.
  set (M := Z.max (Z.abs (kanji_penalty p)) (Z.abs (other_penalty p))) in *.
  set (q := blen k / 3).
  assert (Q : (3 * Z.of_nat q <= Z.of_nat (blen k))%Z) by (subst q; lia).
  clearbody q.
  assert (MM : (0 <= M)%Z) by lia.
  assert (N1 : (M * Z.of_nat (blen k) < 3 * 2147483647)%Z) by nia.
  assert (PB : forall x th, (0 <= th < Z.of_nat q)%Z -> (Z.abs x <= M)%Z -> is_i32 ((Z.of_nat q - th) * x)).
  { intros x th T X.
    assert (3 * (Z.abs (Z.of_nat q - th) * Z.abs x) <= M * Z.of_nat (blen k))%Z by nia.
    unfold is_i32. assert (Z.abs ((Z.of_nat q - th) * x) < 2147483647)%Z by (rewrite Z.abs_mul; lia). lia. }
  destruct (N.of_nat q <=? kanji_threshold p)%N eqn:E1; [reflexivity|].
  destruct (e_kanji e).
  - rewrite (wrap32_id (Z.of_N _)) by (unfold is_i32; lia).
    replace (Z.of_N (N.of_nat q - kanji_threshold p)) with (Z.of_nat q - Z.of_N (kanji_threshold p))%Z by lia.
    assert (P1 : is_i32 ((Z.of_nat q - Z.of_N (kanji_threshold p)) * kanji_penalty p)) by (apply PB; lia).
    rewrite wrap32_id, checked_i32_ok by exact P1. reflexivity.
  - destruct (other_threshold p <? N.of_nat q)%N eqn:E2; [|reflexivity].
    rewrite (wrap32_id (Z.of_N _)) by (unfold is_i32; lia).
    replace (Z.of_N (N.of_nat q - other_threshold p)) with (Z.of_nat q - Z.of_N (other_threshold p))%Z by lia.
    assert (P1 : is_i32 ((Z.of_nat q - Z.of_N (other_threshold p)) * other_penalty p)) by (apply PB; lia).
    rewrite wrap32_id, checked_i32_ok by exact P1. reflexivity.
Qed.

Section Checked.
Variables (t : tokenizer) (A : adict).
Hypothesis R : represents t A.
Hypothesis SM : small_matrix (d_matrix (t_dictionary t)) A.
Variables (m : mode) (text : str).
Hypothesis V : valid_str text.
Hypothesis F : fits_i32 m text.

Let ws := scan A m text.
Let len := blen text.
Let cm := d_matrix (t_dictionary t).
Let E0 := default_edge :: default_edge :: ws.

Lemma cm_checked f b : (f < a_fsize A)%N -> (b < a_bsize A)%N -> cm_cost_debug cm f b = cm_cost cm f b.
Proof.
  intros Hf Hb. unfold cm_cost_debug, cm_cost. pose proof SM as S2. unfold small_matrix in S2. fold cm in S2.
  assert (P : (Z.of_N f * Z.of_N (cm_backward cm) <= Z.of_N (a_fsize A - 1) * Z.of_N (cm_backward cm))%Z) by (apply Z.mul_le_mono_nonneg_r; lia).
  rewrite checked_u32_ok by nia. cbn [bind]. rewrite Z2N.id by nia. rewrite checked_u32_ok by nia. cbn [bind].
  unfold wrap_u. rewrite Z.mod_small by nia. reflexivity.
Qed.

Let WE : Forall (fun e => entry_ok A (e_entry e)) ws := scan_entries t A R m text V.
Let WP : Forall (fun e => e_start e < e_stop e /\ e_stop e <= len) ws := scan_positions A m text.
Let WR : starts_reachable ws := scan_reachable A m text.
Let NW : nowrap A m ws := fits_nowrap t A R m text V F.

(* every edge that is a right edge before position i has its cost *)
Definition upto (i : nat) (done : list nat) : Prop := forall id, id <> 0 -> id < length E0 -> pos len ws id < i -> In id done.

Lemma inv_chain done E i : inv A m len ws done E -> upto i done -> forall p id, p <= i -> In id (ends_of ws p) ->
  exists l, chain ws p l /\ ends_chain A m E id l.
Proof.
  intros I U p. induction p as [p IH] using lt_wf_ind. intros id PI H.
  apply ends_in in H as [[-> ->]|(n & e & -> & H2 & H3)].
  - exists []. split; [constructor|]. pose proof (inv_rest _ _ _ _ _ _ I 0 (inv_bos _ _ _ _ _ _ I)) as B.
    unfold ends_chain. change (nth_error (default_edge :: default_edge :: ws) 0) with (Some default_edge) in B. rewrite (nthE_nth _ _ _ B). cbn. repeat split. apply bos_pen.
  - subst p. destruct (same_static_nth E E0 (S (S n)) e (inv_static _ _ _ _ _ _ I) H2) as (e1 & V1 & SS).
    rewrite <- (nthE_nth _ _ _ V1) in SS.
    assert (IE : In e ws) by (eapply nth_error_In; exact H2).
    assert (PS : e_start e < e_stop e) by (pose proof WP as WP1; rewrite Forall_forall in WP1; apply WP1; exact IE).
    assert (G : good A m len ws E (S (S n))).
    { apply (inv_good _ _ _ _ _ _ I). apply U; [lia| |].
      - cbn. assert (n < length ws) by (apply nth_error_Some; congruence). lia.
      - cbn [pos]. rewrite H2. lia. }
    unfold good in G. cbn [pos] in G. rewrite H2 in G.
    assert (NE : ends_of ws (e_start e) <> []).
    { apply reach_ends. pose proof WR as WR1. unfold starts_reachable in WR1. rewrite Forall_forall in WR1. apply WR1. exact IE. }
    destruct (ends_of ws (e_start e)) as [|l0 L0] eqn:EL; [congruence|].
    destruct G as (l & G1 & _ & G3 & _). rewrite <- EL in G1.
    destruct (IH (e_start e) PS l ltac:(lia) G1) as (ch & C1 & C2).
    exists (e :: ch). split; [constructor; assumption|].
    assert (SE1 : e_entry (nthE E (S (S n))) = e_entry e) by (unfold static in SS; congruence).
    unfold ends_chain. rewrite G3, (thru_chain _ _ _ _ _ _ C2), SE1. cbn [wrc last_right last_pen].
    split; [reflexivity|]. split; [reflexivity|]. apply static_pen. exact SS.
Qed.

Lemma pen_checked E p id : same_static E E0 -> In id (ends_of ws p) -> penalty_cost_debug m (nthE E id) = Ok (penalty_cost m (nthE E id)).
Proof.
  intros S H. apply ends_in in H as [[-> ->]|(n & e & -> & H2 & H3)].
  - destruct (same_static_nth E E0 0 default_edge S eq_refl) as (e1 & V1 & SS). rewrite (nthE_nth _ _ _ V1). unfold static in SS. injection SS as S1 S2 S3 S4 S5.
    destruct m as [|p']; [reflexivity|]. cbn [penalty_cost_debug penalty_cost]. unfold penalty_of_debug, num_chars_debug, penalty_of, num_chars. rewrite S3, S4.
    change (checked_u32 (Z.of_nat 0 - Z.of_nat 0)) with (@Ok N 0%N). cbn [bind]. change (N.of_nat (N.to_nat 0 / 3)) with 0%N. change (N.of_nat ((0 - 0) / 3)) with 0%N.
    replace (0 <=? kanji_threshold p')%N with true by lia. reflexivity.
  - destruct (same_static_nth E E0 (Datatypes.S (Datatypes.S n)) e S H2) as (e1 & V1 & SS). rewrite (nthE_nth _ _ _ V1). unfold static in SS. injection SS as S1 S2 S3 S4 S5.
    destruct (edge_info A m text e) as (pre & k & rest & T & NE & P1 & P2 & P3 & _); [eapply nth_error_In, H2|].
    apply (penalty_checked m text e1 k); [exact F|rewrite T, !blen_app; lia|lia|congruence].
Qed.

Lemma through_checked done E i re id : inv A m len ws done E -> upto i done -> In id (ends_of ws i) -> (we_left re < a_bsize A)%N ->
  through_cost_debug cm m E re id = through_cost cm m E re id.
Proof.
  intros I U H B. pose proof (inv_static _ _ _ _ _ _ I) as S.
  destruct (ends_valid t A R ws WE E i id S H) as [V1 (V2 & _ & _)].
  destruct (inv_chain done E i I U i id (le_n _) H) as (l & C & C1 & C2 & C3).
  unfold through_cost_debug, through_cost. rewrite (idx_nth _ _ _ V1). cbn [bind]. rewrite cm_checked by assumption.
  destruct (rep_conn t A R (we_right (e_entry (nthE E id))) (we_left re) V2 B) as [CC _]. unfold cm. rewrite CC. cbn [bind].
  rewrite (wrc_rc A m ws WE NW _ _ C) in C1. destruct (NW _ _ C) as [_ N2]. destruct (N2 _ B) as [N3 N4].
  rewrite C1, C2. rewrite (wrap32_id _ N3), checked_i32_ok by exact N3. cbn [bind].
  rewrite (pen_checked E i id S H). cbn [bind]. rewrite C3. rewrite (wrap32_id _ N4), checked_i32_ok by exact N4. reflexivity.
Qed.

Lemma mapM_same {X Y} (f g : X -> res Y) l : (forall x, In x l -> f x = g x) -> mapM f l = mapM g l.
Proof. induction l as [|x l IH]; intros H; cbn [mapM]; [reflexivity|]. rewrite H by (left; reflexivity). rewrite IH; [reflexivity|]. intros y I. apply H. right. exact I. Qed.

Lemma step_checked done E i r : inv A m len ws done E -> upto i done -> In r (starts_of len ws i) ->
  path_cost_step_debug cm m (ends_of ws i) E r = path_cost_step cm m (ends_of ws i) E r.
Proof.
  intros I U Hr. pose proof (inv_static _ _ _ _ _ _ I) as S.
  pose proof (starts_pos _ _ _ _ Hr) as (Pr & Nr & Lr).
  pose proof Hr as Hr'. rewrite <- Pr in Hr'. destruct (entry_ok_left t A R len ws WE E r S Hr') as [Vr Br].
  unfold path_cost_step_debug, path_cost_step. rewrite (idx_nth _ _ _ Vr). cbn [bind].
  rewrite (mapM_same (through_cost_debug cm m E (e_entry (nthE E r))) (through_cost cm m E (e_entry (nthE E r)))).
  2:{ intros id H. eapply through_checked; eauto. }
  unfold cm. rewrite (mapM_ok_map _ (fun id => (thru A m E (e_entry (nthE E r)) id, id))).
  2:{ intros id H. eapply (through_ok t A R m ws WE); eauto. }
  cbn [bind].
  pose proof (min_by_cost_spec (map (fun id => (thru A m E (e_entry (nthE E r)) id, id)) (ends_of ws i))) as M.
  destruct (min_by_cost _) as [[best bl]|]; [|reflexivity].
  destruct M as (M1 & _). apply in_map_iff in M1 as (x & Ex & Ix). injection Ex as <- ->.
  destruct (inv_chain done E i I U i bl (le_n _) Ix) as (l & C & EC). rewrite (thru_chain _ _ _ _ _ _ EC).
  rewrite (wrc_rc A m ws WE NW _ _ C). destruct (NW _ _ C) as [_ N2]. destruct (N2 _ Br) as [N3 N4].
  rewrite (wrap32_id _ N3), (wrap32_id _ N4).
  assert (K : is_i32 (we_cost (e_entry (nthE E r)) + (rc A m l + a_conn A (last_right l) (we_left (e_entry (nthE E r))) + last_pen m l))).
  { apply starts_in in Hr as [[HL ->]|(n & e & -> & H2 & H3)].
    - destruct (same_static_nth E E0 1 default_edge S eq_refl) as (e1 & V1 & SS). rewrite (nthE_nth _ _ _ V1) in *. unfold static in SS. injection SS as S1 S2 S3 S4 S5.
      rewrite S2 in *. cbn [default_edge e_entry we_cost default_word_entry] in *. rewrite Z.add_0_l. exact N4.
    - destruct (same_static_nth E E0 (Datatypes.S (Datatypes.S n)) e S H2) as (e1 & V1 & SS). rewrite (nthE_nth _ _ _ V1) in *. unfold static in SS. injection SS as S1 S2 S3 S4 S5.
      rewrite S2 in *. subst i. assert (IE : In e ws) by (eapply nth_error_In; exact H2). destruct (NW _ _ (ch_cons _ e l IE C)) as [N5 _]. exact N5. }
  rewrite checked_i32_ok, wrap32_id by exact K. reflexivity.
Qed.

Lemma inner_checked i rs : forall done E, inv A m len ws done E -> upto i done -> (forall r, In r rs -> In r (starts_of len ws i)) ->
  (forall id, In id done -> pos len ws id <= i) ->
  foldM (path_cost_step_debug cm m (ends_of ws i)) rs E = foldM (path_cost_step cm m (ends_of ws i)) rs E.
Proof.
  induction rs as [|r rs IH]; intros done E I U H P; cbn [foldM]; [reflexivity|].
  rewrite (step_checked done E i r I U) by (apply H; left; reflexivity).
  destruct (step_inv t A R m len ws WE WP i done E r I (H r (or_introl eq_refl)) P) as (E1 & S1 & I1). unfold cm. rewrite S1. cbn [bind].
  apply (IH (r :: done) E1 I1).
  - intros id N L Q. right. apply U; assumption.
  - intros r' H'. apply H. right. exact H'.
  - intros id [<-|H']; [|apply P; exact H']. destruct (starts_pos len ws i r) as [-> _]; [apply H; left; reflexivity|lia].
Qed.

Lemma outer_checked cap n : len <= cap -> forall i done E, i + n = S cap -> inv A m len ws done E -> upto i done -> (forall id, In id done -> pos len ws id <= i) ->
  foldM (fun es i =>
             do lefts <- idx (ends_at (lat_of len cap ws)) i;
             do rights <- idx (starts_at (lat_of len cap ws)) i;
             foldM (path_cost_step_debug cm m lefts) rights es) (seq i n) E =
  foldM (fun es i =>
             do lefts <- idx (ends_at (lat_of len cap ws)) i;
             do rights <- idx (starts_at (lat_of len cap ws)) i;
             foldM (path_cost_step cm m lefts) rights es) (seq i n) E.
Proof.
  intros CL. induction n as [|n IH]; intros i done E EQ I U P; cbn [seq foldM]; [reflexivity|].
  unfold lat_of at 1 2 5 6. cbn [ends_at starts_at]. unfold idx at 1 2 5 6. rewrite !nth_error_map_seq by lia. cbn [bind Nat.add].
  rewrite (inner_checked i (starts_of len ws i) done E I U (fun r H => H) P).
  destruct (inner_inv t A R m len ws WE WP i (starts_of len ws i) done E I (fun r H => H) P) as (E1 & S1 & I1). unfold cm at 1 3. rewrite S1. cbn [bind].
  apply (IH (S i) (rev (starts_of len ws i) ++ done) E1); [lia|exact I1| |].
  - intros id N L Q. apply in_or_app. destruct (Nat.eq_dec (pos len ws id) i) as [EP|NP].
    + left. rewrite <- in_rev. apply starts_in. destruct id as [|[|k]]; [congruence|left; cbn in EP; auto|]. right. cbn in L.
      destruct (nth_error ws k) as [e|] eqn:E2; [|apply nth_error_None in E2; lia]. exists k, e. cbn [pos] in EP. rewrite E2 in EP. auto.
    + right. apply U; [exact N|exact L|lia].
  - intros id H. apply in_app_iff in H as [H|H].
    + apply in_rev in H. apply starts_pos in H as [-> _]. lia.
    + apply P in H. lia.
Qed.

Lemma calculate_checked cap : len <= cap -> calculate_path_costs_debug cm m (lat_of len cap ws) = calculate_path_costs cm m (lat_of len cap ws).
Proof.
  intros CL. unfold calculate_path_costs_debug, calculate_path_costs. f_equal.
  assert (L : length (starts_at (lat_of len cap ws)) = S cap) by (unfold lat_of; cbn [starts_at]; rewrite map_length, seq_length; reflexivity). rewrite L.
  apply (outer_checked cap (S cap) CL 0 []); [reflexivity| | |intros id []].
  - change (edges (lat_of len cap ws)) with E0. constructor; [reflexivity|auto|auto|intros id []].
  - intros id N LL Q. lia.
Qed.
End Checked.

Section Agree.
Variables (t : tokenizer) (A : adict).
Hypothesis R : represents t A.
Hypothesis SM : small_matrix (d_matrix (t_dictionary t)) A.

Lemma sentence_checked l toks bp p s : valid_str s -> s <> [] -> fits_i32 (t_mode t) s -> fits_u32 A s -> reusable l ->
  tokenize_sentence_debug t (l, toks, bp, p) s = tokenize_sentence t (l, toks, bp, p) s.
Proof.
  intros V NE FI [F1 F2] RU. pose proof (set_text_scan t A R l (t_mode t) s V NE RU) as ST. unfold tokenize_sentence_debug, tokenize_sentence.
  destruct (scan_counts A (t_mode t) s) as [L _]. rewrite sum_places in L.
  destruct (set_text_same _ _ _ _ _ _ _ _ F1 ST) as [E _]. { unfold small, lat_of, max32. cbn [edges length]. lia. }
  rewrite E, ST. rewrite (calculate_checked t A R SM (t_mode t) s V FI) by lia. reflexivity.
Qed.
Lemma sentences_checked ss : Forall (fun s => valid_str s /\ s <> [] /\ fits_i32 (t_mode t) s /\ fits_u32 A s) ss -> forall l toks bp p, reusable l ->
  tokenize_sentences_debug t ss (l, toks, bp, p) = tokenize_sentences t ss (l, toks, bp, p).
Proof.
  induction 1 as [|s ss (V & NE & FI & FU) _ IH]; intros l toks bp p RU; [reflexivity|]. cbn [tokenize_sentences_debug tokenize_sentences].
  rewrite sentence_checked by assumption. destruct (sentence_chosen t A R s V NE) as (wl & RUN & _). destruct (RUN l toks bp p RU) as (l2 & RU2 & E). rewrite E. apply IH, RU2.
Qed.
Theorem debug_agrees text ss : valid_str text -> sentences text ss -> Forall (fits_i32 (t_mode t)) ss -> Forall (fits_u32 A) ss ->
  tokenize_debug t text = tokenize t text.
Proof.
  intros V S FI FU. unfold tokenize_debug, tokenize. rewrite (sentences_unique _ _ S). rewrite sentences_checked; [reflexivity| |apply default_reusable].
  pose proof (sentences_concat _ _ S) as C. pose proof (sentences_nonempty _ _ S) as N. clear S. subst text. unfold valid_str in *.
  induction FI as [|s ss Fs _ IH]; [constructor|]. inversion FU; subst. cbn [concat] in V. apply Forall_app in V as [V1 V2]. inversion N; subst.
  constructor; [repeat split; try assumption; match goal with H : fits_u32 A s |- _ => apply H end|]. apply IH; assumption.
Qed.
End Agree.

(** ** Built dictionaries *)

Theorem built_agrees be e k dir S C : has_sources be k dir S -> readable k S C -> yada_works be e (system_words k (s_rows S)) -> be_compress be = false ->
  exists files, build_dictionary be k dir = Ok files /\ forall out, files_at e out files -> exists d A, load_dictionary e out = Ok d /\ says k S C d A /\
    forall m text ss, valid_str text -> sentences text ss -> Forall (fits_i32 m) ss -> Forall (fits_u32 A) ss ->
      tokenize_debug (Tokenizer d None m) text = tokenize (Tokenizer d None m) text.
Proof.
  intros HS R Y NC. destruct (build_written be e k dir S C HS R Y NC) as (cd & u & f & da & mb & m & B & CD & CR & U & UR & BD & DA & _ & ML & MB & MC).
  destruct (built_dictionary be e k dir S C HS R Y NC) as (files & B' & LO). exists files. split; [exact B'|]. intros out FA. destruct (LO out FA) as (d & A & LD & SY & RP).
  exists d, A. split; [exact LD|]. split; [exact SY|]. rewrite B in B'. injection B' as <-. rewrite (files_load e out cd u f da mb m FA CR UR DA ML) in LD. injection LD as <-.
  intros md text ss V SS FI FU. apply (debug_agrees _ A (RP md)) with (ss := ss); try assumption.
  unfold small_matrix. cbn [t_dictionary sys_dictionary d_matrix]. destruct (sy_sizes _ _ _ _ _ SY) as [-> ->]. rewrite MB. destruct (rd_sizes _ _ _ R) as [Z1 Z2].
  assert (Z.of_N (c_fsize C - 1) * Z.of_N (c_bsize C) <= 32767 * 32767)%Z by (apply Z.mul_le_mono_nonneg; lia). lia.
Qed.

Theorem all_agree t A : represents t A -> small_matrix (d_matrix (t_dictionary t)) A ->
  forall text ss, valid_str text -> sentences text ss -> Forall (fits_i32 (t_mode t)) ss -> Forall (fits_u32 A) ss ->
  tokenize_debug t text = tokenize t text /\ tokenize32 t text = tokenize t text.
Proof.
  intros R SM text ss V S FI FU. split; [exact (debug_agrees t A R SM text ss V S FI FU)|exact (same_tokens t A R text ss V S FU)].
Qed.

Theorem no_addition_wraps t A : represents t A -> small_matrix (d_matrix (t_dictionary t)) A -> forall s l1, valid_str s -> s <> [] -> fits_i32 (t_mode t) s ->
  sentence_lattice t (t_mode t) s = Ok l1 ->
  exists l2, calculate_path_costs (d_matrix (t_dictionary t)) (t_mode t) l1 = Ok l2 /\ calculate_path_costs_debug (d_matrix (t_dictionary t)) (t_mode t) l1 = Ok l2.
Proof.
  intros R SM s l1 V NE F H. unfold sentence_lattice in H. rewrite (set_text_scan t A R _ (t_mode t) s V NE default_reusable) in H. injection H as <-.
  cbn [capacity default_lattice]. rewrite (calculate_checked t A R SM (t_mode t) s V F) by lia.
  destruct (path_costs_final t A R (t_mode t) (blen s) (scan A (t_mode t) s) (scan_entries t A R (t_mode t) s V) (scan_positions A (t_mode t) s) (Nat.max 0 (blen s)) ltac:(lia)) as (E & EQ & _).
  eexists. split; exact EQ.
Qed.

Lemma huge_panics : exists t A text ts, represents t A /\ small_matrix (d_matrix (t_dictionary t)) A /\ valid_str text /\ covered A text /\
  tokenize32 t text = Some (Ok ts) /\ tokenize_debug t text = Some Panic.
Proof.
  exists huge_tok, huge_meaning, huge_long, [Token huge_long 0 9 0 1 (WordId 1 true)].
  split; [apply huge_represents|]. split; [vm_compute; congruence|]. split; [repeat constructor; lia|]. split; [apply huge_covered|].
  split; vm_compute; reflexivity.
Qed.
