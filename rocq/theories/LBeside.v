(** The analysis of two texts one after the other, with character filters. *)
From Coq Require Import List NArith ZArith Bool Lia ZifyBool ZifyNat ZifyN.
From Verif Require Import MBase MUtf8 MText MTokenizer MDetails MCharFilter MAnalyzer MTokenFilter MConfig
  STok SCharFilter SAnalyzer STokenFilter SApart SBeside LBase LUtf8 LText LTok LCharFilter LKana LFilterProps LAnalyzer LLater LApart.
Import ListNotations.
Local Open Scope list_scope.

(** ** Places *)

Lemma source_first s1 : forall s2 x, begins s2 -> x <= out_total s1 -> source_of (s1 ++ s2) x = source_of s1 x.
Proof.
  induction s1 as [|[i o] s1 IH]; intros s2 x B H; cbn [app source_of out_total fold_right] in *.
  - assert (x = 0) by lia. subst x. exact B.
  - destruct (Nat.ltb_spec x o); [reflexivity|]. f_equal. apply IH; [exact B|]. fold (out_total s1) in H. lia.
Qed.
Lemma source_second s1 : forall s2 x, source_of (s1 ++ s2) (out_total s1 + x) = in_total s1 + source_of s2 x.
Proof.
  induction s1 as [|[i o] s1 IH]; intros s2 x; cbn [app source_of out_total in_total fold_right]; [reflexivity|]. fold (out_total s1) (in_total s1).
  destruct (Nat.ltb_spec (o + out_total s1 + x) o); [lia|]. replace (o + out_total s1 + x - o) with (out_total s1 + x) by lia. rewrite IH. lia.
Qed.

Lemma beside_filtered fs u v out_u out_v : filtered_beside fs u v out_u out_v ->
  exists su sv s, filtered fs u out_u su /\ filtered fs v out_v sv /\ filtered fs (u ++ v) (out_u ++ out_v) s /\
    (forall x, x <= blen out_u -> undone s x = undone su x) /\ (forall x, x <= blen out_v -> undone s (blen out_u + x) = blen u + undone sv x).
Proof.
  induction 1 as [u v|f fs u v mu mv ou ov gu gv Ru Rv R B F (su & sv & s & Fu & Fv & Fs & E1 & E2)].
  - exists [], [], []. repeat split; try constructor.
  - exists (gu :: su), (gv :: sv), ((gu ++ gv) :: s). split; [econstructor; eassumption|]. split; [econstructor; eassumption|]. split; [econstructor; eassumption|].
    destruct Ru as (I1 & O1 & _). destruct Rv as (I2 & O2 & _). split; intros x Hx; cbn [undone fold_right].
    + fold (undone s x) (undone su x). rewrite (E1 x Hx). apply source_first; [exact B|]. rewrite O1. rewrite <- (undone_end _ _ _ _ Fu). apply undone_mono, Hx.
    + fold (undone s (blen ou + x)) (undone sv x). rewrite (E2 x Hx), <- O1, <- I1. apply source_second.
Qed.

(** ** Analysis *)

Definition placed_by (f : nat -> nat) (tk : ftoken) : ftoken := with_offsets tk (f (N.to_nat (ft_start tk))) (f (N.to_nat (ft_end tk))).

Lemma analyzed_bound t text ts g : tiles text ts -> mapM (analyzed_token t) ts = Ok g ->
  Forall (fun tk => (ft_start tk <= N.of_nat (blen text))%N /\ (ft_end tk <= N.of_nat (blen text))%N) g.
Proof.
  intros T M. destruct (mapM_details _ _ _ M) as (details & L & ->). pose proof (tiles_from_bound _ _ _ _ T) as B. cbn [Nat.add] in B.
  apply Forall_map. apply Forall_forall. intros [tk ds] I1. apply in_combine_l in I1. rewrite Forall_forall in B. specialize (B _ I1). cbn [ft_start ft_end]. lia.
Qed.
Lemma tiles_end : forall ts off pos text, tiles_from off pos text ts -> ts <> [] -> end_of ts = off + blen text.
Proof.
  induction ts as [|t ts IH]; intros off pos text T N; [congruence|]. destruct T as (_ & S & E & _ & _ & rest & -> & T). rewrite blen_app. destruct ts as [|t' ts].
  - cbn in T. subst rest. unfold end_of. cbn [rev app]. rewrite E. cbn. lia.
  - specialize (IH _ _ _ T ltac:(discriminate)). unfold end_of in *. cbn [rev] in *. destruct (rev ts ++ [t']) as [|z zs] eqn:Z; [destruct (rev ts); discriminate|]. cbn [app]. lia.
Qed.

Lemma unfiltered_analyze e t cfs text out segss ts g : filtered (map (run_char_filter e) cfs) text out segss -> tokenize t out = Some (Ok ts) -> tiles out ts -> mapM (analyzed_token t) ts = Ok g ->
  analyze (analyzer_of e (AnalyzerDef cfs t [])) text = Some (Ok (map (placed_by (undone segss)) g)).
Proof. intros F T TI M. apply (analyze_offsets (analyzer_of e (AnalyzerDef cfs t [])) text out segss ts g g F T M eq_refl). eapply analyzed_bound; eassumption. Qed.
Lemma unfiltered_inv e t cfs text out segss ts r : filtered (map (run_char_filter e) cfs) text out segss -> tokenize t out = Some (Ok ts) -> tiles out ts ->
  analyze (analyzer_of e (AnalyzerDef cfs t [])) text = Some (Ok r) -> exists g, mapM (analyzed_token t) ts = Ok g /\ r = map (placed_by (undone segss)) g.
Proof.
  intros F T TI H. destruct (mapM (analyzed_token t) ts) as [g|k|] eqn:M.
  - exists g. split; [reflexivity|]. rewrite (unfiltered_analyze e t cfs text out segss ts g F T TI M) in H. congruence.
  - exfalso. unfold analyze in H. destruct (filters_recorded _ _ _ _ F []) as (vecs & E & _). cbn [analyzer_of an_char_filters an_tokenizer ad_char_filters ad_tokenizer] in H. rewrite E, T in H.
    unfold analyze_normalized in H. change (an_tokenizer (analyzer_of e (AnalyzerDef cfs t []))) with t in H. rewrite M in H. discriminate H.
  - exfalso. unfold analyze in H. destruct (filters_recorded _ _ _ _ F []) as (vecs & E & _). cbn [analyzer_of an_char_filters an_tokenizer ad_char_filters ad_tokenizer] in H. rewrite E, T in H.
    unfold analyze_normalized in H. change (an_tokenizer (analyzer_of e (AnalyzerDef cfs t []))) with t in H. rewrite M in H. discriminate H.
Qed.

Theorem analyze_beside e t A cfs u v a c out_v gu gv tds out : represents t A -> filtered_beside (map (run_char_filter e) cfs) u v (a ++ [c]) out_v ->
  valid_str ((a ++ [c]) ++ out_v) -> delimiter c -> covered A ((a ++ [c]) ++ out_v) ->
  analyze (analyzer_of e (AnalyzerDef cfs t [])) u = Some (Ok gu) -> analyze (analyzer_of e (AnalyzerDef cfs t [])) v = Some (Ok gv) -> kept_apart e tds gu gv ->
  (analyze (analyzer_of e (AnalyzerDef cfs t tds)) (u ++ v) = Some (Ok out) <->
   exists o1 o2, analyze (analyzer_of e (AnalyzerDef cfs t tds)) u = Some (Ok o1) /\ analyze (analyzer_of e (AnalyzerDef cfs t tds)) v = Some (Ok o2) /\
     out = o1 ++ map (put_behind (N.of_nat (blen u)) (List.length gu)) o2).
Proof.
  intros RP FB V D CV A1 A2 K. destruct (beside_filtered _ _ _ _ _ FB) as (su & sv & s & Fu & Fv & Fs & E1 & E2).
  destruct (tokenize_app t A RP a c out_v V D) as (ts1 & ts2 & T1 & T2 & T).
  assert (TI1 : tiles (a ++ [c]) ts1).
  { destruct (tokenize_tiles t A RP (a ++ [c])) as (x & X & TX); [apply Forall_app in V; apply V|intros y I; apply CV, in_or_app; left; exact I|]. assert (x = ts1) by congruence. subst x. exact TX. }
  assert (TI2 : tiles out_v ts2).
  { destruct (tokenize_tiles t A RP out_v) as (x & X & TX); [apply Forall_app in V; apply V|intros y I; apply CV, in_or_app; right; exact I|]. assert (x = ts2) by congruence. subst x. exact TX. }
  assert (TI : tiles ((a ++ [c]) ++ out_v) (ts1 ++ map (shift_token (end_of ts1) (List.length ts1)) ts2)).
  { destruct (tokenize_tiles t A RP _ V CV) as (x & X & TX). rewrite T in X. injection X as <-. exact TX. }
  assert (N1 : ts1 <> []) by (intros ->; destruct a; discriminate TI1).
  pose proof (tiles_end _ _ _ _ TI1 N1) as EN. cbn [Nat.add] in EN.
  destruct (unfiltered_inv e t cfs u _ su ts1 gu Fu T1 TI1 A1) as (g1 & M1 & G1). destruct (unfiltered_inv e t cfs v _ sv ts2 gv Fv T2 TI2 A2) as (g2 & M2 & G2).
  assert (M : mapM (analyzed_token t) (ts1 ++ map (shift_token (end_of ts1) (List.length ts1)) ts2) = Ok (g1 ++ map (put_behind (N.of_nat (end_of ts1)) (List.length ts1)) g2))
    by (rewrite mapM_app, M1, (analyzed_shift _ _ _ _ _ M2); reflexivity).
  pose proof (unfiltered_analyze e t cfs (u ++ v) _ s _ _ Fs T TI M) as W.
  destruct (analyzed_end _ _ _ M1) as [_ LN].
  assert (X : map (placed_by (undone s)) (g1 ++ map (put_behind (N.of_nat (end_of ts1)) (List.length ts1)) g2) = gu ++ map (put_behind (N.of_nat (blen u)) (List.length gu)) gv).
  { subst gu gv. rewrite map_app, !map_map, map_length, LN. f_equal.
    - apply map_ext_in. intros tk I. pose proof (analyzed_bound _ _ _ _ TI1 M1) as B. rewrite Forall_forall in B. specialize (B tk I). unfold placed_by. rewrite !E1 by lia. reflexivity.
    - apply map_ext_in. intros tk I. pose proof (analyzed_bound _ _ _ _ TI2 M2) as B. rewrite Forall_forall in B. specialize (B tk I).
      unfold placed_by, put_behind, with_offsets. cbn [ft_text ft_start ft_end ft_position ft_position_length ft_word ft_details].
      rewrite EN. rewrite !N2Nat.inj_add, !Nat2N.id, !E2 by lia. rewrite !Nat2N.inj_add. reflexivity. }
  rewrite X in W.
  assert (LT : forall x, analyze (analyzer_of e (AnalyzerDef cfs t tds)) x = later e tds (analyze (analyzer_of e (AnalyzerDef cfs t [])) x)) by (intros x; apply (analyze_later e cfs t [] tds x)).
  rewrite !LT, W, A1, A2. cbn [bind later]. pose proof (filters_behind e tds gu gv out (N.of_nat (blen u)) (List.length gu) K) as F. split.
  - intros H. assert (H' : foldM (fun ts f => f ts) (map (run_token_filter e) tds) (gu ++ map (put_behind (N.of_nat (blen u)) (List.length gu)) gv) = Ok out) by congruence.
    apply F in H'. destruct H' as (x & y & -> & -> & ->). eauto.
  - intros (o1 & o2 & H1 & H2 & ->). f_equal. apply F. exists o1, o2. repeat split; congruence.
Qed.

(** ** Filters *)

Lemma positive_begins (segs : list segment) : match segs with [] => True | (_, o) :: _ => 0 < o end -> begins segs.
Proof. destruct segs as [|[i o] segs]; intros H; unfold begins; cbn [source_of]; [reflexivity|]. destruct (Nat.ltb_spec 0 o); lia. Qed.
Lemma replaced_begins m v out segs : replaced m v out segs -> (forall k value rest, In (k, value) m -> v = k ++ rest -> value <> []) -> begins segs.
Proof.
  intros R K. apply positive_begins. destruct R as [|k value rest out segs I NE L R|c rest out segs N R]; [exact I| |].
  - specialize (K k value rest I eq_refl). destruct value as [|x value]; [congruence|]. cbn [blen]. pose proof (width_pos x). lia.
  - apply width_pos.
Qed.
Lemma replaced_app m v out_v sv : replaced m v out_v sv -> forall u out_u su, replaced m u out_u su -> no_key_across m u v -> replaced m (u ++ v) (out_u ++ out_v) (su ++ sv).
Proof.
  intros Rv u out_u su Ru. induction Ru as [|k value rest out segs I NE L R IH|c rest out segs N R IH]; intros K; cbn [app]; [exact Rv| |].
  - rewrite <- !app_assoc. apply replaced_key; [exact I|exact NE| |].
    + intros k' v' t I' E. rewrite app_assoc in E. destruct (K [] (k ++ rest) k' v' t eq_refl) as (r & E'); [destruct k; [congruence|discriminate]|exact I'|exact E|]. eapply L; [exact I'|exact E'].
    + apply IH. intros a b k' v' t E. apply (K (k ++ a) b k' v' t). rewrite E, app_assoc. reflexivity.
  - apply replaced_char.
    + intros k value t I E. destruct (K [] (c :: rest) k value t eq_refl) as (r & E'); [discriminate|exact I|exact E|]. exact (N k value r I E').
    + apply IH. intros a b k value t E. apply (K (c :: a) b k value t). rewrite E. reflexivity.
Qed.

Theorem mapping_beside m f u v out_u out_v su sv : mapping_keys_ok m -> mapping_new m = Ok f -> valid_str (u ++ v) -> replaced m u out_u su -> replaced m v out_v sv ->
  no_key_across m u v -> (forall k value rest, In (k, value) m -> v = k ++ rest -> value <> []) -> fits_isize (blen (u ++ v)) -> fits_isize (blen (out_u ++ out_v)) ->
  filtered_beside [mapping_apply f] u v out_u out_v.
Proof.
  intros KO NF V Ru Rv NK NB L1 L2. apply Forall_app in V as V'. destruct V' as [Vu Vv]. unfold fits_isize in *. rewrite blen_app in L1, L2.
  apply (beside_more _ _ u v out_u out_v out_u out_v su sv); [| | |eapply replaced_begins; eassumption|constructor].
  - apply (mapping_records m f); try assumption; unfold fits_isize; lia.
  - apply (mapping_records m f); try assumption; unfold fits_isize; lia.
  - apply (mapping_records m f); try assumption; [apply replaced_app; assumption|..]; unfold fits_isize; rewrite blen_app; lia.
Qed.

Theorem normalize_beside graphemes form u v : concat (graphemes u) = u -> concat (graphemes v) = v -> Forall (fun g => g <> []) (graphemes u ++ graphemes v) ->
  graphemes (u ++ v) = graphemes u ++ graphemes v -> (forall g, In g (graphemes v) -> form g <> []) ->
  fits_isize (blen (u ++ v)) -> fits_isize (blen (flat_map form (graphemes u ++ graphemes v))) ->
  filtered_beside [fun t => Some (Ok (normalize_apply graphemes form t))] u v (flat_map form (graphemes u)) (flat_map form (graphemes v)).
Proof.
  intros Cu Cv NE G NF L1 L2. unfold fits_isize in *. rewrite flat_map_app, blen_app in L2. rewrite blen_app in L1. apply Forall_app in NE as NE'. destruct NE' as [NEu NEv].
  apply (beside_more _ _ u v (flat_map form (graphemes u)) (flat_map form (graphemes v)) _ _ (grapheme_segments form (graphemes u)) (grapheme_segments form (graphemes v))).
  - apply normalize_records; try assumption; unfold fits_isize; lia.
  - apply normalize_records; try assumption; unfold fits_isize; lia.
  - assert (E1 : flat_map form (graphemes u) ++ flat_map form (graphemes v) = flat_map form (graphemes (u ++ v))) by (rewrite G, flat_map_app; reflexivity).
    assert (E2 : grapheme_segments form (graphemes u) ++ grapheme_segments form (graphemes v) = grapheme_segments form (graphemes (u ++ v))) by (rewrite G; unfold grapheme_segments; rewrite map_app; reflexivity).
    rewrite E1, E2. apply (normalize_records graphemes form (u ++ v)).
    + rewrite G, concat_app, Cu, Cv. reflexivity.
    + rewrite G. exact NE.
    + unfold fits_isize. rewrite blen_app. lia.
    + unfold fits_isize. rewrite G, flat_map_app, blen_app. lia.
  - apply positive_begins. unfold grapheme_segments. destruct (graphemes v) as [|g gs] eqn:E; cbn [map]; [exact I|]. specialize (NF g (or_introl eq_refl)).
    destruct (form g) as [|x r]; [congruence|]. cbn [blen]. pose proof (width_pos x). lia.
  - constructor.
Qed.

Lemma kept_records (f : char_filter) text out : f text = Some (Ok (out, [], [])) -> blen out = blen text -> text <> [] -> filter_records f text out [(blen text, blen text)].
Proof.
  intros E L N. split; [cbn; lia|]. split; [cbn; lia|]. exists [], []. split; [exact E|]. intros x Hx. cbn [source_of].
  assert (P : 0 < blen text) by (destruct text as [|z r]; [congruence|]; cbn [blen]; pose proof (width_pos z); lia).
  destruct (Nat.ltb_spec x (blen text)); unfold correct_offset, correct_offset_with; cbn [is_nil]; f_equal; lia.
Qed.
Theorem lengths_beside (f : char_filter) u v out_u out_v : u <> [] -> v <> [] -> f u = Some (Ok (out_u, [], [])) -> f v = Some (Ok (out_v, [], [])) ->
  f (u ++ v) = Some (Ok (out_u ++ out_v, [], [])) -> blen out_u = blen u -> blen out_v = blen v -> filtered_beside [f] u v out_u out_v.
Proof.
  intros Nu Nv Fu Fv F Lu Lv.
  assert (P : forall z : str, z <> [] -> 0 < blen z) by (intros [|z r] N; [congruence|]; cbn [blen]; pose proof (width_pos z); lia).
  apply (beside_more _ _ u v out_u out_v out_u out_v [(blen u, blen u)] [(blen v, blen v)]); [apply kept_records; assumption|apply kept_records; assumption| |apply positive_begins; exact (P v Nv)|constructor].
  split; [cbn; rewrite blen_app; lia|]. split; [cbn; rewrite blen_app; lia|]. exists [], []. split; [exact F|]. intros x Hx. rewrite blen_app in Hx. cbn [app source_of].
  pose proof (P u Nu). pose proof (P v Nv).
  destruct (Nat.ltb_spec x (blen u)); [|destruct (Nat.ltb_spec (x - blen u) (blen v))]; unfold correct_offset, correct_offset_with; cbn [is_nil]; f_equal; lia.
Qed.
Lemma beside_app fs gs u v mu mv ou ov : filtered_beside fs u v mu mv -> filtered_beside gs mu mv ou ov -> filtered_beside (fs ++ gs) u v ou ov.
Proof. induction 1 as [|f fs u v xu xv yu yv su sv Ru Rv R B F IH]; intros G; cbn [app]; [exact G|]. econstructor; eauto. Qed.

(** ** Iteration marks *)

Lemma mark_left a b u v p : p < List.length u -> is_mark_at a b (u ++ v) p <-> is_mark_at a b u p.
Proof. intros H. unfold is_mark_at. rewrite nth_error_app1 by exact H. reflexivity. Qed.
Lemma mark_right a b u v p : is_mark_at a b (u ++ v) (List.length u + p) <-> is_mark_at a b v p.
Proof. unfold is_mark_at. rewrite nth_error_app2 by lia. replace (List.length u + p - List.length u) with p by lia. reflexivity. Qed.
Lemma marks_app a b u v ou ov : marks_inside a b v -> marks_expanded a b u ou -> marks_expanded a b v ov -> marks_expanded a b (u ++ v) (ou ++ ov).
Proof.
  intros MI [LU U] [LV V]. split; [rewrite !app_length; lia|]. intros p c E.
  assert (M0 : ~ is_mark_at a b v 0).
  { intros (c0 & f & E0 & A0). specialize (V 0 c0 E0). rewrite A0 in V. destruct V as (s & n & c' & R & P & _). specialize (MI s n ltac:(lia) R). lia. }
  destruct (Nat.lt_ge_cases p (List.length u)) as [L|L].
  - rewrite nth_error_app1 in E by exact L. specialize (U p c E). rewrite (nth_error_app1 ou) by lia. destruct (mark_action a b c) as [f|]; [|exact U].
    destruct U as (s & n & c' & (R1 & R2 & R3) & P & C & O).
    assert (SN : s + n <= List.length u).
    { destruct (Nat.le_gt_cases (s + n) (List.length u)) as [X|X]; [exact X|]. destruct (R1 (List.length u) ltac:(lia)) as (z & g & Z & _).
      pose proof (proj2 (nth_error_None u (List.length u)) (le_n _)). congruence. }
    exists s, n, c'. split; [|split; [exact P|split; [|exact O]]].
    + split; [intros q Q; apply mark_left; [lia|apply R1, Q]|]. split.
      * destruct R2 as [R2|R2]; [left; exact R2|right]. rewrite mark_left by lia. exact R2.
      * destruct (Nat.eq_dec (s + n) (List.length u)) as [X|X]; [|rewrite mark_left by lia; exact R3].
        intros M. rewrite X in M. replace (List.length u) with (List.length u + 0) in M by lia. exact (M0 (proj1 (mark_right a b u v 0) M)).
    + rewrite nth_error_app1 by lia. exact C.
  - rewrite nth_error_app2 in E by exact L. specialize (V (p - List.length u) c E). rewrite (nth_error_app2 ou) by lia. rewrite LU. destruct (mark_action a b c) as [f|]; [|exact V].
    destruct V as (s & n & c' & R & P & C & O). pose proof (MI s n ltac:(lia) R) as NS. destruct R as (R1 & R2 & R3).
    exists (List.length u + s), n, c'. split; [|split; [lia|split; [|exact O]]].
    + split; [|split].
      * intros q Q. replace q with (List.length u + (q - List.length u)) by lia. apply mark_right, R1. lia.
      * right. destruct R2 as [R2|R2]; [lia|]. replace (List.length u + s - 1) with (List.length u + (s - 1)) by lia. rewrite mark_right. exact R2.
      * rewrite <- Nat.add_assoc, mark_right. exact R3.
    + rewrite nth_error_app2 by lia. rewrite Nat.min_l by lia. rewrite Nat.min_l in C by lia. replace (p - n - List.length u) with (p - List.length u - n) by lia. exact C.
Qed.
Theorem marks_beside cfg u v : u <> [] -> v <> [] -> repeats_three_bytes (ic_kanji cfg) (ic_kana cfg) u -> repeats_three_bytes (ic_kanji cfg) (ic_kana cfg) v ->
  marks_inside (ic_kanji cfg) (ic_kana cfg) v -> exists out_u out_v, marks_expanded (ic_kanji cfg) (ic_kana cfg) u out_u /\ marks_expanded (ic_kanji cfg) (ic_kana cfg) v out_v /\
    filtered_beside [fun t => Some (iteration_apply cfg t)] u v out_u out_v.
Proof.
  intros Nu Nv Tu Tv MI. destruct (iteration_spec cfg u) as (ou & Au & Eu). destruct (iteration_spec cfg v) as (ov & Av & Ev). destruct (iteration_spec cfg (u ++ v)) as (o & A & E).
  exists ou, ov. split; [exact Eu|]. split; [exact Ev|].
  assert (SL : forall x y, iteration_apply cfg x = Ok (y, [], []) -> repeats_three_bytes (ic_kanji cfg) (ic_kana cfg) x -> blen y = blen x).
  { intros x y X T. destruct (iteration_keeps_offsets cfg x T) as (y' & X' & L & O). assert (y' = y) by congruence. subst y'.
    specialize (O (List.length x) 0%N). rewrite firstn_all, <- L, firstn_all in O. unfold correct_offset, correct_offset_with in O. cbn [is_nil] in O. injection O. lia. }
  apply lengths_beside; try assumption; [rewrite Au|rewrite Av| |eapply SL; eassumption|eapply SL; eassumption]; try reflexivity.
  rewrite A, (marks_expanded_unique _ _ _ _ _ E (marks_app _ _ _ _ _ _ MI Eu Ev)). reflexivity.
Qed.

(** ** Regular expressions *)

Lemma source_join p : forall a b q x, source_of (p ++ (a, a) :: (b, b) :: q) x = source_of (p ++ (a + b, a + b) :: q) x.
Proof.
  induction p as [|[i o] p IH]; intros a b q x; cbn [app source_of].
  - destruct (Nat.ltb_spec x a); destruct (Nat.ltb_spec x (a + b)); try destruct (Nat.ltb_spec (x - a) b); try lia. rewrite Nat.sub_add_distr. lia.
  - destruct (x <? o); [reflexivity|]. rewrite IH. reflexivity.
Qed.
Lemma records_ext f text out segs segs' : filter_records f text out segs -> in_total segs' = in_total segs -> out_total segs' = out_total segs -> (forall x, source_of segs' x = source_of segs x) ->
  filter_records f text out segs'.
Proof. intros (I & O & offs & diffs & E & H) I' O' S. split; [congruence|]. split; [congruence|]. exists offs, diffs. split; [exact E|]. intros x Hx. rewrite S. apply H, Hx. Qed.

(* the matches of both texts *)
Definition joined_pieces (ps : SCharFilter.pieces) (tail : str) (qs : SCharFilter.pieces) : SCharFilter.pieces := match qs with [] => ps | (gap, m) :: r => ps ++ (tail ++ gap, m) :: r end.
Definition joined_tail (tail : str) (qs : SCharFilter.pieces) (tail' : str) : str := match qs with [] => tail ++ tail' | _ => tail' end.
Lemma joined_whole ps tail qs tail' : whole (joined_pieces ps tail qs) (joined_tail tail qs tail') = whole ps tail ++ whole qs tail'.
Proof. unfold whole, joined_pieces, joined_tail. destruct qs as [|[gap m] qs]; cbn [flat_map app]; [rewrite app_assoc; reflexivity|]. rewrite flat_map_app. cbn [flat_map]. rewrite <- !app_assoc. reflexivity. Qed.
Lemma joined_replaced r ps tail qs tail' : with_replaced r (joined_pieces ps tail qs) (joined_tail tail qs tail') = with_replaced r ps tail ++ with_replaced r qs tail'.
Proof. unfold with_replaced, joined_pieces, joined_tail. destruct qs as [|[gap m] qs]; cbn [flat_map app]; [rewrite app_assoc; reflexivity|]. rewrite flat_map_app. cbn [flat_map]. rewrite <- !app_assoc. reflexivity. Qed.
Lemma spans_shift n qs : forall s, match_spans (n + s) qs = spans_behind n (match_spans s qs).
Proof. induction qs as [|[gap m] qs IH]; intros s; cbn [match_spans spans_behind map]; [reflexivity|]. rewrite <- !Nat.add_assoc, IH. reflexivity. Qed.
Lemma spans_app ps : forall s qs, match_spans s (ps ++ qs) = match_spans s ps ++ match_spans (s + blen (whole ps [])) qs.
Proof.
  induction ps as [|[gap m] ps IH]; intros s qs; cbn [app match_spans whole flat_map]; [cbn [blen]; rewrite Nat.add_0_r; reflexivity|].
  rewrite IH. f_equal. f_equal. f_equal. unfold whole. rewrite !app_nil_r, !blen_app. lia.
Qed.
Lemma joined_spans ps tail qs : match_spans 0 (joined_pieces ps tail qs) = match_spans 0 ps ++ spans_behind (blen (whole ps tail)) (match_spans 0 qs).
Proof.
  destruct qs as [|[gap m] qs]; cbn [joined_pieces]; [cbn [match_spans spans_behind map]; rewrite app_nil_r; reflexivity|].
  rewrite spans_app. f_equal. rewrite <- spans_shift. cbn [match_spans].
  assert (E : blen (whole ps tail) = blen (whole ps []) + blen tail) by (unfold whole; rewrite !blen_app; cbn [blen]; lia). rewrite E, blen_app. cbn [Nat.add].
  f_equal; [f_equal; lia|f_equal; lia].
Qed.
Lemma joined_segments r ps tail qs tail' x : source_of (match_segments r ps tail ++ match_segments r qs tail') x = source_of (match_segments r (joined_pieces ps tail qs) (joined_tail tail qs tail')) x.
Proof.
  unfold match_segments, joined_pieces, joined_tail. rewrite <- app_assoc. cbn [app]. destruct qs as [|[gap m] qs]; cbn [flat_map app].
  - rewrite source_join, blen_app. reflexivity.
  - rewrite source_join, flat_map_app. cbn [flat_map]. rewrite <- !app_assoc. cbn [app]. rewrite blen_app. reflexivity.
Qed.

Theorem regex_beside rx r ps tail qs tail' : let u := whole ps tail in let v := whole qs tail' in has_dollar r = false ->
  rx_find_iter rx u = match_spans 0 ps -> rx_find_iter rx v = match_spans 0 qs -> rx_find_iter rx (u ++ v) = rx_find_iter rx u ++ spans_behind (blen u) (rx_find_iter rx v) ->
  (Forall (fun '(_, m) => m <> []) ps /\ Forall (fun '(_, m) => m <> []) qs /\ r <> [] \/ r = [] /\ match qs with (gap, m) :: _ => gap <> [] | [] => True end) ->
  fits_isize (blen (u ++ v)) -> fits_isize (blen (with_replaced r ps tail ++ with_replaced r qs tail')) ->
  filtered_beside [fun t => Some (regex_apply rx r t)] u v (with_replaced r ps tail) (with_replaced r qs tail').
Proof.
  intros u v ND Fu Fv F NE L1 L2. subst u v. unfold fits_isize in L1, L2. rewrite blen_app in L1, L2.
  destruct (match_segments_totals r ps tail) as [I1 O1]. destruct (match_segments_totals r qs tail') as [I2 O2].
  destruct (match_segments_totals r (joined_pieces ps tail qs) (joined_tail tail qs tail')) as [I3 O3].
  assert (TA : forall a b, in_total (a ++ b) = in_total a + in_total b /\ out_total (a ++ b) = out_total a + out_total b).
  { induction a as [|[i o] a IH]; intros b; cbn [app in_total out_total fold_right]; [split; reflexivity|]. fold (in_total (a ++ b)) (out_total (a ++ b)) (in_total a) (out_total a). destruct (IH b). lia. }
  apply (beside_more _ _ (whole ps tail) (whole qs tail') (with_replaced r ps tail) (with_replaced r qs tail') _ _ (match_segments r ps tail) (match_segments r qs tail')).
  - apply regex_records; [exact ND|exact Fu|destruct NE as [(N & _)|[-> _]]; [left; exact N|right; reflexivity]|unfold fits_isize; lia|unfold fits_isize; lia].
  - apply regex_records; [exact ND|exact Fv|destruct NE as [(_ & N & _)|[-> _]]; [left; exact N|right; reflexivity]|unfold fits_isize; lia|unfold fits_isize; lia].
  - rewrite <- joined_whole, <- joined_replaced.
    apply (records_ext _ _ _ (match_segments r (joined_pieces ps tail qs) (joined_tail tail qs tail'))).
    + apply regex_records; [exact ND| | |unfold fits_isize; rewrite joined_whole, blen_app; exact L1|unfold fits_isize; rewrite joined_replaced, blen_app; exact L2].
      * rewrite joined_whole, F, Fu, Fv. symmetry. apply joined_spans.
      * destruct NE as [(N1 & N2 & _)|[-> _]]; [left|right; reflexivity]. destruct qs as [|[gap m] qs]; [exact N1|]. apply Forall_app. split; [exact N1|]. inversion N2; subst. constructor; assumption.
    + destruct (TA (match_segments r ps tail) (match_segments r qs tail')) as [T _]. rewrite T, I1, I2, I3, joined_whole, blen_app. reflexivity.
    + destruct (TA (match_segments r ps tail) (match_segments r qs tail')) as [_ T]. rewrite T, O1, O2, O3, joined_replaced, blen_app. reflexivity.
    + apply joined_segments.
  - assert (P : forall z : str, z <> [] -> 0 < blen z) by (intros [|z z'] N; [congruence|]; cbn [blen]; pose proof (width_pos z); lia).
    unfold begins, match_segments. destruct qs as [|[gap m] qs]; cbn [flat_map app source_of].
    + destruct (Nat.ltb_spec 0 (blen tail')); lia.
    + destruct (Nat.ltb_spec 0 (blen gap)) as [G|G]; [lia|]. destruct NE as [(_ & _ & N)|[_ N]]; [|specialize (P _ N); lia].
      specialize (P _ N). destruct (Nat.ltb_spec (0 - blen gap) (blen r)) as [Q|Q]; lia.
  - constructor.
Qed.
