(** Any chain of character filters gives the same in a debug build as long as its texts are not huge. *)
From Coq Require Import List NArith ZArith Bool Lia ZifyBool ZifyNat ZifyN.
From Verif Require Import MBase MUtf8 MText MBuild MCodec MDict MCharDef MUnk MLattice MTokenizer MCharFilter MAnalyzer MTokenFilter MConfig
  MLattice32 MDebug MOffset64 MAnalyzer64 STok SCharDef SCharFilter SAnyMatch SAnalyzer SWork SCast SDebug SOffset64 SChain64
  LBase LUtf8 LTok LSeg LMatrix LCharDef LOffset LCharFilter LFilterProps LKana LAnyMatch LAnalyzer LTokenProps LExact LOrder LDebug LOffset64 LAnalyzer64.
Import ListNotations.
Local Open Scope list_scope.

Definition within (m : Z) (d : Z) : Prop := (- m <= d <= m)%Z.

Lemma add_within m st o d : Forall (within m) (snd st) -> within m d -> Forall (within m) (snd (add_offset_diff st o d)).
Proof.
  destruct st as [offs diffs]. cbn [snd]. intros F W. unfold add_offset_diff.
  assert (A : Forall (within m) (diffs ++ [d])) by (apply Forall_app; auto).
  destruct (last_error offs) as [l|]; [|exact A]. destruct (l =? o)%N; [|exact A]. cbn [snd]. apply Forall_app. split; [|auto].
  unfold pop. clear - F. induction F as [|x t W F IH]; cbn [removelast]; [constructor|]. destruct t; [constructor|]. constructor; assumption.
Qed.

Lemma record_within m r a b i o : inv r a b -> (Z.of_nat (a + i) <= m)%Z -> (Z.of_nat (b + o) <= m)%Z -> Forall (within m) (snd (vecs r)) ->
  Forall (within m) (snd (record_diff (vecs r) (N.of_nat (a + i)) i o)).
Proof.
  intros (D & U & P) A B F. unfold record_diff. rewrite last_diff.
  replace (match (match r with [] => None | (_, d) :: _ => Some d end) with Some d => d | None => 0%Z end)
    with (Z.of_nat a - Z.of_nat b)%Z by (rewrite <- P; destruct r as [|[? ?] ?]; reflexivity). cbv zeta.
  destruct (Z.eqb_spec (Z.of_nat i - Z.of_nat o) 0) as [E|NE]; [exact F|].
  destruct (Z.ltb_spec 0 (Z.of_nat i - Z.of_nat o)) as [L|G].
  - apply add_within; [exact F|]. unfold within. lia.
  - assert (K : forall k, In k (seq 0 (Z.abs_nat (Z.of_nat i - Z.of_nat o))) -> i + k < o).
    { intros k Hk. apply in_seq in Hk. lia. }
    revert K F. generalize (seq 0 (Z.abs_nat (Z.of_nat i - Z.of_nat o))). intros l. generalize (vecs r). induction l as [|k l IH]; intros s K F; cbn [fold_left]; [exact F|].
    pose proof (K k (or_introl eq_refl)). apply IH; [intros j Hj; apply K; right; exact Hj|]. apply add_within; [exact F|]. unfold within. lia.
Qed.

Lemma record_all_within m segs : forall r a b, inv r a b -> (m < 9223372036854775808)%Z ->
  (Z.of_nat (a + in_total segs) <= m)%Z -> (Z.of_nat (b + out_total segs) <= m)%Z -> Forall (within m) (snd (vecs r)) ->
  Forall (within m) (snd (fst (record_all segs (vecs r, N.of_nat a)))).
Proof.
  induction segs as [|[i o] segs IH]; intros r a b IV M Sa Sb F; cbn [in_total out_total fold_right] in *; [exact F|].
  fold (in_total segs) in *. fold (out_total segs) in *. unfold record_all. cbn [fold_left].
  replace (N.of_nat a + N.of_nat i)%N with (N.of_nat (a + i)) by lia.
  pose proof (record_within m r a b i o IV ltac:(lia) ltac:(lia) F) as W.
  destruct (record_any r a b i o IV) as (r1 & E1 & IV1 & _ & _); [unfold small; lia|unfold small; lia|]. rewrite E1 in *.
  apply (IH r1 (a + i) (b + o) IV1); auto; lia.
Qed.

Lemma segs_within segs offs diffs e n : record_all segs ([], [], 0%N) = (offs, diffs, e) -> in_total segs + out_total segs <= n ->
  (Z.of_nat n < 9223372036854775808)%Z -> Forall (within (Z.of_nat n)) diffs.
Proof.
  intros R T B. pose proof (record_all_within (Z.of_nat n) segs [] 0 0 inv_nil B ltac:(lia) ltac:(lia) (Forall_nil _)) as W.
  change (vecs [], N.of_nat 0) with (@nil N, @nil Z, 0%N) in W. rewrite R in W. exact W.
Qed.

Lemma one_filter e d text out offs diffs n : divides_text e d text -> run_char_filter e d text = Some (Ok (out, offs, diffs)) ->
  blen text + blen out <= n -> (Z.of_nat n < 9223372036854775808)%Z ->
  run_char_filter_debug e d text = Some (Ok (out, offs, diffs)) /\ Forall (within (Z.of_nat n)) diffs.
Proof.
  intros S E T B. assert (F1 : fits_isize (blen text)) by (unfold fits_isize; lia). assert (F2 : fits_isize (blen out)) by (unfold fits_isize; lia).
  destruct d as [c|f|rx r|k]; cbn [run_char_filter run_char_filter_debug divides_text] in *.
  - split; [exact E|]. destruct (iteration_spec c text) as (out' & R & X). rewrite R in E. injection E as <- <- <-. constructor.
  - split; [apply mapping_fits; assumption|]. unfold mapping_apply in E.
    destruct (mapping_loop_segs _ _ _ _ _ _ _ _ _ E) as (tail & segs & e' & O & T1 & T2 & R). cbn [app] in O. subst tail.
    apply (segs_within segs offs diffs e' n R); lia.
  - destruct S as (D & ps & tail & -> & FI). injection E as E.
    destruct (regex_fits_plain rx r ps tail out offs diffs D FI E F1 F2) as [A _]. split; [rewrite A; reflexivity|].
    destruct (match_segments_totals r ps tail) as [T1 T2].
    unfold regex_apply, replace_all in E. rewrite FI in E. pose proof (replace_from_spec rx r ps D [] tail) as RS. cbn [app blen] in RS. rewrite RS in E. cbn [bind] in E.
    rewrite (record_spans r ps tail ([], []) 0) in E.
    injection E as <- _ <-. eapply (segs_within (match_segments r ps tail) _ _ _ n); [rewrite (surjective_pairing (record_all _ _)); rewrite (surjective_pairing (fst (record_all _ _))); reflexivity| |]; lia.
  - injection E as E. destruct (normalize_fits (e_graphemes e) (e_form e k) text out offs diffs S E F1 F2) as [A _]. split; [rewrite A; reflexivity|].
    unfold normalize_apply in E. rewrite normalize_loop in E. cbn [app] in E. destruct (segments_totals (e_form e k) (e_graphemes e text)) as [T1 T2]. rewrite S in T1.
    injection E as <- _ <-. eapply (segs_within (grapheme_segments (e_form e k) (e_graphemes e text)) _ _ _ n);
      [rewrite (surjective_pairing (record_all _ _)); rewrite (surjective_pairing (fst (record_all _ _))); reflexivity| |]; lia.
Qed.

Lemma as_wrap z : (-9223372036854775808 <= z < 9223372036854775808)%Z -> as_i64 (wrap_u 64 z) = z.
Proof.
  intros H. unfold as_i64, wrap_i, wrap_u. change (2 ^ (64 - 1))%Z with 9223372036854775808%Z. change (2 ^ 64)%Z with 18446744073709551616%Z.
  pose proof (Z.mod_pos_bound z 18446744073709551616 ltac:(lia)). rewrite Z2N.id by lia.
  rewrite Zplus_mod_idemp_l, Z.mod_small by lia. lia.
Qed.

Lemma correct_within o offs diffs len b m : within b (as_i64 o) -> Forall (within m) diffs -> (0 <= m)%Z -> (b + m < 9223372036854775808)%Z ->
  correct_offset_debug binary_search o offs diffs len = correct_offset o offs diffs len /\
  forall o', correct_offset o offs diffs len = Ok o' -> within (b + m) (as_i64 o').
Proof.
  intros W F P B. unfold correct_offset, correct_offset_debug, correct_offset_with. unfold within in W.
  assert (Z0 : within (b + m) (as_i64 o)) by (unfold within; lia).
  destruct (is_nil offs); [split; [reflexivity|intros o' H; injection H as <-; exact Z0]|]. cbv zeta.
  match goal with |- context [match ?q with None => Ok o | _ => _ end] => destruct q as [j|] end; [|split; [reflexivity|intros o' H; injection H as <-; exact Z0]].
  destruct (idx diffs j) as [d| |] eqn:I; cbn [bind]; [|split; [reflexivity|discriminate]..].
  assert (D : within m d).
  { unfold idx in I. destruct (nth_error diffs j) as [d'|] eqn:NE; [|discriminate]. cbn in I. injection I as <-. rewrite Forall_forall in F. apply F. exact (nth_error_In _ _ NE). }
  unfold within in D. rewrite checked_i64_ok by lia. cbn [bind]. rewrite <- wrap_as. split; [reflexivity|].
  intros o' H. injection H as <-. rewrite as_wrap by lia. unfold within. lia.
Qed.

(* vectors whose differences add up to at most s *)
Inductive adding : Z -> list recorded -> Prop :=
| adding_none s : (0 <= s)%Z -> adding s []
| adding_more s m offs diffs len vs : (0 <= m)%Z -> Forall (within m) diffs -> adding s vs -> adding (m + s) ((offs, diffs, len) :: vs).

Lemma adding_pos s vs : adding s vs -> (0 <= s)%Z.
Proof. induction 1; lia. Qed.

Lemma adding_more_room s vs : adding s vs -> forall s', (s <= s')%Z -> adding s' vs.
Proof.
  induction 1 as [s P|s m offs diffs len vs P F A IH]; intros s' L; [constructor; lia|].
  replace s' with (m + (s' - m))%Z by lia. constructor; auto. apply IH. lia.
Qed.

Lemma all_within s vs : adding s vs -> forall o b, within b (as_i64 o) -> (b + s < 9223372036854775808)%Z -> checked_all vs o = correct_all vs o.
Proof.
  induction 1 as [|s m offs diffs len vs P F A IH]; intros o b W B; [reflexivity|]. pose proof (adding_pos _ _ A).
  unfold checked_all, correct_all. cbn [foldM]. destruct (correct_within o offs diffs len b m W F P ltac:(lia)) as [C1 C2].
  cbn [checked_step correct_step]. rewrite C1. destruct (correct_offset o offs diffs len) as [o'| |]; cbn [bind]; [|reflexivity..].
  apply (IH o' (b + m)%Z (C2 o' eq_refl)). lia.
Qed.

Lemma staged_runs e ds text out n : staged e ds text out n -> (2 * Z.of_nat n < 9223372036854775808)%Z ->
  blen text <= n /\ blen out <= n /\
  forall s0 vecs0, adding s0 vecs0 -> exists vs,
    apply_char_filters (map (run_char_filter e) ds) text vecs0 = Some (Ok (out, vs)) /\
    apply_char_filters (map (run_char_filter_debug e) ds) text vecs0 = Some (Ok (out, vs)) /\
    adding (s0 + (2 * Z.of_nat n - Z.of_nat (blen text) - Z.of_nat (blen out))) vs.
Proof.
  induction 1 as [text|d ds text mid offs diffs out n S E ST IH]; intros B.
  - split; [lia|]. split; [lia|]. intros s0 vecs0 A. exists vecs0. split; [reflexivity|]. split; [reflexivity|]. eapply adding_more_room; [exact A|]. lia.
  - destruct IH as (L1 & L2 & IH); [lia|]. split; [lia|]. split; [lia|]. intros s0 vecs0 A.
    destruct (one_filter e d text mid offs diffs (blen text + blen mid) S E) as [ED W]; [lia|lia|].
    destruct (IH (Z.of_nat (blen text + blen mid) + s0)%Z (if is_nil offs then vecs0 else (offs, diffs, N.of_nat (blen mid)) :: vecs0)) as (vs & R1 & R2 & AD).
    { destruct (is_nil offs); [eapply adding_more_room; [exact A|lia]|]. constructor; [lia|exact W|exact A]. }
    exists vs. cbn [map apply_char_filters]. rewrite E, ED. split; [exact R1|]. split; [exact R2|]. eapply adding_more_room; [exact AD|]. lia.
Qed.

Lemma chain_analyzed e t A cds tds text out n : represents t A -> small_matrix (d_matrix (t_dictionary t)) A ->
  staged e cds text out n -> (2 * Z.of_nat n < 9223372036854775808)%Z -> valid_str out ->
  (exists ss, sentences out ss /\ Forall (fits_i32 (t_mode t)) ss /\ Forall (fits_u32 A) ss) ->
  analyze_checked e (AnalyzerDef cds t tds) text = analyze (analyzer_of e (AnalyzerDef cds t tds)) text.
Proof.
  intros R SM ST B V (ss & SS & F1 & F2). destruct (staged_runs _ _ _ _ _ ST B) as (L1 & L2 & G).
  destruct (G 0%Z [] (adding_none 0 ltac:(lia))) as (vs & R1 & R2 & AD).
  unfold analyze_checked, analyze. cbn [analyzer_of an_char_filters an_tokenizer an_token_filters ad_char_filters ad_tokenizer ad_token_filters]. rewrite R1, R2.
  rewrite (proj1 (all_agree t A R SM out ss V SS F1 F2)).
  destruct (tokenize_exact t A R out (split_inclusive is_delimiter out) V (split_sentences out)) as (tmp & wss & T & _ & X & TI).
  rewrite T. f_equal. unfold analyze_normalized, analyzer_of. cbn [an_tokenizer an_token_filters ad_tokenizer ad_token_filters].
  destruct (mapM (analyzed_token t) tmp) as [toks| |] eqn:M; cbn [bind]; [|reflexivity..].
  destruct (foldM (fun ts f => f ts) (map (run_token_filter e) tds) toks) as [toks'| |] eqn:FO; cbn [bind]; [|reflexivity..].
  pose proof (found_bytes _ _ _ _ (split_sentences out) _ X) as BB. destruct (mapM_details _ _ _ M) as (details & L & EQ).
  assert (O : in_order 0 0 (N.of_nat (blen out)) toks').
  { eapply (filters_keep (in_order 0 0 (N.of_nat (blen out)))); [|exact FO|].
    - intros d ts o _. apply filter_order.
    - subst toks. pose proof (tiles_order _ _ _ _ details TI L) as O. cbn [Nat.add N.of_nat] in O. revert O. generalize (combine tmp details). generalize 0%N, 0.
      clear - BB. intros o p l. revert o p. induction l as [|[tk ds] l IH]; intros o p I; cbn [map in_order] in *; [exact Logic.I|].
      destruct I as (H1 & H2 & H3 & H4 & H5 & H6). unfold plain in *. cbn [ft_start ft_end ft_position ft_position_length] in *. repeat split; try assumption; try lia.
      apply IH. exact H6. }
  pose proof (in_order_bound _ _ _ _ O) as IB. clear - IB AD B L1 L2.
  assert (ONE : forall x, (x <= N.of_nat (blen out))%N -> checked_all vs x = correct_all vs x).
  { intros x Hx. apply (all_within _ _ AD x (Z.of_nat (blen out))); [|lia]. unfold within. rewrite as_i64_small by lia. lia. }
  induction IB as [|tk ts [B1 B2] F IH]; [reflexivity|]. cbn [mapM]. rewrite correct_token_checked, correct_token_all, (ONE _ B1), (ONE _ B2).
  rewrite IH. reflexivity.
Qed.
