(** The position lengths of the tokens of a text never add up to more than the number of its tokens. *)
From Coq Require Import List NArith ZArith Bool Lia ZifyBool ZifyNat ZifyN.
From Verif Require Import MBase MUtf8 MText MBuild MCodec MDict MCharDef MUnk MLattice MTokenizer MCharFilter MAnalyzer MTokenFilter MConfig
  MLattice32 MDebug MOffset64 MAnalyzer64 MPosition64 STok SCharDef SCharFilter SAnalyzer SWork SCast SDebug SOffset64 SChain64
  LBase LUtf8 LTok LCharDef LOffset LAnalyzer LTokenProps LExact LOrder LDebug LOffset64 LAnalyzer64 LChain64.
Import ListNotations.
Local Open Scope list_scope.

Definition lengths (ts : list ftoken) : nat := list_sum (map ft_position_length ts).

Lemma lengths_cons t ts : lengths (t :: ts) = ft_position_length t + lengths ts.
Proof. reflexivity. Qed.

Lemma retain_lengths f : forall ts out, retain f ts = Ok out -> lengths out <= lengths ts.
Proof.
  induction ts as [|t ts IH]; intros out H; cbn [retain] in H; [injection H as <-; lia|].
  apply bind_ok in H. destruct H as (k & _ & H). apply bind_ok in H. destruct H as (r & R & H). injection H as <-.
  specialize (IH _ R). destruct k; rewrite ?lengths_cons; lia.
Qed.

Lemma places_lengths : forall ts out, map places out = map places ts -> lengths out = lengths ts.
Proof.
  induction ts as [|t ts IH]; intros [|t' out] E; try discriminate; [reflexivity|]. cbn [map] in E. injection E as E1 E2 E3 E4 E.
  rewrite !lengths_cons, E4, (IH _ E). reflexivity.
Qed.

Lemma compound_lengths cfg : forall ts cur out, compound_loop cfg ts cur = Ok out -> lengths out = lengths (with_cur cur ts).
Proof.
  induction ts as [|tk ts IH]; intros cur out H; cbn [compound_loop] in H.
  - injection H as <-. destruct cur; reflexivity.
  - apply bind_ok in H. destruct H as (tag & _ & H). destruct (contains (cc_tags cfg) tag).
    + destruct cur as [t|]; [|apply (IH (Some tk) _ H)]. apply bind_ok in H. destruct H as (t' & C & H). rewrite (IH (Some t') _ H).
      destruct (concat_token_places _ _ _ _ C) as (E1 & E2 & E3 & E4). cbn [with_cur]. rewrite !lengths_cons, E4. lia.
    + apply bind_ok in H. destruct H as (rest & R & H). injection H as <-. pose proof (IH None _ R) as L. cbn [with_cur] in L.
      destruct cur as [t|]; cbn [with_cur]; rewrite !lengths_cons, L; reflexivity.
Qed.

Lemma filter_lengths e d ts out : run_token_filter e d ts = Ok out -> lengths out <= lengths ts.
Proof.
  intros H. destruct d; cbn [run_token_filter] in H;
    try (eapply retain_lengths; exact H);
    try (apply Nat.eq_le_incl, places_lengths; same_places H).
  - pose proof (compound_lengths c ts None out H) as L. cbn [with_cur] in L. lia.
  - destruct (mapping_tokens f ts) as [r|] eqn:E; [|discriminate]. subst r. apply Nat.eq_le_incl, places_lengths. eapply mapping_places; exact E.
Qed.

Lemma compound_checked cfg : forall ts cur, (Z.of_nat (lengths (with_cur cur ts)) < 18446744073709551616)%Z ->
  compound_loop_debug cfg ts cur = compound_loop cfg ts cur.
Proof.
  induction ts as [|tk ts IH]; intros cur B; cbn [compound_loop compound_loop_debug]; [reflexivity|].
  destruct (token_tag tk) as [tag| |]; cbn [bind]; [|reflexivity..]. destruct (contains (cc_tags cfg) tag).
  - destruct cur as [t|]; [|apply IH; exact B]. cbn [with_cur] in B. rewrite !lengths_cons in B.
    assert (C : concat_token_debug cfg t tk = concat_token cfg t tk).
    { unfold concat_token_debug, concat_token. rewrite checked_usize_ok by lia. cbn [bind].
      destruct (match cc_new_tag cfg with Some _ => _ | None => _ end) as [ds| |]; cbn [bind]; [|reflexivity..]. f_equal. f_equal. lia. }
    rewrite C. destruct (concat_token cfg t tk) as [t'| |] eqn:E; cbn [bind]; [|reflexivity..]. apply IH.
    destruct (concat_token_places _ _ _ _ E) as (_ & _ & _ & E4). cbn [with_cur]. rewrite lengths_cons, E4. lia.
  - rewrite (IH None); [reflexivity|]. destruct cur as [t|]; cbn [with_cur] in *; rewrite !lengths_cons in B; lia.
Qed.

Lemma token_filter_checked e d ts : (Z.of_nat (lengths ts) < 18446744073709551616)%Z -> run_token_filter_debug e d ts = run_token_filter e d ts.
Proof. intros B. destruct d; try reflexivity. exact (compound_checked c ts None B). Qed.

Lemma token_filters_checked e ds : forall ts, (Z.of_nat (lengths ts) < 18446744073709551616)%Z ->
  foldM (fun ts f => f ts) (map (run_token_filter_debug e) ds) ts = foldM (fun ts f => f ts) (map (run_token_filter e) ds) ts.
Proof.
  induction ds as [|d ds IH]; intros ts B; cbn [map foldM]; [reflexivity|]. rewrite (token_filter_checked e d ts B).
  destruct (run_token_filter e d ts) as [mid| |] eqn:E; cbn [bind]; [|reflexivity..]. apply IH. pose proof (filter_lengths _ _ _ _ E). lia.
Qed.

Lemma tiles_lengths : forall ts off pos text details, tiles_from off pos text ts -> List.length details = List.length ts ->
  lengths (map (fun '(tk, ds) => plain tk ds) (combine ts details)) = List.length ts /\ List.length ts <= blen text.
Proof.
  induction ts as [|tk ts IH]; intros off pos text [|ds details] T L; try discriminate; [cbn; lia|]. cbn [combine map length].
  destruct T as (N0 & _ & _ & _ & PL & rest & -> & T). destruct (IH _ _ _ details T ltac:(cbn [length] in L; lia)) as [E B].
  rewrite lengths_cons, E. cbn [plain ft_position_length]. rewrite PL, blen_app. pose proof (blen_length (tk_text tk)).
  destruct (tk_text tk); [congruence|]. cbn [length] in *. lia.
Qed.

Lemma all_analyzed e t A cds tds text out n : represents t A -> small_matrix (d_matrix (t_dictionary t)) A ->
  staged e cds text out n -> (2 * Z.of_nat n < 9223372036854775808)%Z -> valid_str out ->
  (exists ss, sentences out ss /\ Forall (fits_i32 (t_mode t)) ss /\ Forall (fits_u32 A) ss) ->
  analyze_all_checked e (AnalyzerDef cds t tds) text = analyze (analyzer_of e (AnalyzerDef cds t tds)) text.
Proof.
  intros R SM ST B V S. rewrite <- (chain_analyzed e t A cds tds text out n R SM ST B V S). destruct S as (ss & SS & F1 & F2).
  destruct (staged_runs _ _ _ _ _ ST B) as (L1 & L2 & G). destruct (G 0%Z [] (adding_none 0 ltac:(lia))) as (vs & R1 & R2 & AD).
  unfold analyze_all_checked, analyze_checked. cbn [ad_char_filters ad_tokenizer ad_token_filters]. rewrite R2.
  rewrite (proj1 (all_agree t A R SM out ss V SS F1 F2)).
  destruct (tokenize_exact t A R out (split_inclusive is_delimiter out) V (split_sentences out)) as (tmp & wss & T & _ & X & TI).
  rewrite T. f_equal. pose proof (found_bytes _ _ _ _ (split_sentences out) _ X) as BB.
  destruct (mapM (analyzed_token t) tmp) as [toks| |] eqn:M; cbn [bind]; [|reflexivity..]. destruct (mapM_details _ _ _ M) as (details & L & EQ).
  rewrite token_filters_checked; [reflexivity|]. subst toks. destruct (tiles_lengths _ _ _ _ details TI L) as [E1 E2].
  unfold plain in E1. rewrite E1. lia.
Qed.

Lemma concat_overflow cfg t1 t2 : (18446744073709551616 <= Z.of_nat (ft_position_length t1) + Z.of_nat (ft_position_length t2))%Z ->
  concat_token_debug cfg t1 t2 = Panic.
Proof.
  intros H. unfold concat_token_debug. destruct (checked_usize _) as [n| |] eqn:E; cbn [bind]; [|unfold checked_usize in E; destruct (_ && _)%bool; discriminate|reflexivity].
  unfold checked_usize in E. destruct (_ && _)%bool eqn:B; [lia|discriminate].
Qed.
