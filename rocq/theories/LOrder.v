(** The order of the tokens of an analyzer. *)
From Coq Require Import String.
From Coq Require Import List NArith ZArith Bool Lia.
From Verif Require Import MBase MUtf8 MText MCodec MDict MCharDef MUnk MLattice MTokenizer MDetails MBuild MCharFilter MAnalyzer MTokenFilter MConfig
  STok SCharFilter SAnalyzer SRun LBase LUtf8 LTok LOffset LAnalyzer LTies XSample XConfig.
Import ListNotations.
Local Open Scope string_scope.
Local Open Scope list_scope.

(** * What the filters do to the order *)

Lemma in_order_weaken ts : forall o o' p p' b, (o' <= o)%N -> p' <= p -> in_order o p b ts -> in_order o' p' b ts.
Proof. destruct ts as [|t ts]; intros o o' p p' b L1 L2; cbn [in_order]; [auto|]. intros (H1 & H2 & H3 & H4 & H5 & H6). repeat split; try assumption; lia. Qed.

Lemma retain_order f : forall ts out o p b, retain f ts = Ok out -> in_order o p b ts -> in_order o p b out.
Proof.
  induction ts as [|t ts IH]; intros out o p b H I; cbn [retain] in H; [injection H as <-; exact I|].
  apply bind_ok in H. destruct H as (k & _ & H). apply bind_ok in H. destruct H as (r & R & H). injection H as <-.
  destruct I as (H1 & H2 & H3 & H4 & H5 & H6). specialize (IH _ _ _ _ R H6). destruct k.
  - cbn [in_order]. repeat split; assumption.
  - eapply in_order_weaken; [| |exact IH]; lia.
Qed.

(* the places of a token *)
Definition places (t : ftoken) := (ft_start t, ft_end t, ft_position t, ft_position_length t).

Lemma map_texts_places f : forall ts out, map_texts f ts = Ok out -> map places out = map places ts.
Proof.
  unfold map_texts. induction ts as [|t ts IH]; intros out H; cbn [mapM] in H; [injection H as <-; reflexivity|].
  apply bind_ok in H. destruct H as (x & X & H). apply bind_ok in X. destruct X as (y & _ & X). injection X as <-.
  apply bind_ok in H. destruct H as (r & R & H). injection H as <-. cbn [map]. rewrite (IH _ R). reflexivity.
Qed.
Lemma mapping_places f : forall ts out, mapping_tokens f ts = Some (Ok out) -> map places out = map places ts.
Proof.
  induction ts as [|t ts IH]; intros out H; cbn [mapping_tokens] in H; [injection H as <-; reflexivity|].
  destruct (map_text_loop _ _ _ _) as [[x| |]|]; try discriminate.
  destruct (mapping_tokens f ts) as [[r| |]|]; try discriminate. injection H as <-. cbn [map]. rewrite (IH _ eq_refl). reflexivity.
Qed.
Lemma places_order : forall ts out o p b, map places out = map places ts -> in_order o p b ts -> in_order o p b out.
Proof.
  induction ts as [|t ts IH]; intros [|t' out] o p b E I; try discriminate; [exact I|]. cbn [map] in E. injection E as E1 E2 E3 E4 E.
  cbn [in_order] in *. rewrite E1, E2, E3, E4. destruct I as (H1 & H2 & H3 & H4 & H5 & H6). repeat split; try assumption. eapply IH; eassumption.
Qed.
Lemma places_row : forall ts out p q, map places out = map places ts -> in_a_row p q ts -> in_a_row p q out.
Proof.
  induction ts as [|t ts IH]; intros [|t' out] p q E I; try discriminate; [exact I|]. cbn [map] in E. injection E as E1 E2 E3 E4 E.
  cbn [in_a_row] in *. rewrite E3, E4. destruct I as [H1 H2]. split; [assumption|]. eapply IH; eassumption.
Qed.
Lemma places_sides : forall ts out a b, map places out = map places ts -> side_by_side a b ts -> side_by_side a b out.
Proof.
  induction ts as [|t ts IH]; intros [|t' out] a b E I; try discriminate; [exact I|]. cbn [map] in E. injection E as E1 E2 E3 E4 E.
  cbn [side_by_side] in *. rewrite E1, E2. destruct I as (H1 & H2 & H3). repeat split; try assumption. eapply IH; eassumption.
Qed.

Definition with_cur (cur : option ftoken) (ts : list ftoken) := match cur with Some t => t :: ts | None => ts end.

Lemma concat_token_places cfg t1 t2 t : concat_token cfg t1 t2 = Ok t ->
  ft_start t = ft_start t1 /\ ft_end t = ft_end t2 /\ ft_position t = ft_position t1 /\ ft_position_length t = ft_position_length t1 + ft_position_length t2.
Proof. unfold concat_token. intros H. apply bind_ok in H. destruct H as (d & _ & H). injection H as <-. auto. Qed.

Lemma compound_order cfg : forall ts cur out o p b, compound_loop cfg ts cur = Ok out -> in_order o p b (with_cur cur ts) -> in_order o p b out.
Proof.
  induction ts as [|tk ts IH]; intros cur out o p b H I; cbn [compound_loop] in H.
  - injection H as <-. destruct cur; exact I.
  - apply bind_ok in H. destruct H as (tag & _ & H). destruct (contains (cc_tags cfg) tag).
    + destruct cur as [t|]; [|apply (IH (Some tk) _ _ _ _ H I)]. apply bind_ok in H. destruct H as (t' & C & H). apply (IH (Some t') _ _ _ _ H).
      destruct (concat_token_places _ _ _ _ C) as (E1 & E2 & E3 & E4). cbn [with_cur in_order] in *. rewrite E1, E2, E3, E4.
      destruct I as (H1 & H2 & H3 & H4 & H5 & H6 & H7 & H8 & H9 & H10 & H11). repeat split; try assumption; try lia.
      eapply in_order_weaken; [| |exact H11]; lia.
    + apply bind_ok in H. destruct H as (rest & R & H). injection H as <-. destruct cur as [t|]; cbn [with_cur in_order] in *.
      * destruct I as (H1 & H2 & H3 & H4 & H5 & H6 & H7 & H8 & H9 & H10 & H11). repeat split; try assumption. apply (IH None _ _ _ _ R H11).
      * destruct I as (H1 & H2 & H3 & H4 & H5 & H6). repeat split; try assumption. apply (IH None _ _ _ _ R H6).
Qed.
Lemma compound_row cfg : forall ts cur out p q, compound_loop cfg ts cur = Ok out -> in_a_row p q (with_cur cur ts) -> in_a_row p q out.
Proof.
  induction ts as [|tk ts IH]; intros cur out p q H I; cbn [compound_loop] in H.
  - injection H as <-. destruct cur; exact I.
  - apply bind_ok in H. destruct H as (tag & _ & H). destruct (contains (cc_tags cfg) tag).
    + destruct cur as [t|]; [|apply (IH (Some tk) _ _ _ H I)]. apply bind_ok in H. destruct H as (t' & C & H). apply (IH (Some t') _ _ _ H).
      destruct (concat_token_places _ _ _ _ C) as (E1 & E2 & E3 & E4). cbn [with_cur in_a_row] in *. rewrite E3, E4.
      destruct I as (H1 & H2 & H3). split; [assumption|]. rewrite Nat.add_assoc. exact H3.
    + apply bind_ok in H. destruct H as (rest & R & H). injection H as <-. destruct cur as [t|]; cbn [with_cur in_a_row] in *.
      * destruct I as (H1 & H2 & H3). repeat split; try assumption. apply (IH None _ _ _ R H3).
      * destruct I as (H1 & H2). repeat split; try assumption. apply (IH None _ _ _ R H2).
Qed.
Lemma compound_sides cfg : forall ts cur out a b, compound_loop cfg ts cur = Ok out -> side_by_side a b (with_cur cur ts) -> side_by_side a b out.
Proof.
  induction ts as [|tk ts IH]; intros cur out p q H I; cbn [compound_loop] in H.
  - injection H as <-. destruct cur; exact I.
  - apply bind_ok in H. destruct H as (tag & _ & H). destruct (contains (cc_tags cfg) tag).
    + destruct cur as [t|]; [|apply (IH (Some tk) _ _ _ H I)]. apply bind_ok in H. destruct H as (t' & C & H). apply (IH (Some t') _ _ _ H).
      destruct (concat_token_places _ _ _ _ C) as (E1 & E2 & E3 & E4). cbn [with_cur side_by_side] in *. rewrite E1, E2.
      destruct I as (H1 & H2 & H3 & H4 & H5). repeat split; try assumption; lia.
    + apply bind_ok in H. destruct H as (rest & R & H). injection H as <-. destruct cur as [t|]; cbn [with_cur side_by_side] in *.
      * destruct I as (H1 & H2 & H3 & H4 & H5). repeat split; try assumption. apply (IH None _ _ _ R H5).
      * destruct I as (H1 & H2 & H3). repeat split; try assumption. apply (IH None _ _ _ R H3).
Qed.

Ltac same_places H := eapply map_texts_places; exact H.
Lemma filter_order e d ts out o p b : run_token_filter e d ts = Ok out -> in_order o p b ts -> in_order o p b out.
Proof.
  intros H I. destruct d; cbn [run_token_filter] in H;
    try (eapply retain_order; [exact H|exact I]);
    try (eapply places_order; [same_places H|exact I]).
  - apply (compound_order c ts None out o p b H I).
  - destruct (mapping_tokens f ts) as [r|] eqn:E; [|discriminate]. subst r. eapply places_order; [eapply mapping_places; exact E|exact I].
Qed.
Lemma filter_row e d ts out p q : removes d = false -> run_token_filter e d ts = Ok out -> in_a_row p q ts -> in_a_row p q out.
Proof.
  intros K H I. destruct d; cbn [run_token_filter removes] in *; try discriminate K;
    try (eapply places_row; [same_places H|exact I]).
  - apply (compound_row c ts None out p q H I).
  - destruct (mapping_tokens f ts) as [r|] eqn:E; [|discriminate]. subst r. eapply places_row; [eapply mapping_places; exact E|exact I].
Qed.
Lemma filter_sides e d ts out a b : removes d = false -> run_token_filter e d ts = Ok out -> side_by_side a b ts -> side_by_side a b out.
Proof.
  intros K H I. destruct d; cbn [run_token_filter removes] in *; try discriminate K;
    try (eapply places_sides; [same_places H|exact I]).
  - apply (compound_sides c ts None out a b H I).
  - destruct (mapping_tokens f ts) as [r|] eqn:E; [|discriminate]. subst r. eapply places_sides; [eapply mapping_places; exact E|exact I].
Qed.
Lemma filters_keep (P : list ftoken -> Prop) e ds : (forall d ts out, In d ds -> run_token_filter e d ts = Ok out -> P ts -> P out) ->
  forall ts out, foldM (fun ts f => f ts) (map (run_token_filter e) ds) ts = Ok out -> P ts -> P out.
Proof.
  induction ds as [|d ds IH]; intros K ts out H I; cbn [map foldM] in H; [injection H as <-; exact I|].
  apply bind_ok in H. destruct H as (mid & M & H). eapply IH; [|exact H|].
  - intros d' ts' out' Hin. apply K. right. exact Hin.
  - eapply K; [left; reflexivity|exact M|exact I].
Qed.

(** * The tokens of the tokenizer, and the corrected offsets *)

Definition plain (tk : token) (ds : list str) : ftoken :=
  FToken (tk_text tk) (N.of_nat (tk_start tk)) (N.of_nat (tk_end tk)) (tk_position tk) (tk_position_length tk) (tk_word tk) ds.

Lemma tiles_order : forall ts off pos text details, tiles_from off pos text ts -> List.length details = List.length ts ->
  in_order (N.of_nat off) pos (N.of_nat (off + blen text)) (map (fun '(tk, ds) => plain tk ds) (combine ts details)).
Proof.
  induction ts as [|tk ts IH]; intros off pos text [|ds details] T L; try discriminate; cbn [combine map in_order]; [exact Logic.I|].
  destruct T as (N0 & S & E & P & PL & rest & -> & T). cbn [plain ft_start ft_end ft_position ft_position_length].
  rewrite blen_app. cbn in L. injection L as L. specialize (IH _ _ _ details T L). repeat split; try lia.
  rewrite P, PL, Nat.add_1_r. replace (off + (blen (tk_text tk) + blen rest)) with (tk_end tk + blen rest) by lia. exact IH.
Qed.
Lemma tiles_row : forall ts off pos text details, tiles_from off pos text ts -> List.length details = List.length ts ->
  in_a_row pos (pos + List.length ts) (map (fun '(tk, ds) => plain tk ds) (combine ts details)).
Proof.
  induction ts as [|tk ts IH]; intros off pos text [|ds details] T L; try discriminate; cbn [combine map in_a_row List.length]; [lia|].
  destruct T as (N0 & S & E & P & PL & rest & -> & T). cbn [plain ft_start ft_end ft_position ft_position_length].
  cbn in L. injection L as L. specialize (IH _ _ _ details T L). split; [exact P|].
  rewrite PL, Nat.add_1_r. replace (pos + Datatypes.S (List.length ts)) with (Datatypes.S pos + List.length ts) by lia. exact IH.
Qed.
Lemma tiles_sides : forall ts off pos text details, tiles_from off pos text ts -> List.length details = List.length ts ->
  side_by_side (N.of_nat off) (N.of_nat (off + blen text)) (map (fun '(tk, ds) => plain tk ds) (combine ts details)).
Proof.
  induction ts as [|tk ts IH]; intros off pos text [|ds details] T L; try discriminate; cbn [combine map side_by_side].
  { cbn [tiles_from] in T. subst text. cbn. f_equal. lia. }
  destruct T as (N0 & S & E & P & PL & rest & -> & T). cbn [plain ft_start ft_end ft_position ft_position_length].
  rewrite blen_app. cbn in L. injection L as L. specialize (IH _ _ _ details T L). repeat split; try lia.
  replace (off + (blen (tk_text tk) + blen rest)) with (tk_end tk + blen rest) by lia. exact IH.
Qed.

Definition undo_token segss (tk : ftoken) := with_offsets tk (undone segss (N.to_nat (ft_start tk))) (undone segss (N.to_nat (ft_end tk))).

Lemma undone_order segss : forall ts o p b, in_order o p b ts ->
  in_order (N.of_nat (undone segss (N.to_nat o))) p (N.of_nat (undone segss (N.to_nat b))) (map (undo_token segss) ts).
Proof.
  induction ts as [|t ts IH]; intros o p b I; cbn [map in_order]; [exact Logic.I|]. destruct I as (H1 & H2 & H3 & H4 & H5 & H6).
  pose proof (undone_mono segss (N.to_nat o) (N.to_nat (ft_start t)) ltac:(lia)).
  pose proof (undone_mono segss (N.to_nat (ft_start t)) (N.to_nat (ft_end t)) ltac:(lia)).
  pose proof (undone_mono segss (N.to_nat (ft_end t)) (N.to_nat b) ltac:(lia)).
  repeat split; cbn [undo_token with_offsets ft_start ft_end ft_position ft_position_length]; try lia. apply (IH _ _ _ H6).
Qed.
Lemma undone_row segss : forall ts p q, in_a_row p q ts -> in_a_row p q (map (undo_token segss) ts).
Proof. induction ts as [|t ts IH]; intros p q I; [exact I|]. destruct I as [H1 H2]. cbn [map in_a_row]. split; [exact H1|]. apply (IH _ _ H2). Qed.
Lemma undone_sides segss : forall ts a b, side_by_side a b ts ->
  side_by_side (N.of_nat (undone segss (N.to_nat a))) (N.of_nat (undone segss (N.to_nat b))) (map (undo_token segss) ts).
Proof.
  induction ts as [|t ts IH]; intros a b I; cbn [map side_by_side] in *; [congruence|]. destruct I as (H1 & H2 & H3).
  pose proof (undone_mono segss (N.to_nat (ft_start t)) (N.to_nat (ft_end t)) ltac:(lia)).
  repeat split; cbn [undo_token with_offsets ft_start ft_end]; [congruence|lia|]. apply (IH _ _ H3).
Qed.

Lemma in_order_bound : forall ts o p b, in_order o p b ts -> Forall (fun tk => (ft_start tk <= b)%N /\ (ft_end tk <= b)%N) ts.
Proof.
  induction ts as [|t ts IH]; intros o p b I; constructor; destruct I as (H1 & H2 & H3 & H4 & H5 & H6); [lia|]. eapply IH. exact H6.
Qed.

(** * The analyzer *)

Lemma analyze_inv fs t tfs text out segss tmp tokens : filtered fs text out segss -> tokenize t out = Some (Ok tmp) ->
  analyze (Analyzer fs t tfs) text = Some (Ok tokens) ->
  exists toks toks', mapM (analyzed_token t) tmp = Ok toks /\ foldM (fun ts f => f ts) tfs toks = Ok toks'.
Proof.
  intros F T H. unfold analyze in H. destruct (filters_recorded _ _ _ _ F []) as (vecs & E & _). cbn [an_char_filters an_tokenizer] in H. rewrite E, T in H.
  injection H as H. unfold analyze_normalized in H. cbn [an_tokenizer an_token_filters] in H. apply bind_ok in H. destruct H as (toks & M & H).
  apply bind_ok in H. destruct H as (toks' & M' & _). exists toks, toks'. auto.
Qed.

Lemma found_bytes A m : forall text ss, sentences text ss -> forall wss, Forall2 (exact_answer A m) ss wss ->
  blen (concat (map (fun wl => concat (map fst wl)) wss)) <= blen text.
Proof.
  assert (K : forall s ws, exact_answer A m s ws -> blen (concat (map fst ws)) <= blen s).
  { intros s ws (W & Act & _ & [[-> _]|[S _]]); [cbn; lia|]. rewrite (seg_suffix _ _ _ _ S). lia. }
  induction 1 as [|s O|s rest ss C S IH]; intros wss F; inversion F as [|? wl ? wss' X Y]; subst; cbn [map concat].
  - cbn. lia.
  - inversion Y; subst. cbn [map concat]. rewrite app_nil_r. apply K. exact X.
  - rewrite !blen_app. apply Nat.add_le_mono; [exact (K _ _ X)|exact (IH _ Y)].
Qed.

Lemma analyze_order e t A fs tds text out segss tokens : represents t A -> valid_str out -> filtered fs text out segss ->
  analyze (Analyzer fs t (map (run_token_filter e) tds)) text = Some (Ok tokens) -> in_order 0 0 (N.of_nat (blen text)) tokens.
Proof.
  intros R V F H. destruct (tokenize_exact t A R out (split_inclusive is_delimiter out) V (split_sentences out)) as (tmp & wss & T & _ & X & TI).
  pose proof (found_bytes _ _ _ _ (split_sentences out) _ X) as B.
  destruct (analyze_inv _ _ _ _ _ _ _ _ F T H) as (toks & toks' & M & FO). destruct (mapM_details _ _ _ M) as (details & L & EQ).
  assert (O : in_order 0 0 (N.of_nat (blen out)) toks').
  { eapply (filters_keep (in_order 0 0 (N.of_nat (blen out)))); [|exact FO|].
    - intros d ts o _. apply filter_order.
    - subst toks. pose proof (tiles_order _ _ _ _ details TI L) as O. cbn [Nat.add N.of_nat] in O. revert O. generalize (combine tmp details). generalize 0%N, 0.
      clear - B. intros o p l. revert o p. induction l as [|[tk ds] l IH]; intros o p I; cbn [map in_order] in *; [exact Logic.I|].
      destruct I as (H1 & H2 & H3 & H4 & H5 & H6). unfold plain in *. cbn [ft_start ft_end ft_position ft_position_length] in *. repeat split; try assumption; try lia.
      apply IH. exact H6. }
  rewrite (analyze_offsets (Analyzer fs t (map (run_token_filter e) tds)) text out segss tmp toks toks' F T M FO (in_order_bound _ _ _ _ O)) in H.
  injection H as <-. pose proof (undone_order segss _ _ _ _ O) as U. rewrite Nnat.Nat2N.id, (undone_end _ _ _ _ F) in U.
  eapply in_order_weaken; [| |exact U]; lia.
Qed.

Lemma analyze_row e t A fs tds text out segss tokens : represents t A -> valid_str out -> covered A out -> filtered fs text out segss ->
  Forall (fun d => removes d = false) tds ->
  analyze (Analyzer fs t (map (run_token_filter e) tds)) text = Some (Ok tokens) ->
  side_by_side (N.of_nat (undone segss 0)) (N.of_nat (blen text)) tokens /\
  exists tmp, tokenize t out = Some (Ok tmp) /\ in_a_row 0 (List.length tmp) tokens.
Proof.
  intros R V C F D H. destruct (tokenize_tiles t A R out V C) as (tmp & T & TI). rewrite Forall_forall in D.
  destruct (analyze_inv _ _ _ _ _ _ _ _ F T H) as (toks & toks' & M & FO). destruct (mapM_details _ _ _ M) as (details & L & EQ).
  assert (O : in_order 0 0 (N.of_nat (blen out)) toks').
  { eapply (filters_keep (in_order 0 0 (N.of_nat (blen out)))); [intros d ts o _; apply filter_order|exact FO|].
    subst toks. exact (tiles_order _ _ _ _ details TI L). }
  assert (W : in_a_row 0 (List.length tmp) toks').
  { eapply (filters_keep (in_a_row 0 (List.length tmp))); [intros d ts o I; apply filter_row, D, I|exact FO|].
    subst toks. exact (tiles_row _ _ _ _ details TI L). }
  assert (S : side_by_side 0 (N.of_nat (blen out)) toks').
  { eapply (filters_keep (side_by_side 0 (N.of_nat (blen out)))); [intros d ts o I; apply filter_sides, D, I|exact FO|].
    subst toks. exact (tiles_sides _ _ _ _ details TI L). }
  rewrite (analyze_offsets (Analyzer fs t (map (run_token_filter e) tds)) text out segss tmp toks toks' F T M FO (in_order_bound _ _ _ _ O)) in H.
  injection H as <-. split.
  - pose proof (undone_sides segss _ _ _ S) as U. rewrite Nnat.Nat2N.id, (undone_end _ _ _ _ F) in U. exact U.
  - exists tmp. split; [exact T|]. apply undone_row. exact W.
Qed.

(** * Examples: compounds and removed tokens after a mapping filter *)

Definition order_text : str := lit "q" ++ [10%N] ++ lit "zz" ++ [10%N] ++ lit "z".
Definition order_out : str := lit "xx" ++ [10%N] ++ lit "zz" ++ [10%N] ++ lit "z".
Definition order_segments : list (list segment) := [[(1, 2); (1, 1); (1, 1); (1, 1); (1, 1); (1, 1)]].
Lemma order_runs : exists f c, mapping_new [(lit "q", lit "xx")] = Ok f /\ compound_config_new IPADIC [lit "UNK"] None = Ok c /\
  let t := sample Normal [sample_unk] in
  represents t (sample_meaning [sample_unk]) /\ valid_str order_out /\ covered (sample_meaning [sample_unk]) order_out /\
  filtered [mapping_apply f] order_text order_out order_segments /\
  analyze (Analyzer [mapping_apply f] t (map (run_token_filter sample_env) [TFLength None (Some 2%N); TFUppercase])) order_text =
    Some (Ok [FToken (lit "Z") 5 6 2 1 (WordId u32_max true) [lit "UNK"]]) /\
  analyze (Analyzer [mapping_apply f] t (map (run_token_filter sample_env) [TFCompound c; TFUppercase])) order_text =
    Some (Ok [FToken (map upper_char order_out) 0 6 0 3 (WordId u32_max true) (compound_details IPADIC)]).
Proof.
  eexists. eexists. split; [reflexivity|]. split; [vm_compute; reflexivity|]. intros t.
  split; [apply sample_represents, sample_unk_ok|]. split; [repeat (apply Forall_cons; [unfold valid_char; cbn; lia|]); apply Forall_nil|].
  split; [apply sample_covered; discriminate|]. split.
  - apply filtered_more with (mid := order_out); [|constructor].
    eexists; [vm_compute; reflexivity|]. split; [vm_compute; reflexivity|]. eexists. eexists. split; [vm_compute; reflexivity|].
    intros x Hx. vm_compute in Hx. do 8 (destruct x as [|x]; [vm_compute; reflexivity|]). exfalso. lia.
  - split; vm_compute; reflexivity.
Qed.
