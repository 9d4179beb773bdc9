(** The analyzer. *)
From Coq Require Import List NArith ZArith Bool Lia ZifyBool ZifyNat ZifyN.
From Verif Require Import MBase MUtf8 MText MCodec MDict MCharDef MUnk MLattice MTokenizer MDetails MBuild MCharFilter MAnalyzer
  STok SCharDef SCharFilter SAnalyzer LBase LUtf8 LTok LCharDef LOffset LMapping LCharFilter LKana.
Import ListNotations.
Local Open Scope list_scope.

Definition correct_step (o : N) (v : recorded) : res N := let '(offsets, diffs, len) := v in correct_offset o offsets diffs len.
Definition correct_all (vecs : list recorded) (o : N) : res N := foldM correct_step vecs o.

Lemma correct_token_all vecs tk : correct_token vecs tk =
  bind (correct_all vecs (ft_start tk)) (fun s => bind (correct_all vecs (ft_end tk)) (fun e =>
    Ok (FToken (ft_text tk) s e (ft_position tk) (ft_position_length tk) (ft_word tk) (ft_details tk)))).
Proof. reflexivity. Qed.

Lemma filters_recorded fs text out segss : filtered fs text out segss -> forall vecs0,
  exists vecs, apply_char_filters fs text vecs0 = Some (Ok (out, vecs)) /\
    forall x, x <= blen out -> undone segss x <= blen text /\ correct_all vecs (N.of_nat x) = correct_all vecs0 (N.of_nat (undone segss x)).
Proof.
  induction 1 as [text|f fs text mid out segs segss (T1 & T2 & offs & diffs & E & C) R IH]; intros vecs0; cbn [apply_char_filters undone fold_right].
  - exists vecs0. split; [reflexivity|]. intros x Hx. auto.
  - rewrite E. destruct (IH (if is_nil offs then vecs0 else (offs, diffs, N.of_nat (blen mid)) :: vecs0)) as (vecs & A & B).
    exists vecs. split; [exact A|]. intros x Hx. fold (undone segss x). destruct (B x Hx) as [B1 B2]. split.
    + rewrite <- T1. apply source_of_within. rewrite T2. exact B1.
    + rewrite B2. specialize (C _ B1). destruct offs as [|o offs]; cbn [is_nil].
      * unfold correct_offset, correct_offset_with in C. cbn [is_nil] in C. injection C as C. apply Nnat.Nat2N.inj in C. rewrite <- C. reflexivity.
      * unfold correct_all. cbn [foldM correct_step]. rewrite C. reflexivity.
Qed.

Lemma mapM_map {A B} (f : A -> res B) g l : (forall x, In x l -> f x = Ok (g x)) -> mapM f l = Ok (map g l).
Proof.
  induction l as [|x l IH]; intros H; cbn [mapM map]; [reflexivity|]. rewrite H by (left; reflexivity). cbn [bind].
  rewrite IH by (intros y Hy; apply H; right; exact Hy). reflexivity.
Qed.

Lemma analyze_offsets a text out segss tmp tokens tokens' :
  filtered (an_char_filters a) text out segss -> tokenize (an_tokenizer a) out = Some (Ok tmp) ->
  mapM (analyzed_token (an_tokenizer a)) tmp = Ok tokens -> foldM (fun ts f => f ts) (an_token_filters a) tokens = Ok tokens' ->
  Forall (fun tk => (ft_start tk <= N.of_nat (blen out))%N /\ (ft_end tk <= N.of_nat (blen out))%N) tokens' ->
  analyze a text = Some (Ok (map (fun tk => with_offsets tk (undone segss (N.to_nat (ft_start tk))) (undone segss (N.to_nat (ft_end tk)))) tokens')).
Proof.
  intros F T M TF B. unfold analyze. destruct (filters_recorded _ _ _ _ F []) as (vecs & A & C). rewrite A, T. unfold analyze_normalized.
  rewrite M. cbn [bind]. rewrite TF. cbn [bind]. f_equal. apply mapM_map. intros tk I1. rewrite Forall_forall in B. destruct (B tk I1) as [B1 B2].
  rewrite correct_token_all. destruct (C (N.to_nat (ft_start tk)) ltac:(lia)) as [_ C1]. destruct (C (N.to_nat (ft_end tk)) ltac:(lia)) as [_ C2].
  rewrite N2Nat.id in C1, C2. rewrite C1, C2. reflexivity.
Qed.

Lemma boundaries_undone segss x y : boundaries segss x y -> undone segss x = y.
Proof.
  induction 1 as [|segs segss x y z (p & q & -> & E1 & -> & Q) B IH]; cbn [undone fold_right]; [reflexivity|].
  fold (undone segss x). rewrite IH, E1. apply source_of_boundary. exact Q.
Qed.

Lemma undone_mono segss : forall x y, x <= y -> undone segss x <= undone segss y.
Proof. induction segss as [|s segss IH]; intros x y H; cbn [undone fold_right]; [exact H|]. apply source_of_mono. apply IH. exact H. Qed.

Lemma undone_end fs text out segss : filtered fs text out segss -> undone segss (blen out) = blen text.
Proof.
  induction 1 as [|f fs text mid out segs segss (T1 & T2 & _) R IH]; cbn [undone fold_right]; [reflexivity|].
  fold (undone segss (blen out)). rewrite IH, <- T2, <- T1. rewrite <- (app_nil_r segs) at 1. apply source_of_boundary. exact Logic.I.
Qed.

Lemma tiles_from_sides segss : forall ts off pos text details, tiles_from off pos text ts -> List.length details = List.length ts ->
  side_by_side (N.of_nat (undone segss off)) (N.of_nat (undone segss (off + blen text)))
    (map (fun '(tk, ds) => FToken (tk_text tk) (N.of_nat (undone segss (tk_start tk))) (N.of_nat (undone segss (tk_end tk)))
                             (tk_position tk) (tk_position_length tk) (tk_word tk) ds) (combine ts details)).
Proof.
  induction ts as [|tk ts IH]; intros off pos text details T L; cbn [tiles_from] in T.
  - subst. cbn. rewrite Nat.add_0_r. reflexivity.
  - destruct details as [|ds details]; [discriminate|]. destruct T as (_ & S & E & _ & _ & rest & -> & T).
    cbn [combine map side_by_side ft_start ft_end]. rewrite S. split; [reflexivity|]. split.
    + pose proof (undone_mono segss off (tk_end tk) ltac:(lia)). lia.
    + rewrite blen_app. replace (off + (blen (tk_text tk) + blen rest)) with (tk_end tk + blen rest) by lia. eapply IH; [exact T|]. cbn in L. lia.
Qed.

Lemma mapM_details t tmp tokens : mapM (analyzed_token t) tmp = Ok tokens ->
  exists details, List.length details = List.length tmp /\
    tokens = map (fun '(tk, ds) => FToken (tk_text tk) (N.of_nat (tk_start tk)) (N.of_nat (tk_end tk)) (tk_position tk) (tk_position_length tk) (tk_word tk) ds) (combine tmp details).
Proof.
  revert tokens. induction tmp as [|tk tmp IH]; intros tokens H; cbn [mapM] in H.
  - injection H as <-. exists []. auto.
  - unfold analyzed_token in H at 1. destruct (get_details (t_dictionary t) (t_user t) (tk_word tk) None) as [[d ?]| |]; try discriminate. cbn [bind] in H.
    destruct d as [ds|]; [|discriminate]. cbn [ok_or bind] in H. destruct (mapM (analyzed_token t) tmp) as [r| |] eqn:E; try discriminate. cbn [bind] in H.
    injection H as <-. destruct (IH r eq_refl) as (dd & L & ->). exists (ds :: dd). cbn. auto.
Qed.

Lemma tiles_from_bound : forall ts off pos text, tiles_from off pos text ts -> Forall (fun tk => tk_start tk <= off + blen text /\ tk_end tk <= off + blen text) ts.
Proof.
  induction ts as [|tk ts IH]; intros off pos text T; constructor; destruct T as (_ & S & E & _ & _ & rest & -> & T); rewrite blen_app.
  - lia.
  - specialize (IH _ _ _ T). revert IH. apply Forall_impl. intros x. lia.
Qed.

Lemma analyze_sides t A fs text out segss tokens : represents t A -> valid_str out -> covered A out -> filtered fs text out segss ->
  analyze (Analyzer fs t []) text = Some (Ok tokens) ->
  side_by_side (N.of_nat (undone segss 0)) (N.of_nat (blen text)) tokens /\ flat_map ft_text tokens = out.
Proof.
  intros R V C F H. destruct (tokenize_tiles t A R out V C) as (tmp & T & TI).
  assert (M : exists toks, mapM (analyzed_token t) tmp = Ok toks).
  { unfold analyze in H. destruct (filters_recorded _ _ _ _ F []) as (vecs & E & _). cbn [an_char_filters an_tokenizer] in H. rewrite E, T in H.
    unfold analyze_normalized in H. cbn [an_tokenizer] in H. destruct (mapM (analyzed_token t) tmp) as [x| |]; [exists x; reflexivity|discriminate|discriminate]. }
  destruct M as (toks & M). destruct (mapM_details _ _ _ M) as (details & L & EQ).
  assert (B := tiles_from_bound _ _ _ _ TI). cbn [Nat.add] in B.
  rewrite (analyze_offsets (Analyzer fs t []) text out segss tmp toks toks F T M eq_refl) in H.
  2:{ subst toks. apply Forall_map. apply Forall_forall. intros [tk ds] I1. apply in_combine_l in I1. rewrite Forall_forall in B. specialize (B _ I1). cbn [ft_start ft_end]. lia. }
  injection H as <-. subst toks. rewrite map_map. split.
  - rewrite <- (undone_end _ _ _ _ F). pose proof (tiles_from_sides segss tmp 0 0 out details TI L) as S. cbn [Nat.add] in S.
    match goal with |- side_by_side _ _ ?a => match type of S with side_by_side _ _ ?b => replace a with b; [exact S|] end end.
    apply map_ext. intros [tk ds]. unfold with_offsets. cbn [ft_text ft_start ft_end ft_position ft_position_length ft_word ft_details]. rewrite !Nnat.Nat2N.id. reflexivity.
  - clear - TI L. unfold tiles in TI. revert TI L. generalize 0 at 1. generalize 0. revert out details.
    induction tmp as [|tk tmp IH]; intros out details n m TI L; cbn [tiles_from] in TI; [subst; reflexivity|].
    destruct details as [|ds details]; [discriminate|]. destruct TI as (_ & _ & _ & _ & _ & rest & -> & TI). cbn [combine map flat_map]. cbn [ft_text with_offsets]. f_equal.
    eapply IH; [exact TI|]. cbn in L. lia.
Qed.

(** * The filters record *)

Lemma mapping_records m f text out segs : mapping_keys_ok m -> valid_str text -> mapping_new m = Ok f -> replaced m text out segs ->
  fits_isize (blen text) -> fits_isize (blen out) -> filter_records (mapping_apply f) text out segs.
Proof.
  intros K V NF RP S1 S2. destruct (replaced_totals _ _ _ _ RP) as (T1 & T2 & _). split; [exact T1|]. split; [exact T2|].
  destruct (mapping_filter_spec m text K V) as (f' & NF' & _ & out' & offs & diffs & segs' & E & RP').
  assert (f' = f) by congruence. subst f'. destruct (replaced_unique m text _ _ (proj1 (proj2 K)) RP _ _ RP') as [<- <-].
  exists offs, diffs. split; [exact E|]. intros x Hx. eapply mapping_offsets; eauto. apply binary_search_contract.
Qed.

Lemma normalize_records graphemes form text : concat (graphemes text) = text -> Forall (fun g => g <> []) (graphemes text) ->
  fits_isize (blen text) -> fits_isize (blen (flat_map form (graphemes text))) ->
  filter_records (fun t => Some (Ok (normalize_apply graphemes form t))) text (flat_map form (graphemes text)) (grapheme_segments form (graphemes text)).
Proof.
  intros C NE S1 S2. destruct (segments_totals form (graphemes text)) as [T1 T2]. rewrite C in T1. split; [exact T1|]. split; [exact T2|].
  destruct (normalize_apply graphemes form text) as [[out offs] diffs] eqn:E.
  assert (O : out = flat_map form (graphemes text)).
  { unfold normalize_apply in E. rewrite normalize_loop in E. injection E as <- _ _. reflexivity. }
  subst out. exists offs, diffs. split; [reflexivity|]. intros x Hx.
  destruct (normalize_offsets graphemes form text _ _ _ C NE E S1 S2) as [_ H]. apply H; [apply binary_search_contract|exact Hx].
Qed.

Lemma regex_records rx r ps tail : let text := whole ps tail in has_dollar r = false -> rx_find_iter rx text = match_spans 0 ps ->
  Forall (fun '(_, m) => m <> []) ps \/ r = [] -> fits_isize (blen text) -> fits_isize (blen (with_replaced r ps tail)) ->
  filter_records (fun t => Some (regex_apply rx r t)) text (with_replaced r ps tail) (match_segments r ps tail).
Proof.
  intros text ND FI NE S1 S2. destruct (match_segments_totals r ps tail) as [T1 T2]. split; [exact T1|]. split; [exact T2|].
  destruct (regex_offsets rx r text ps tail ND eq_refl FI NE S1 S2) as (offs & diffs & E & H). exists offs, diffs. split; [rewrite E; reflexivity|].
  intros x Hx. apply H; [apply binary_search_contract|exact Hx].
Qed.

Definition char_segments (text out : str) : list segment := map (fun '(a, b) => (width a, width b)) (combine text out).

