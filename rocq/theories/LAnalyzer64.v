(** A configured analyzer gives the same in a debug build. *)
From Coq Require Import String.
From Coq Require Import List NArith ZArith Bool Lia ZifyBool ZifyNat ZifyN.
From Verif Require Import MBase MUtf8 MText MBuild MCodec MDict MCharDef MUnk MLattice MTokenizer MCharFilter MAnalyzer STok LTok LSeg MTokenFilter MConfig SCharFilter SAnalyzer STokenFilter SNumber SConfig SRun
  LConfig LConfigMore LTokenFilter LTokenProps LNumeral LNumber LMapping LCharFilter LFilterProps LKana LAnalyzer LRun.
From Verif Require Import MLattice32 MDebug MOffset64 MAnalyzer64 SCharDef SOffset64 SDebug LCharDef LOffset64 LDebug SWork SCast.
Import ListNotations.
Local Open Scope list_scope.

Lemma nil_corrections len : same_corrections [] [] len len.
Proof. intros search x SC Hx. reflexivity. Qed.

Lemma filter_checked e name fs d text : NoDup (map fst fs) -> load_char_filter e name (VObj fs) = Ok d -> text_suits e name fs text ->
  forall out offs diffs, run_char_filter e d text = Some (Ok (out, offs, diffs)) ->
  run_char_filter_debug e d text = Some (Ok (out, offs, diffs)) /\ same_corrections offs diffs (blen out) (blen out).
Proof.
  intros ND L S out offs diffs E. apply load_char_filter_iff in L; [|exact ND]. destruct S as [[V FT] SI SM SR SN].
  destruct L as [fs a b H H'|fs v m f H M NF|fs p r rx H H' ER|fs v k H M]; cbn [run_char_filter run_char_filter_debug] in *.
  - destruct (iteration_spec (IterationConfig a b) text) as (out' & R & X). rewrite R in *. injection E as <- <- <-. split; [reflexivity|apply nil_corrections].
  - destruct (SM eq_refl v m H M) as [K FO]. destruct (mapping_filter_spec m text K V) as (f' & NF' & _ & out' & offs' & diffs' & segs & R & X).
    assert (f' = f) by congruence. subst f'. assert (out' = out) by congruence. subst out'. apply mapping_fits; auto. eapply FO; eassumption.
  - destruct (SR eq_refl p r rx H H' ER) as (D & ps & tail & -> & FI & NE & FO). injection E as E.
    destruct (regex_fits_plain rx r ps tail out offs diffs D FI E FT) as [A B].
    { assert (OUT : out = with_replaced r ps tail).
      { unfold regex_apply, replace_all in E. rewrite FI in E. pose proof (replace_from_spec rx r ps D [] tail) as RS. cbn [app blen] in RS. rewrite RS in E. cbn [bind] in E. congruence. }
      rewrite OUT. exact FO. }
    rewrite A. auto.
  - destruct (SN eq_refl) as (C & NE & FO). assert (E' : normalize_apply (e_graphemes e) (e_form e k) text = (out, offs, diffs)) by congruence.
    destruct (normalize_fits (e_graphemes e) (e_form e k) text out offs diffs C E' FT) as [A B].
    { destruct (normalize_offsets (e_graphemes e) (e_form e k) text out offs diffs C NE E' FT) as [O _]; [|rewrite O; apply FO].
      unfold normalize_apply in E'. rewrite normalize_loop in E'. cbn [app] in E'. replace out with (flat_map (e_form e k) (e_graphemes e text)) by congruence. apply FO. }
    rewrite A. auto.
Qed.

Definition checked_step (o : N) (v : recorded) : res N := let '(offsets, diffs, len) := v in correct_offset_debug binary_search o offsets diffs len.
Definition checked_all (vecs : list recorded) (o : N) : res N := foldM checked_step vecs o.

Lemma correct_token_checked vecs tk : correct_token_debug vecs tk =
  bind (checked_all vecs (ft_start tk)) (fun s => bind (checked_all vecs (ft_end tk)) (fun e =>
    Ok (FToken (ft_text tk) s e (ft_position tk) (ft_position_length tk) (ft_word tk) (ft_details tk)))).
Proof. reflexivity. Qed.

Lemma chain_checked e cs ds text :
  Forall2 (fun '(name, fs) d => NoDup (map fst fs) /\ load_char_filter e name (VObj fs) = Ok d) cs ds -> texts_suit e cs text ->
  forall vecs0, exists out segss vecs, text_chain e cs text out segss /\ filtered (map (run_char_filter e) ds) text out segss /\
    apply_char_filters (map (run_char_filter_debug e) ds) text vecs0 = Some (Ok (out, vecs)) /\
    forall x, x <= blen out -> undone segss x <= blen text /\ checked_all vecs (N.of_nat x) = checked_all vecs0 (N.of_nat (undone segss x)).
Proof.
  intros F. revert text. induction F as [|[name fs] d cs ds [ND L] F IH]; intros text S vecs0; cbn [texts_suit map] in *.
  - exists text, [], vecs0. split; [constructor|]. split; [constructor|]. split; [reflexivity|]. intros x Hx. auto.
  - destruct S as [S SS]. destruct (char_filter_runs e name fs d text ND L S) as (mid & segs & X & R).
    pose proof R as (T1 & T2 & offs & diffs & E & C).
    destruct (filter_checked e name fs d text ND L S mid offs diffs E) as [ED SC].
    destruct (IH mid (SS _ _ X) (if is_nil offs then vecs0 else (offs, diffs, N.of_nat (blen mid)) :: vecs0)) as (out & segss & vecs & T & FL & AP & B).
    exists out, (segs :: segss), vecs. split; [econstructor; eassumption|]. split; [econstructor; eassumption|].
    split; [cbn [apply_char_filters]; rewrite ED; exact AP|].
    intros x Hx. cbn [undone fold_right]. fold (undone segss x). destruct (B x Hx) as [B1 B2]. split.
    + rewrite <- T1. apply source_of_within. rewrite T2. exact B1.
    + rewrite B2. specialize (C _ B1). destruct offs as [|o offs]; cbn [is_nil].
      * unfold correct_offset, correct_offset_with in C. cbn [is_nil] in C. injection C as C. apply Nnat.Nat2N.inj in C. rewrite <- C. reflexivity.
      * unfold checked_all. cbn [foldM checked_step]. rewrite (SC binary_search _ binary_search_contract B1). unfold correct_offset in C. rewrite C. reflexivity.
Qed.

Lemma analyzer_checked e t A cs cds tfs tds text : represents t A -> small_matrix (d_matrix (t_dictionary t)) A ->
  Forall2 (fun '(name, fs) d => NoDup (map fst fs) /\ load_char_filter e name (VObj fs) = Ok d) cs cds ->
  Forall2 (fun '(name, fs) d => NoDup (map fst fs) /\ load_token_filter name (VObj fs) = Ok d) tfs tds ->
  texts_suit e cs text ->
  (forall out segss, text_chain e cs text out segss -> valid_str out /\ covered A out /\
    (exists ss, sentences out ss /\ Forall (fits_i32 (t_mode t)) ss /\ Forall (fits_u32 A) ss) /\
    forall tmp, tokenize t out = Some (Ok tmp) -> exists tokens, mapM (analyzed_token t) tmp = Ok tokens /\ all_tokens_suit e tfs tokens) ->
  exists ts, analyze (analyzer_of e (AnalyzerDef cds t tds)) text = Some (Ok ts) /\ analyze_checked e (AnalyzerDef cds t tds) text = Some (Ok ts).
Proof.
  intros R SM FC FT S H. destruct (chain_checked e cs cds text FC S []) as (out & segss & vecs & TC & FL & AP & CO).
  destruct (H out segss TC) as (V & C & (ss & SS & F1 & F2) & HT). destruct (tokenize_tiles t A R out V C) as (tmp & T & TI).
  destruct (HT tmp T) as (tokens & M & TS). destruct (token_chain_runs e tfs tds tokens FT TS) as (tokens' & TCH & FO).
  assert (B : Forall (fun tk => (ft_start tk <= N.of_nat (blen out))%N /\ (ft_end tk <= N.of_nat (blen out))%N) tokens').
  { eapply chain_bounds; [exact TCH|]. destruct (mapM_details _ _ _ M) as (details & L & ->).
    assert (B := tiles_from_bound _ _ _ _ TI). cbn [Nat.add] in B. apply Forall_map. apply Forall_forall. intros [tk ds] I1. apply in_combine_l in I1.
    rewrite Forall_forall in B. specialize (B _ I1). cbn [ft_start ft_end]. lia. }
  eexists. split.
  - apply (analyze_offsets (analyzer_of e (AnalyzerDef cds t tds)) text out segss tmp tokens tokens' FL T M FO B).
  - unfold analyze_checked. cbn [ad_char_filters ad_tokenizer ad_token_filters]. rewrite AP. rewrite (proj1 (all_agree t A R SM out ss V SS F1 F2)), T, M. cbn [bind].
    rewrite FO. cbn [bind]. f_equal. apply mapM_map. intros tk I1. rewrite Forall_forall in B. destruct (B tk I1) as [B1 B2].
    destruct (CO (N.to_nat (ft_start tk)) ltac:(lia)) as [_ C1]. destruct (CO (N.to_nat (ft_end tk)) ltac:(lia)) as [_ C2].
    rewrite N2Nat.id in C1, C2. rewrite correct_token_checked, C1, C2. reflexivity.
Qed.
