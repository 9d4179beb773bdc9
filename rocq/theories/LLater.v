(** Token filters do not look at offsets; filtering a finished analysis. *)
From Coq Require Import List NArith ZArith Bool Lia ZifyBool ZifyNat ZifyN.
From Verif Require Import MBase MUtf8 MText MTokenizer MDetails MCharFilter MAnalyzer MTokenFilter MConfig
  SFrame SLater LBase LSafe LFrame.
Import ListNotations.
Local Open Scope list_scope.

Section Moved.
Context (R : N -> N -> Prop) (Q : nat -> nat -> Prop).
Definition moved (a b : ftoken) : Prop :=
  ft_text a = ft_text b /\ R (ft_start a) (ft_start b) /\ R (ft_end a) (ft_end b) /\ Q (ft_position a) (ft_position b) /\
  ft_position_length a = ft_position_length b /\ ft_word a = ft_word b /\ ft_details a = ft_details b.
Definition moved_all := Forall2 moved.

Lemma retain_moved f : (forall a b, moved a b -> f a = f b) -> forall ts ts', moved_all ts ts' -> agree moved_all (retain f ts) (retain f ts').
Proof.
  intros K ts ts' F. induction F as [|a b ts ts' H F IH]; cbn [retain]; [constructor|].
  rewrite <- (K a b H). apply agree_bind_eq. intros x _. eapply agree_bind; [exact IH|]. intros r r' Hr. destruct x; [constructor|]; assumption.
Qed.
Lemma set_text_moved a b t : moved a b -> moved (set_ft_text a t) (set_ft_text b t).
Proof. intros (H1 & H2 & H3 & H4 & H5 & H6 & H7). repeat split; assumption. Qed.
Lemma texts_moved f : (forall a b, moved a b -> f a = f b) -> forall ts ts', moved_all ts ts' -> agree moved_all (map_texts f ts) (map_texts f ts').
Proof.
  intros K ts ts' F. unfold map_texts. eapply agree_mapM; [exact F|]. intros a b H. rewrite <- (K a b H). apply agree_bind_eq. intros t _. apply set_text_moved, H.
Qed.
Lemma tag_moved a b : moved a b -> token_tag a = token_tag b.
Proof. intros (H1 & H2 & H3 & H4 & H5 & H6 & H7). unfold token_tag. rewrite H7. reflexivity. Qed.
Lemma detail_moved i a b : moved a b -> detail_text i a = detail_text i b.
Proof. intros (H1 & H2 & H3 & H4 & H5 & H6 & H7). unfold detail_text, unknown_detail. rewrite H1, H7. reflexivity. Qed.

Lemma mapping_moved f : forall ts ts', moved_all ts ts' -> agree_run moved_all (mapping_tokens f ts) (mapping_tokens f ts').
Proof.
  intros ts ts' F. induction F as [|a b ts ts' H F IH]; cbn [mapping_tokens]; [constructor|].
  pose proof H as (H1 & _). rewrite <- H1. destruct (map_text_loop _ _ _ _) as [[t|k|]|]; cbn; try reflexivity; try exact I.
  destruct (mapping_tokens f ts) as [[r|k|]|], (mapping_tokens f ts') as [[r'|k'|]|]; cbn in IH |- *; try contradiction; try exact IH.
  constructor; [apply set_text_moved, H|exact IH].
Qed.

Lemma concat_moved cfg a b c d : moved a b -> moved c d -> agree moved (concat_token cfg a c) (concat_token cfg b d).
Proof.
  intros (H1 & H2 & H3 & H4 & H5 & H6 & H7) (G1 & G2 & G3 & G4 & G5 & G6 & G7). unfold concat_token. apply agree_bind_eq. intros ds _.
  repeat split; cbn; try assumption; congruence.
Qed.

Lemma compound_moved cfg : forall ts ts', moved_all ts ts' -> forall c c',
  match c, c' with Some x, Some y => moved x y | None, None => True | _, _ => False end ->
  agree moved_all (compound_loop cfg ts c) (compound_loop cfg ts' c').
Proof.
  intros ts ts' F. induction F as [|a b ts ts' H F IH]; intros c c' C; cbn [compound_loop].
  - destruct c as [x|], c' as [y|]; cbn in *; try contradiction; repeat constructor; apply C.
  - rewrite <- (tag_moved a b H). apply agree_bind_eq. intros pos _. destruct (contains _ _).
    + destruct c as [x|], c' as [y|]; cbn in C; try contradiction; [|apply IH; exact H].
      eapply agree_bind; [apply concat_moved; eassumption|]. intros t t' Ht. apply IH. exact Ht.
    + eapply agree_bind; [apply IH; exact I|]. intros r r' Hr. destruct c as [x|], c' as [y|]; cbn in C; try contradiction; repeat constructor; try assumption; try apply H; apply C.
Qed.

Theorem filter_moved e d ts ts' : moved_all ts ts' -> agree moved_all (run_token_filter e d ts) (run_token_filter e d ts').
Proof.
  intros F. destruct d; cbn [run_token_filter].
  all: try solve [apply texts_moved; [|exact F]; intros a b H; first [apply detail_moved, H | pose proof H as (H1 & _); cbv beta; rewrite H1; reflexivity]].
  all: try solve [apply retain_moved; [|exact F]; intros a b H; pose proof H as (H1 & _ & _ & _ & _ & _ & H6); cbv beta; first [rewrite (tag_moved a b H); reflexivity | rewrite H6; reflexivity | rewrite H1; reflexivity]].
  - apply compound_moved; [exact F|exact I].
  - apply texts_moved; [|exact F]. intros a b H. rewrite (tag_moved a b H). pose proof H as (H1 & _). rewrite H1. reflexivity.
  - match goal with |- context [mapping_tokens ?m ts] => pose proof (mapping_moved m ts ts' F) as X; destruct (mapping_tokens m ts) as [r|], (mapping_tokens m ts') as [r'|] end;
      cbn in X; try contradiction; [exact X|exact I].
Qed.

Lemma filters_moved e tds ts ts' : moved_all ts ts' ->
  agree moved_all (foldM (fun ts f => f ts) (map (run_token_filter e) tds) ts) (foldM (fun ts f => f ts) (map (run_token_filter e) tds) ts').
Proof. intros F. apply agree_foldM_eq; [|exact F]. intros s s' f If Hs. apply in_map_iff in If. destruct If as (d & <- & _). apply filter_moved, Hs. Qed.
End Moved.

(** ** By a function *)

Lemma moved_by_all g ts ts' : moved_all (fun x y => y = g x) eq ts ts' <-> ts' = map (moved_by g) ts.
Proof.
  split.
  - intros F. induction F as [|a b ts ts' (H1 & H2 & H3 & H4 & H5 & H6 & H7) F IH]; [reflexivity|]. cbn [map]. f_equal; [|exact IH].
    destruct a, b. unfold moved_by. cbn in *. congruence.
  - intros ->. induction ts as [|a ts IH]; constructor; [|exact IH]. repeat split.
Qed.

Theorem filter_moved_by e d g ts : same_up_to (map (moved_by g)) (run_token_filter e d ts) (run_token_filter e d (map (moved_by g) ts)).
Proof.
  pose proof (filter_moved (fun x y => y = g x) eq e d ts (map (moved_by g) ts) (proj2 (moved_by_all g ts _) eq_refl)) as A.
  destruct (run_token_filter e d ts) as [a|k|], (run_token_filter e d (map (moved_by g) ts)) as [b|k'|]; cbn in A; try contradiction; try subst; try constructor.
  apply moved_by_all in A. subst. constructor.
Qed.

(** ** Offset correction *)

Lemma normalize_paired form gs : forall result st start, paired st ->
  match fold_left (fun '(result, st, input_start) c =>
                 let replacement_text := form c in
                 let input_offset := (input_start + N.of_nat (blen c))%N in
                 (result ++ replacement_text, record_diff st input_offset (blen c) (blen replacement_text), input_offset)) gs (result, st, start) with
  | (result', st', _) => paired st'
  end.
Proof. induction gs as [|g gs IH]; intros result st start P; cbn [fold_left]; [exact P|]. apply IH, record_paired, P. Qed.

Lemma run_paired e d text out offs diffs : run_char_filter e d text = Some (Ok (out, offs, diffs)) -> List.length offs = List.length diffs.
Proof.
  destruct d as [c|f|rx r|k]; cbn [run_char_filter]; intros H.
  - unfold iteration_apply in H. injection H as H. repeat (apply bind_ok in H; destruct H as (? & _ & H)). injection H as _ <- <-. reflexivity.
  - eapply mapping_paired; [|exact H]. reflexivity.
  - injection H as H. unfold regex_apply in H. apply bind_ok in H. destruct H as (o & _ & H). injection H as _ <- <-.
    apply (spans_paired _ _ ([], [])). reflexivity.
  - injection H as H. unfold normalize_apply in H. pose proof (normalize_paired (e_form e k) (e_graphemes e text) [] ([], []) 0%N eq_refl) as NV.
    destruct (fold_left _ _ _) as [[o st] i]. injection H as _ <- <-. exact NV.
Qed.

Lemma chain_paired e ds : forall text vecs out vecs', apply_char_filters (map (run_char_filter e) ds) text vecs = Some (Ok (out, vecs')) -> Forall vec_paired vecs -> Forall vec_paired vecs'.
Proof.
  induction ds as [|d ds IH]; intros text vecs out vecs' H P; cbn [map apply_char_filters] in H; [congruence|].
  destruct (run_char_filter e d text) as [[[[o offs] diffs]|k|]|] eqn:E; try discriminate. apply IH in H; [exact H|].
  destruct (is_nil offs); [exact P|]. constructor; [|exact P]. eapply run_paired. exact E.
Qed.

Definition corrected (vecs : list recorded) (x y : N) : Prop := foldM (fun o '(offsets, diffs, len) => correct_offset o offsets diffs len) vecs x = Ok y.

Lemma corrected_all vecs ts ts' : mapM (correct_token vecs) ts = Ok ts' <-> moved_all (corrected vecs) eq ts ts'.
Proof.
  split.
  - revert ts'. induction ts as [|a ts IH]; intros ts' M; cbn [mapM] in M; [injection M as <-; constructor|].
    apply bind_ok in M. destruct M as (b & C & M). apply bind_ok in M. destruct M as (r & M & E). injection E as <-. constructor; [|apply IH, M].
    unfold correct_token in C. apply bind_ok in C. destruct C as (s & S1 & C). apply bind_ok in C. destruct C as (x & S2 & C). injection C as <-. repeat split; assumption.
  - intros F. induction F as [|a b ts ts' (H1 & H2 & H3 & H4 & H5 & H6 & H7) F IH]; cbn [mapM]; [reflexivity|].
    assert (C : correct_token vecs a = Ok b).
    { unfold correct_token. unfold corrected in H2, H3. rewrite H2, H3. cbn [bind]. destruct a, b. cbn in *. subst. reflexivity. }
    rewrite C. cbn [bind]. rewrite IH. reflexivity.
Qed.

Definition later (e : env) (more : list token_filter_def) (o : option (res (list ftoken))) : option (res (list ftoken)) :=
  match o with
  | Some r => Some (bind r (foldM (fun ts f => f ts) (map (run_token_filter e) more)))
  | None => None
  end.

Lemma foldM_app_ {A B} (f : B -> A -> res B) l1 l2 s : foldM f (l1 ++ l2) s = bind (foldM f l1 s) (foldM f l2).
Proof. revert s. induction l1 as [|a l1 IH]; intros s; cbn [app foldM bind]; [reflexivity|]. destruct (f s a); cbn [bind]; [apply IH|reflexivity|reflexivity]. Qed.

Theorem analyze_later e cfs t tds more text :
  analyze (analyzer_of e (AnalyzerDef cfs t (tds ++ more))) text = later e more (analyze (analyzer_of e (AnalyzerDef cfs t tds)) text).
Proof.
  unfold analyze, analyzer_of. cbn [an_char_filters an_tokenizer ad_char_filters ad_tokenizer ad_token_filters].
  destruct (apply_char_filters _ text []) as [[[n vecs]|k|]|] eqn:E; try reflexivity.
  pose proof (chain_paired _ _ _ _ _ _ E ltac:(constructor)) as P. destruct (tokenize t n) as [[tmp|k|]|]; try reflexivity.
  unfold later. f_equal. unfold analyze_normalized. cbn [an_tokenizer an_token_filters].
  destruct (mapM (analyzed_token t) tmp) as [ts|k|]; try reflexivity. cbn [bind]. rewrite map_app, foldM_app_.
  destruct (foldM (fun ts f => f ts) (map (run_token_filter e) tds) ts) as [ts1|k|]; try reflexivity. cbn [bind].
  destruct (correct_tokens vecs ts1 P) as (out1 & C1). rewrite C1. cbn [bind]. apply corrected_all in C1. pose proof (filters_moved _ _ e more _ _ C1) as A.
  destruct (foldM (fun ts f => f ts) (map (run_token_filter e) more) ts1) as [ts2|k|], (foldM (fun ts f => f ts) (map (run_token_filter e) more) out1) as [ts2'|k'|]; cbn in A |- *; try contradiction; try congruence.
  apply corrected_all, A.
Qed.

Corollary one_later e cfs t tds d text ts : analyze (analyzer_of e (AnalyzerDef cfs t tds)) text = Some (Ok ts) ->
  analyze (analyzer_of e (AnalyzerDef cfs t (tds ++ [d]))) text = Some (run_token_filter e d ts).
Proof. intros A. rewrite analyze_later, A. cbn. destruct (run_token_filter e d ts); reflexivity. Qed.
Corollary failed_later e cfs t tds more text : (forall ts, analyze (analyzer_of e (AnalyzerDef cfs t tds)) text <> Some (Ok ts)) ->
  analyze (analyzer_of e (AnalyzerDef cfs t (tds ++ more))) text = analyze (analyzer_of e (AnalyzerDef cfs t tds)) text.
Proof. intros N. rewrite analyze_later. destruct (analyze _ text) as [[ts|k|]|]; try reflexivity. destruct (N ts). reflexivity. Qed.
Corollary answered_later e cfs t tds more text : (exists ts, analyze (analyzer_of e (AnalyzerDef cfs t (tds ++ more))) text = Some (Ok ts)) ->
  exists ts, analyze (analyzer_of e (AnalyzerDef cfs t tds)) text = Some (Ok ts).
Proof. rewrite analyze_later. intros (ts & A). destruct (analyze _ text) as [[r|k|]|]; try discriminate. eauto. Qed.
