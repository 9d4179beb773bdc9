(** Configurations that cannot fail: no filter of the chain panics, whatever the text. *)
From Coq Require Import String.
From Coq Require Import List NArith ZArith Bool Lia ZifyBool ZifyNat ZifyN.
From Verif Require Import MBase MUtf8 MText MCodec MDict MCharDef MUnk MBincode MLattice MTokenizer MDetails MBuild MCharFilter MAnalyzer MTokenFilter MConfig MBuilders
  STok SBuild SMatrix SCharDef SUnk SData SCharFilter SAnalyzer STokenFilter SConfig SNumber SRun SBuilders SSafe
  LBase LUtf8 LDict LOffset LMapping LCharFilter LKana LAnalyzer LFilterProps LTokenFilter LTokenProps LConfig LConfigMore LRun LTok LProv LCharDef LBuild LSysDict LUserDict LBuilders LWhole.
Import ListNotations.
Local Open Scope list_scope.

(** * Token filters *)

Lemma valid_app a b : valid_str (a ++ b) <-> valid_str a /\ valid_str b.
Proof. unfold valid_str. apply Forall_app. Qed.
Lemma valid_flat {A} (f : A -> str) l : Forall (fun x => valid_str (f x)) l -> valid_str (flat_map f l).
Proof. induction 1; cbn [flat_map]; [constructor|]. apply valid_app. auto. Qed.

Lemma replaced_valid m text out segs : replaced m text out segs -> Forall (fun kv => valid_str (snd kv)) m -> valid_str text -> valid_str out.
Proof.
  intros R F. rewrite Forall_forall in F. induction R as [|k v rest out segs I NE MX R IH|c rest out segs NO R IH]; intros V.
  - constructor.
  - apply valid_app in V. apply valid_app. split; [apply (F _ I)|apply IH, V].
  - inversion V; subst. constructor; auto. apply IH. assumption.
Qed.

Lemma join_valid ps : valid_str (join [44%N] ps) -> Forall valid_str ps.
Proof.
  induction ps as [|p [|q ps] IH]; intros V; [constructor|constructor; [exact V|constructor]|].
  change (join [44%N] (p :: q :: ps)) with (p ++ [44%N] ++ join [44%N] (q :: ps)) in V. apply valid_app in V. destruct V as [V1 V2].
  apply valid_app in V2. destruct V2 as [_ V2]. constructor; [exact V1|]. apply IH. exact V2.
Qed.
Lemma star_valid : valid_str [42%N].
Proof. constructor; [|constructor]. apply valid_charb_iff. reflexivity. Qed.
Lemma stars_valid n : Forall valid_str (repeat [42%N] n).
Proof. induction n; cbn [repeat]; constructor; [exact star_valid|assumption]. Qed.

Lemma new_details_good n k new_tag parts : match new_tag, parts with Some a, Some ps => comma_parts ps a | None, None => True | _, _ => False end ->
  (forall t, new_tag = Some t -> valid_str t) -> n <= match k with UniDic => 17 | _ => 9 end -> good_details n (new_details k parts).
Proof.
  intros P V L. unfold new_details. set (x := match k with UniDic => 13 | _ => 5 end).
  assert (LX : n <= 4 + x) by (subst x; destruct k; lia).
  destruct parts as [ps|].
  - destruct new_tag as [t|]; [|destruct P]. destruct P as (NE & _ & E). specialize (V t eq_refl). subst t. apply join_valid in V.
    split; [rewrite Forall_app; split; [unfold pad4; rewrite Forall_app; split; [exact V|apply stars_valid]|apply stars_valid]|].
    split; [destruct ps; [congruence|discriminate]|]. right. rewrite app_length. unfold pad4. rewrite app_length, !repeat_length. lia.
  - split; [|split; [discriminate|right; cbn [app List.length]; rewrite !app_length, !repeat_length; cbn [repeat List.length]; lia]].
    rewrite Forall_app. split; [|apply stars_valid]. constructor; [|apply stars_valid]. repeat (constructor; [apply valid_charb_iff; reflexivity|]). constructor.
Qed.

Lemma compounded_good P n details ts out : compounded P details ts out -> good_details n details -> Forall (good_token n) ts -> Forall (good_token n) out.
Proof.
  intros C G. induction C as [|t r out N C IH|run t r out FP CO NX C IH]; intros F; [constructor|inversion F; subst; constructor; auto|].
  apply Forall_app in F. destruct F as [F1 F2]. constructor; [|auto]. destruct run as [|t1 [|t2 run]]; [contradiction|cbn in CO; subst; inversion F1; assumption|].
  destruct CO as (E1 & _ & _ & _ & _ & _ & E2). split; [|rewrite E2; exact G]. rewrite E1. apply valid_flat. revert F1. apply Forall_impl. intros a [H _]. exact H.
Qed.

Lemma only_text_good n ts out : Forall2 (fun tk tk' => only_text tk tk' /\ (good_token n tk -> valid_str (ft_text tk'))) ts out ->
  Forall (good_token n) ts -> Forall (good_token n) out.
Proof.
  induction 1 as [|tk tk' ts out [O V] F IH]; intros G; inversion G as [|? ? G1 G2]; subst; constructor; auto.
  split; [auto|]. rewrite O. cbn [ft_details]. apply G1.
Qed.

Lemma good_detail_text n place tk tk' : (forall i, place = Some i -> i < n) -> detail_result place tk tk' -> good_token n tk -> valid_str (ft_text tk').
Proof.
  intros L [_ D] [V (FV & NE & H)]. destruct place as [i|]; [|rewrite D; exact V]. destruct D as [D1 D2].
  destruct (list_eq_dec N.eq_dec (hd [] (ft_details tk)) (lit "UNK")) as [E|E]; [rewrite D1 by exact E; exact V|].
  specialize (D2 E). apply nth_error_In in D2. rewrite Forall_forall in FV. apply FV. exact D2.
Qed.

Lemma good_cover n place tk : (forall i, place = Some i -> i < n) -> good_token n tk -> details_cover place tk.
Proof.
  intros L [_ (_ & NE & H)]. split; [exact NE|]. destruct H as [H|H]; [left; exact H|]. right. intros i E. specialize (L i E). lia.
Qed.

Lemma harmless_suits e n name fs ts : harmless n name fs -> Forall (good_token n) ts -> tokens_suit e name fs ts.
Proof.
  intros [H1 H2 H3 H4 H5 H6 H7 H8] G. constructor.
  - revert G. apply Forall_impl. intros tk [V (_ & NE & _)]. auto.
  - intros E. contradiction.
  - intros E v k A B. revert G. apply Forall_impl. intros tk. apply good_cover. intros i P. eapply H3; eassumption.
  - intros E v k A B. revert G. apply Forall_impl. intros tk. apply good_cover. intros i P. eapply H4; eassumption.
  - intros E. revert G. apply Forall_impl. intros tk. apply good_cover. intros i P. injection P as <-. apply H5, E.
  - intros E. contradiction.
  - intros E v m A B. apply (H8 E v m A B).
Qed.

Lemma harmless_effect e n name fs ts out : env_sound e -> harmless n name fs -> token_filter_effect e name fs ts out -> Forall (good_token n) ts -> Forall (good_token n) out.
Proof.
  intros ES [H1 H2 H3 H4 H5 H6 H7 H8] X G. destruct X as [fs v k ts out A B F|fs v k ts out A B F|fs v k w tags new_tag parts ts out A B A' B' MT P C|fs v k ts out A B F
    |fs m ts out A F|fs v tags ts out A B S|fs v tags ts out A B S|fs v tags ts out A B F|fs ts out A F|fs v ws ts out A B S|fs v ws ts out A B S|fs v tags ts out A B S|fs v tags ts out A B S
    |fs ts out F|fs a b ts out A B S|fs ts out F|fs ts out F|fs v m ts out A B F].
  - eapply only_text_good; [|exact G]. eapply Forall2_weaken; [|exact F]. intros tk tk' D. split; [apply D|]. intros GT. eapply good_detail_text; [|exact D|exact GT]. intros i P. eapply (H3 eq_refl); eassumption.
  - eapply only_text_good; [|exact G]. eapply Forall2_weaken; [|exact F]. intros tk tk' D. split; [apply D|]. intros GT. eapply good_detail_text; [|exact D|exact GT]. intros i P. eapply (H4 eq_refl); eassumption.
  - eapply compounded_good; [exact C| |exact G]. eapply new_details_good; [exact P| |eapply (H6 eq_refl); eassumption].
    intros t ->. destruct MT as (v' & HV & ->). apply (H7 eq_refl). exact HV.
  - eapply only_text_good; [|exact G]. eapply Forall2_weaken; [|exact F]. intros tk tk' [O E]. split; [exact O|]. intros [V _]. rewrite E. apply es_kana; assumption.
  - contradiction.
  - eapply selected_Forall; eassumption.
  - eapply selected_Forall; eassumption.
  - contradiction.
  - contradiction.
  - eapply selected_Forall; eassumption.
  - eapply selected_Forall; eassumption.
  - eapply selected_Forall; eassumption.
  - eapply selected_Forall; eassumption.
  - eapply only_text_good; [|exact G]. eapply Forall2_weaken; [|exact F]. intros tk tk' D. split; [apply D|]. intros GT. eapply good_detail_text; [|exact D|exact GT]. intros i P. injection P as <-. apply (H5 eq_refl).
  - eapply selected_Forall; eassumption.
  - eapply only_text_good; [|exact G]. eapply Forall2_weaken; [|exact F]. intros tk tk' [O E]. split; [exact O|]. intros [V _]. rewrite E. apply es_lower; assumption.
  - eapply only_text_good; [|exact G]. eapply Forall2_weaken; [|exact F]. intros tk tk' [O E]. split; [exact O|]. intros [V _]. rewrite E. apply es_upper; assumption.
  - eapply only_text_good; [|exact G]. eapply Forall2_weaken; [|exact F]. intros tk tk' [O (segs & R)]. split; [exact O|]. intros [V _]. eapply replaced_valid; [exact R| |exact V]. apply (H8 eq_refl v m A B).
Qed.

Lemma harmless_chain e n cs ds : env_sound e -> Forall2 (fun '(name, fs) d => NoDup (map fst fs) /\ load_token_filter name (VObj fs) = Ok d) cs ds ->
  Forall (fun '(name, fs) => harmless n name fs) cs -> forall ts, Forall (good_token n) ts ->
  exists out, foldM (fun ts f => f ts) (map (run_token_filter e) ds) ts = Ok out /\ token_chain e cs ts out /\ Forall (good_token n) out.
Proof.
  intros ES F H ts G. revert H ts G. induction F as [|[name fs] d cs ds [ND L] F IH]; intros H ts G; cbn [map foldM].
  - exists ts. repeat split; [constructor|exact G].
  - inversion H as [|? ? H1 H2]; subst. destruct (token_filter_runs e name fs d ts ND L (harmless_suits e n name fs ts H1 G)) as (mid & R & X).
    rewrite R. cbn [bind]. destruct (IH H2 mid (harmless_effect e n name fs ts mid ES H1 X G)) as (out & FO & TC & GO).
    exists out. split; [exact FO|]. split; [econstructor; eassumption|exact GO].
Qed.

(** * Character filters *)

Definition paired (st : offset_diffs) : Prop := List.length (fst st) = List.length (snd st).
Lemma add_paired st o d : paired st -> paired (add_offset_diff st o d).
Proof.
  destruct st as [os ds]. unfold paired, add_offset_diff. cbn [fst snd]. intros P. unfold last_error. destruct (rev os) as [|x r] eqn:E; [cbn [fst snd]; rewrite !app_length, P; reflexivity|].
  destruct (x =? o)%N; [|cbn [fst snd]; rewrite !app_length, P; reflexivity]. cbn [fst snd]. unfold pop.
  assert (NE : ds <> []) by (intros ->; destruct os; [discriminate E|discriminate P]). rewrite P, app_length, (app_removelast_last 0%Z NE) at 1. rewrite app_length. reflexivity.
Qed.
Lemma record_paired st i a b : paired st -> paired (record_diff st i a b).
Proof.
  intros P. unfold record_diff. destruct (_ =? 0)%Z; [exact P|]. destruct (0 <? _)%Z; [apply add_paired, P|].
  generalize (seq 0 (Z.abs_nat (Z.of_nat a - Z.of_nat b))). revert P. generalize (wrap_u 64 (Z.of_N i + - match last_error (snd st) with Some d => d | None => 0%Z end)) as o.
  generalize (match last_error (snd st) with Some d => d | None => 0%Z end) as d. intros d o P l. revert st P. induction l as [|x l IH]; intros st P; cbn [fold_left]; [exact P|]. apply IH, add_paired, P.
Qed.

Lemma mapping_paired f suffix : forall fuel start result st out offs diffs, paired st ->
  mapping_loop fuel f suffix start result st = Some (Ok (out, offs, diffs)) -> List.length offs = List.length diffs.
Proof.
  intros fuel. revert suffix. induction fuel as [|fuel IH]; intros [|c r] start result st out offs diffs P; cbn [mapping_loop]; try discriminate;
    try (intros E; injection E as <- <- <-; exact P).
  destruct (last_error _) as [[v n]|]; [|apply IH, P]. destruct (str_to (c :: r) n); try discriminate. destruct (str_from (c :: r) n); try discriminate.
  destruct (map_index _ _); try discriminate. apply IH, record_paired, P.
Qed.

Lemma replace_ok rx r ps : forall pre tail, exists out, replace_from rx (pre ++ whole ps tail) r (blen pre) (match_spans (blen pre) ps) = Ok out /\
  (valid_str (whole ps tail) -> valid_str r -> (forall m, valid_str (rx_expand rx (pre ++ whole ps tail) m r)) -> valid_str out).
Proof.
  induction ps as [|[gap m] ps IH]; intros pre tail; cbn [match_spans replace_from].
  - exists tail. unfold whole. cbn [flat_map app]. split; [apply str_from_app|auto].
  - unfold whole. cbn [flat_map]. rewrite <- !app_assoc.
    assert (R1 : str_range (pre ++ gap ++ m ++ flat_map (fun '(gap, m) => gap ++ m) ps ++ tail) (blen pre) (blen pre + blen gap) = Ok gap) by apply str_range_app.
    rewrite R1. cbn [bind]. destruct (IH (pre ++ gap ++ m) tail) as (out & E & V). unfold whole in E, V. rewrite <- !app_assoc in E. rewrite !blen_app, Nat.add_assoc in E. rewrite <- !app_assoc in V.
    rewrite E. cbn [bind]. eexists. split; [reflexivity|]. intros V1 V2 V3. apply valid_app in V1. destruct V1 as (G & V1). apply valid_app in V1. destruct V1 as (M & V1). apply valid_app. split; [exact G|]. apply valid_app. split; [destruct (has_dollar r); auto|]. apply V; auto.
Qed.

Lemma spans_paired r l : forall st, paired st -> paired (fold_left (fun st '(s, e) => record_diff st (N.of_nat e) (e - s) (blen r)) l st).
Proof. induction l as [|[s e] l IH]; intros st P; cbn [fold_left]; [exact P|]. apply IH, record_paired, P. Qed.

Lemma normalize_valid form gs : (forall g, In g gs -> valid_str (form g)) -> forall result st start, valid_str result -> paired st ->
  match fold_left (fun '(result, st, input_start) c =>
                 let replacement_text := form c in
                 let input_offset := (input_start + N.of_nat (blen c))%N in
                 (result ++ replacement_text, record_diff st input_offset (blen c) (blen replacement_text), input_offset)) gs (result, st, start) with
  | (result', st', _) => valid_str result' /\ paired st'
  end.
Proof.
  induction gs as [|g gs IH]; intros F result st start V P; cbn [fold_left]; [auto|]. apply IH.
  - intros x I. apply F. right. exact I.
  - apply valid_app. split; [exact V|]. apply F. left. reflexivity.
  - apply record_paired, P.
Qed.

Lemma marks_valid kanji kana text out : marks_expanded kanji kana text out -> valid_str text -> valid_str out.
Proof.
  intros [L M] V. unfold valid_str in *. rewrite Forall_forall in *. intros c I. apply In_nth_error in I. destruct I as (p & E).
  assert (P : p < List.length text) by (rewrite <- L; apply nth_error_Some; congruence).
  destruct (nth_error text p) as [d|] eqn:D; [|apply nth_error_None in D; lia]. specialize (M p d D). destruct (mark_action kanji kana d) as [f|] eqn:A.
  - destruct M as (s & n & c' & _ & _ & C & O). rewrite E in O. injection O as ->. apply nth_error_In in C. specialize (V c' C). apply valid_charb_iff in V. apply valid_charb_iff.
    destruct (voicing_laws voiced_hiragana _ (or_introl (conj eq_refl eq_refl)) c') as (_ & _ & _ & _ & _ & _ & A1).
    destruct (voicing_laws voiced_katakana _ (or_intror (conj eq_refl eq_refl)) c') as (_ & _ & _ & _ & _ & _ & B1). specialize (A1 V). specialize (B1 V).
    unfold mark_action in A. repeat match type of A with (if ?b then _ else _) = _ => destruct b; try discriminate end; injection A as <-; tauto.
  - rewrite E in M. injection M as ->. apply V. eapply nth_error_In. exact D.
Qed.

Lemma char_filter_total e name fs d text : env_sound e -> NoDup (map fst fs) -> load_char_filter e name (VObj fs) = Ok d -> harmless_char name fs -> valid_str text ->
  exists out offs diffs, run_char_filter e d text = Some (Ok (out, offs, diffs)) /\ valid_str out /\ List.length offs = List.length diffs.
Proof.
  intros ES ND L [HM HR] V. apply load_char_filter_iff in L; [|exact ND].
  destruct L as [fs a b H H'|fs v m f H M NF|fs p r rx H H' E|fs v k H M]; cbn [run_char_filter].
  - destruct (iteration_spec (IterationConfig a b) text) as (out & R & X). exists out, [], []. rewrite R. split; [reflexivity|]. split; [eapply marks_valid; eassumption|reflexivity].
  - destruct (HM eq_refl v m H M) as [K VM]. destruct (mapping_filter_spec m text K V) as (f' & NF' & _ & out & offs & diffs & segs & R & X). assert (f' = f) by congruence. subst f'.
    exists out, offs, diffs. split; [exact R|]. split; [eapply replaced_valid; eassumption|]. eapply mapping_paired; [|exact R]. reflexivity.
  - destruct (es_matches e ES p rx text E V) as (ps & tail & -> & FI). unfold regex_apply, replace_all. rewrite FI. destruct (replace_ok rx r ps [] tail) as (out & RO & VO).
    cbn [app blen] in RO, VO. rewrite RO. cbn [bind]. eexists _, _, _. split; [reflexivity|]. split; [apply VO; [exact V|apply (HR eq_refl), H'|intros m; eapply es_expand; try eassumption; apply (HR eq_refl), H']|].
    apply (spans_paired r _ ([], [])). reflexivity.
  - unfold normalize_apply. pose proof (normalize_valid (e_form e k) (e_graphemes e text)) as NV.
    specialize (NV ltac:(intros g I; apply (es_form e ES); pose proof (es_graphemes e ES text V) as G; rewrite Forall_forall in G; apply G, I) [] ([], []) 0%N ltac:(constructor) eq_refl).
    destruct (fold_left _ _ _) as [[out st] i]. destruct NV as [N1 N2]. exists out, (fst st), (snd st). split; [reflexivity|]. split; [exact N1|exact N2].
Qed.

Definition vec_paired (v : recorded) : Prop := let '(offs, diffs, _) := v in List.length offs = List.length diffs.
Lemma char_chain_total e cs ds : env_sound e -> Forall2 (fun '(name, fs) d => NoDup (map fst fs) /\ load_char_filter e name (VObj fs) = Ok d) cs ds ->
  Forall (fun '(name, fs) => harmless_char name fs) cs -> forall text vecs, valid_str text -> Forall vec_paired vecs ->
  exists out vecs', apply_char_filters (map (run_char_filter e) ds) text vecs = Some (Ok (out, vecs')) /\ valid_str out /\ Forall vec_paired vecs'.
Proof.
  intros ES F H. induction F as [|[name fs] d cs ds [ND L] F IH]; intros text vecs V P; cbn [map apply_char_filters].
  - exists text, vecs. auto.
  - inversion H as [|? ? H1 H2]; subst. destruct (char_filter_total e name fs d text ES ND L H1 V) as (out & offs & diffs & -> & VO & PL).
    apply (IH H2); [exact VO|]. destruct (is_nil offs); [exact P|]. constructor; [exact PL|exact P].
Qed.

(** * Offsets *)

Lemma search_from_bound l x : forall i, match binary_search_from i l x with Found j => i <= j < i + List.length l | NotFound j => i <= j <= i + List.length l end.
Proof.
  induction l as [|y l IH]; intros i; cbn [binary_search_from List.length]; [lia|]. destruct (y =? x)%N; [lia|]. destruct (x <? y)%N; [lia|].
  specialize (IH (S i)). destruct (binary_search_from (S i) l x); lia.
Qed.
Lemma idx_some {A} (l : list A) i : i < List.length l -> exists x, idx l i = Ok x.
Proof. intros L. unfold idx. destruct (nth_error l i) eqn:E; [eauto|]. apply nth_error_None in E. lia. Qed.
Lemma correct_total offs diffs len o : List.length offs = List.length diffs -> exists o', correct_offset o offs diffs len = Ok o'.
Proof.
  intros P. unfold correct_offset, correct_offset_with. destruct offs as [|a offs]; [eexists; reflexivity|]. cbn [is_nil].
  pose proof (search_from_bound (a :: offs) o 0) as B. fold (binary_search (a :: offs) o) in B.
  destruct (binary_search (a :: offs) o) as [j|[|j]].
  - destruct (idx_some diffs j) as (d & ->); [cbn [Nat.add] in B; lia|]. cbn [bind]. eauto.
  - destruct (len <=? 0)%N eqn:E; [|eauto]. assert (len = 0%N) by lia. subst len. destruct (idx_some diffs 0) as (d & H); [cbn [List.length] in P; lia|]. change (N.to_nat 0) with 0. rewrite H. cbn [bind]. eauto.
  - destruct (idx_some diffs j) as (d & ->); [cbn [Nat.add] in B; lia|]. cbn [bind]. eauto.
Qed.
Lemma correct_all vecs : Forall vec_paired vecs -> forall o, exists o', foldM (fun o '(offsets, diffs, len) => correct_offset o offsets diffs len) vecs o = Ok o'.
Proof.
  induction 1 as [|[[offs diffs] len] vecs P F IH]; intros o; cbn [foldM]; [eauto|]. destruct (correct_total offs diffs len o P) as (o' & ->). cbn [bind]. apply IH.
Qed.
Lemma correct_tokens vecs ts : Forall vec_paired vecs -> exists out, mapM (correct_token vecs) ts = Ok out.
Proof.
  intros P. induction ts as [|tk ts (out & IH)]; cbn [mapM]; [eauto|]. unfold correct_token at 1. destruct (correct_all vecs P (ft_start tk)) as (s & ->). cbn [bind].
  destruct (correct_all vecs P (ft_end tk)) as (x & ->). cbn [bind]. rewrite IH. cbn [bind]. eauto.
Qed.

(** * The analyzer *)

Lemma details_good n t ts : Forall (fun tok => valid_str (tk_text tok) /\
      exists ds, get_details (t_dictionary t) (t_user t) (tk_word tok) None = Ok (Some ds, Some ds) /\ good_details n ds) ts ->
  exists tokens, mapM (analyzed_token t) ts = Ok tokens /\ Forall (good_token n) tokens.
Proof.
  induction 1 as [|tok ts (V & ds & D & G) F (tokens & M & IH)]; cbn [mapM]; [exists []; auto|]. unfold analyzed_token at 1. rewrite D. cbn [bind ok_or]. rewrite M. cbn [bind].
  eexists. split; [reflexivity|]. constructor; [split; assumption|exact IH].
Qed.

Theorem analyzer_total e n t cs cds tfs tds : env_sound e -> serves n t ->
  Forall2 (fun '(name, fs) d => NoDup (map fst fs) /\ load_char_filter e name (VObj fs) = Ok d) cs cds ->
  Forall2 (fun '(name, fs) d => NoDup (map fst fs) /\ load_token_filter name (VObj fs) = Ok d) tfs tds ->
  Forall (fun '(name, fs) => harmless_char name fs) cs -> Forall (fun '(name, fs) => harmless n name fs) tfs ->
  forall text, valid_str text -> exists tokens, analyze (analyzer_of e (AnalyzerDef cds t tds)) text = Some (Ok tokens) /\ Forall (good_token n) tokens.
Proof.
  intros ES S FC FT HC HT text V. destruct (char_chain_total e cs cds ES FC HC text [] V ltac:(constructor)) as (out & vecs & AC & VO & P).
  destruct (S out VO) as (ts & T & D). destruct (details_good n t ts D) as (toks & M & G). destruct (harmless_chain e n tfs tds ES FT HT toks G) as (toks' & FO & _ & G').
  unfold analyze, analyzer_of. cbn [an_char_filters an_tokenizer an_token_filters ad_char_filters ad_tokenizer ad_token_filters]. rewrite AC, T.
  unfold analyze_normalized. cbn [an_tokenizer an_token_filters]. rewrite M. cbn [bind]. rewrite FO. cbn [bind].
  destruct (correct_tokens vecs toks' P) as (res & R). rewrite R. exists res. split; [reflexivity|].
  clear - R G'. revert res R. induction G' as [|tk ts G F IH]; intros res R; cbn [mapM] in R; [injection R as <-; constructor|].
  apply bind_ok in R. destruct R as (tk' & C & R). apply bind_ok in R. destruct R as (rest & R & E). injection E as <-. constructor; [|apply IH, R].
  unfold correct_token in C. apply bind_ok in C. destruct C as (s & _ & C). apply bind_ok in C. destruct C as (x & _ & C). injection C as <-. exact G.
Qed.

(** * Built dictionaries *)

Lemma tiled_valid text ts tok : valid_str text -> tiles text ts -> In tok ts -> valid_str (tk_text tok).
Proof.
  intros V TI I1. assert (X : exists pre rest, text = pre ++ (tk_text tok) ++ rest).
  { clear - TI I1. unfold tiles in TI. revert TI. generalize 0%nat at 1. generalize 0%nat. revert text. induction ts as [|t ts IH]; [destruct I1|].
    intros text p o (_ & _ & _ & _ & _ & rest & -> & TI). destruct I1 as [->|I1]; [exists [], rest; reflexivity|].
    destruct (IH I1 _ _ _ TI) as (pre & rest' & ->). exists (tk_text t ++ pre), rest'. rewrite <- app_assoc. reflexivity. }
  destruct X as (pre & rest & ->). apply valid_app in V. destruct V as [_ V]. apply valid_app in V. apply V.
Qed.

Lemma user_row_long k r ds : user_row_details (kind_user_options k) r = Some ds -> kind_details k <= List.length ds.
Proof.
  unfold user_row_details. cbn [kind_user_options uo_simple_fields uo_handler uo_detailed_fields]. destruct (Nat.eqb (List.length r) 3).
  - intros H. destruct (simple_details k r) as [x| |] eqn:E; try discriminate H. injection H as <-. unfold simple_details, field in E. destruct (idx r 1) as [f1| |]; try discriminate. cbn [bind] in E.
    destruct k; repeat match type of E with context [idx r ?i] => destruct (idx r i) as [?| |]; try discriminate; cbn [bind] in E end; injection E as <-; cbn; lia.
  - destruct (Nat.leb_spec (detailed_fields k) (List.length r)); [|discriminate]. intros E. assert (X : ds = skipn 4 r) by congruence. rewrite X, skipn_length. destruct k; cbn in *; lia.
Qed.

Lemma comes_good n k S C urows text ds : 0 < n <= kind_details k -> sys_room (source_options k) (s_rows S) -> Forall (fun r => 4 + n <= List.length r) (s_rows S) ->
  user_room (kind_user_options k) urows -> comes_from k S C urows text ds -> good_details n ds.
Proof.
  intros P SR SL UR H. destruct H as [r ds I D|r I D|c rest u I D].
  - pose proof (user_row_long k r ds D) as L. pose proof (SBuild.ur_valid _ _ UR) as V. rewrite Forall_forall in V. split; [exact (V r I ds D)|]. split; [destruct ds; [cbn in L; lia|discriminate]|right; lia].
  - pose proof (sr_valid _ _ SR) as V. rewrite Forall_forall in V, SL. specialize (V r I). specialize (SL r I). unfold sys_row_details.
    assert (L : n <= List.length (map (unify (source_options k)) (skipn 4 r))) by (rewrite map_length, skipn_length; lia).
    split; [|split; [intros E; rewrite E in L; cbn in L; lia|right; exact L]]. apply Forall_map. apply Forall_forall. intros x J. apply valid_unify. rewrite Forall_forall in V. apply V.
    rewrite <- (firstn_skipn 4 r). apply in_or_app. right. exact J.
  - split; [|split; [discriminate|left; reflexivity]]. constructor; [|constructor]. repeat (constructor; [vm_compute; intuition congruence|]). constructor.
Qed.

Theorem built_serves n be e k dir S C urows ud : has_sources be k dir S -> readable k S C -> complete C ->
  0 < n <= kind_details k ->
  Forall (fun r => 4 + n <= List.length r) (s_rows S) ->
  yada_works be e (system_words k (s_rows S)) -> be_compress be = false ->
  build_user (kind_user_options k) urows = Ok ud -> user_room (kind_user_options k) urows -> user_ids_fit k urows C ->
  exists files, build_dictionary be k dir = Ok files /\
    forall out, files_at e out files -> exists d, load_dictionary e out = Ok d /\ forall m, serves n (Tokenizer d (Some ud) m).
Proof.
  intros HS R CO P LR Y NC B L IDS. destruct (tokens_come_from be e k dir S C urows ud HS R CO Y NC B L IDS) as (files & BD & LO). exists files. split; [exact BD|].
  intros out FA. destruct (LO out FA) as (d & LD & T). exists d. split; [exact LD|]. intros m text V. destruct (T m text V) as (ts & TS & TI & CF). exists ts. split; [exact TS|].
  apply Forall_forall. intros tok I. split; [eapply tiled_valid; eassumption|]. destruct (CF tok I) as (ds & D & X). exists ds. split; [exact D|].
  eapply comes_good; try eassumption. apply (rd_rows _ _ _ R).
Qed.

Lemma token_comes_from_system k S C d A m : says k S C d A -> represents (Tokenizer d None m) A ->
  forall text ts tok, valid_str text -> tokenize (Tokenizer d None m) text = Some (Ok ts) -> In tok ts ->
  exists ds, get_details d None (tk_word tok) None = Ok (Some ds, Some ds) /\
    (ds = UNK \/ exists r, In r (s_rows S) /\ sys_surface (source_options k) r = tk_text tok /\ ds = sys_row_details (source_options k) r).
Proof.
  intros SY R text ts tok V T I1.
  assert (MK : marked A).
  { constructor.
    - intros s w I2. destruct (found_of_in _ _ _ _ (sy_words _ _ _ _ _ SY s) I2) as (r & _ & (_ & X & Y & _)). auto.
    - rewrite (sy_user _ _ _ _ _ SY). intros s w I2. destruct I2.
    - intros id w I2. destruct (nth_error (flat_map defines (c_char C)) id) as [[name x]|] eqn:E.
      + destruct (sy_definitions _ _ _ _ _ SY id name x E) as (_ & _ & G). destruct (Forall2_in_r _ _ _ _ G I2) as (l & _ & (_ & _ & _ & ->)). reflexivity.
      + rewrite (sy_undefined _ _ _ _ _ SY id E) in I2. destruct I2. }
  destruct (token_source _ _ _ _ _ R MK V T I1) as (H1 & H2 & H3). unfold get_details. destruct (is_unknown (tk_word tok)) eqn:U.
  - exists UNK. split; [reflexivity|left; reflexivity].
  - destruct (is_system (tk_word tok)) eqn:SYS.
    + destruct (H2 eq_refl SYS) as (e & IE & W). destruct (found_of_in _ _ _ _ (sy_words _ _ _ _ _ SY _) IE) as (r & I2 & (N & _ & _ & D)). rewrite W, D. cbn [bind].
      eexists. split; [reflexivity|]. right. exists r. unfold sys_rows_for in I2. apply filter_In in I2. destruct I2 as [I2 EQ]. rewrite N in EQ. apply str_eqb_true in EQ. auto.
    + destruct (H3 eq_refl SYS) as (e & IE & W). rewrite (sy_user _ _ _ _ _ SY) in IE. destruct IE.
Qed.

Theorem built_serves_alone n be e k dir S C : has_sources be k dir S -> readable k S C -> complete C -> 0 < n ->
  Forall (fun r => 4 + n <= List.length r) (s_rows S) ->
  yada_works be e (system_words k (s_rows S)) -> be_compress be = false ->
  exists files, build_dictionary be k dir = Ok files /\
    forall out, files_at e out files -> exists d, load_dictionary e out = Ok d /\ forall m, serves n (Tokenizer d None m).
Proof.
  intros HS R CO P LR Y NC. destruct (built_dictionary be e k dir S C HS R Y NC) as (files & BD & LO). exists files. split; [exact BD|].
  intros out FA. destruct (LO out FA) as (d & A & LD & SY & RP). exists d. split; [exact LD|]. intros m text V.
  destruct (tokenize_tiles _ _ (RP m) text V (says_covered _ _ _ _ _ _ SY V CO)) as (ts & TS & TI). exists ts. split; [exact TS|].
  apply Forall_forall. intros tok I. split; [eapply tiled_valid; eassumption|].
  destruct (token_comes_from_system k S C d A m SY (RP m) text ts tok V TS I) as (ds & D & X). exists ds. split; [exact D|].
  pose proof (rd_rows _ _ _ R) as SR. destruct X as [->|(r & IR & _ & ->)].
  - split; [|split; [discriminate|left; reflexivity]]. constructor; [|constructor]. repeat (constructor; [vm_compute; intuition congruence|]). constructor.
  - pose proof (sr_valid _ _ SR) as VV. rewrite Forall_forall in VV, LR. specialize (VV r IR). specialize (LR r IR). unfold sys_row_details.
    assert (L : n <= List.length (map (unify (source_options k)) (skipn 4 r))) by (rewrite map_length, skipn_length; lia).
    split; [|split; [intros E; rewrite E in L; cbn in L; lia|right; exact L]]. apply Forall_map. apply Forall_forall. intros x J. apply valid_unify. rewrite Forall_forall in VV. apply VV.
    rewrite <- (firstn_skipn 4 r). apply in_or_app. right. exact J.
Qed.
