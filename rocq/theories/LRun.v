(** The loaded filters do what their names and arguments say. *)
From Coq Require Import String.
From Coq Require Import List NArith ZArith Bool Lia.
From Verif Require Import MBase MUtf8 MText MBuild MCodec MDict MCharDef MUnk MLattice MTokenizer MCharFilter MAnalyzer STok LTok LSeg MTokenFilter MConfig SCharFilter SAnalyzer STokenFilter SNumber SConfig SRun
  XSample XConfig LConfig LConfigMore LTokenFilter LTokenProps LNumeral LNumber LMapping LCharFilter LFilterProps LKana LAnalyzer.
Import ListNotations.
Local Open Scope list_scope.

Lemma formatted_short tags ts : Forall2 formatted_as tags ts -> Forall short_tag tags.
Proof. induction 1 as [|tag t tags ts (ps & C & L & _) F IH]; constructor; [exists ps; auto | exact IH]. Qed.

Lemma formatted_format tags ts : Forall2 formatted_as tags ts -> format_tags tags = Ok ts.
Proof. apply format_tags_iff. Qed.

Lemma Forall_and_l {A} (P Q : A -> Prop) l : Forall (fun x => P x /\ Q x) l -> Forall P l.
Proof. apply Forall_impl. intros a [H _]. exact H. Qed.
Lemma Forall_and_r {A} (P Q : A -> Prop) l : Forall (fun x => P x /\ Q x) l -> Forall Q l.
Proof. apply Forall_impl. intros a [_ H]. exact H. Qed.

Lemma selected_iff {A} (P Q : A -> Prop) l out : Forall (fun x => P x <-> Q x) l -> selected P l out -> selected Q l out.
Proof.
  intros F S. induction S as [|x l out H S IH|x l out H S IH]; inversion F as [|? ? X Y]; subst; constructor; auto; intuition.
Qed.

Lemma converted text text' : to_arabic_numerals text = Ok text' -> numbers_converted text text'.
Proof.
  intros E. split; [apply number_exact, E|]. split.
  - intros v H. destruct (numeral_value text v H) as (r & E' & D & V & _). assert (r = text') as -> by congruence. auto.
  - intros F. destruct (plain_text text F) as (r & E' & G). assert (r = text') as -> by congruence. exact G.
Qed.

Lemma numbers_run text : ~ crowded text -> exists r, to_arabic_numerals text = Ok r.
Proof. intros N. destruct (number_else text) as [E|R]; [|exact R]. destruct N. apply number_panics, E. Qed.
Lemma strings_fun fs key v v' l l' : NoDup (map fst fs) -> has fs key v -> has fs key v' -> means_strings v l -> means_strings v' l' -> l = l'.
Proof.
  intros ND H H' M M'. assert (v = v') as <-.
  { clear M M'. unfold has in *. induction fs as [|[k x] fs IH]; [destruct H|]. inversion ND as [|? ? NI ND']; subst. cbn [In map fst] in *.
    destruct H as [H|H], H' as [H'|H']; [congruence| | |auto]; exfalso; apply NI; apply in_map_iff; eexists; split; try eassumption; cbn; congruence. }
  unfold means_strings in *. subst v. injection M' as M'. clear - M'. revert l' M'. induction l as [|a l IH]; intros [|b l'] E; try discriminate; [reflexivity|].
  cbn in E. injection E as -> E. f_equal. auto.
Qed.

Lemma first_detail tags ts : Forall (fun tk => ft_details tk <> []) ts ->
  Forall (fun tk => (exists d r, ft_details tk = d :: r /\ In d tags) <-> In (hd [] (ft_details tk)) tags) ts.
Proof.
  apply Forall_impl. intros tk NE. destruct (ft_details tk) as [|d r]; [congruence|]. cbn [hd]. split.
  - intros (d' & r' & E & I). injection E as <- <-. exact I.
  - intros I. exists d, r. auto.
Qed.

Lemma token_filter_runs e name fs d ts : NoDup (map fst fs) -> load_token_filter name (VObj fs) = Ok d -> tokens_suit e name fs ts ->
  exists out, run_token_filter e d ts = Ok out /\ token_filter_effect e name fs ts out.
Proof.
  intros ND L S. apply load_token_filter_iff in L; [|exact ND]. destruct S as [S1 S2 S3 S4 S5 S6 S7].
  pose proof (Forall_and_l _ _ _ S1) as SD. pose proof (Forall_and_r _ _ _ S1) as SV.
  destruct L as [fs v k H M|fs v k H M|fs v k w tags fts new_tag nt H M H' M' F N NT|fs v k H M|fs v n H M P|fs H|fs v tags fts H M F|fs v tags fts H M F
    |fs v tags fts H M F|fs H|fs v ws H M|fs v ws H M|fs v tags H M|fs v tags H M|fs|fs a b H H'|fs|fs|fs v m f H M NF]; cbn [run_token_filter].
  - destruct (detail_filter_spec (base_place k) ts) as (out & R & F); [apply (S3 eq_refl v); assumption|].
    exists out. split; [exact R|]. eapply effect_base_form; eassumption.
  - destruct (detail_filter_spec (reading_place k) ts) as (out & R & F); [apply (S4 eq_refl v); assumption|].
    exists out. split; [exact R|]. eapply effect_reading_form; eassumption.
  - destruct (compound_spec k tags new_tag ts) as (cfg & out & C & R & X).
    { eapply formatted_short; eassumption. }
    { intros t ->. destruct nt; [|contradiction]. destruct NT as (ps & C & L & _). exists ps. auto. }
    { exact SD. }
    unfold compound_config_new in C. rewrite (formatted_format _ _ F) in C. cbn [bind] in C.
    assert (E : cfg = CompoundConfig k fts nt).
    { destruct new_tag as [a|]; destruct nt as [b|]; try contradiction; [|cbn [bind] in C; congruence].
      apply format_tag_iff in NT. rewrite NT in C. cbn [bind] in C. congruence. }
    subst cfg. exists out. split; [exact R|].
    eapply effect_compound with (parts := option_map (split_char 44%N) new_tag); try eassumption.
    destruct new_tag; [apply split_parts | exact I].
  - destruct (convert_spec (e_kana e k) ts) as (out & R & F). exists out. split; [exact R|]. eapply effect_kana; eassumption.
  - destruct (S2 eq_refl) as [B NB]. destruct (katakana_stem_spec (e_block e) (N.to_nat n) ts B NB) as (out & R & F).
    exists out. split; [exact R|]. eapply effect_stem; [left; exists v; eauto|exact F].
  - destruct (S2 eq_refl) as [B NB]. destruct (katakana_stem_spec (e_block e) (N.to_nat 3) ts B NB) as (out & R & F).
    exists out. split; [exact R|]. eapply effect_stem; [right; auto|exact F].
  - destruct (keep_tags_selected tags ts (formatted_short _ _ F) SD) as (fts' & out & C & R & X). rewrite (formatted_format _ _ F) in C.
    injection C as <-. exists out. split; [exact R|]. eapply effect_keep_tags; eassumption.
  - destruct (stop_tags_selected tags ts (formatted_short _ _ F) SD) as (fts' & out & C & R & X). rewrite (formatted_format _ _ F) in C.
    injection C as <-. exists out. split; [exact R|]. eapply effect_stop_tags; eassumption.
  - destruct (number_spec (Some tags) ts) as (fts' & out & C & R & X).
    { intros t E. injection E as <-. eapply formatted_short; eassumption. }
    { exact SD. }
    { intros tk I1 HT. apply numbers_run. specialize (S6 eq_refl). rewrite Forall_forall in S6. apply (S6 tk I1). intros v' tags' H' M'.
      rewrite (strings_fun fs "tags" v' v tags' tags ND H' H M' M). apply HT. reflexivity. }
    rewrite (formatted_format _ _ F) in C. cbn [bind] in C. injection C as <-. exists out. split; [exact R|].
    eapply effect_number; [exact H|exact M|]. eapply Forall2_weaken; [|exact X]. intros tk tk' (O & A & B). split; [exact O|]. split.
    + intros HT. apply converted, A. intros t E. injection E as <-. exact HT.
    + apply B. reflexivity.
  - destruct (number_spec None ts) as (fts' & out & C & R & X).
    { intros t E. discriminate E. }
    { exact SD. }
    { intros tk I1 _. apply numbers_run. specialize (S6 eq_refl). rewrite Forall_forall in S6. apply (S6 tk I1). intros v' tags' H' M'.
      unfold means_strings in M'. subst v'. destruct (H _ H'). }
    injection C as <-. exists out. split; [exact R|].
    eapply effect_number_all; [exact H|]. eapply Forall2_weaken; [|exact X]. intros tk tk' (O & A & _). split; [exact O|].
    apply converted, A. intros t E. discriminate E.
  - destruct (keep_words_selected ws ts) as (out & R & X). exists out. split; [exact R|]. eapply effect_keep_words; eassumption.
  - destruct (stop_words_selected ws ts) as (out & R & X). exists out. split; [exact R|]. eapply effect_stop_words; eassumption.
  - destruct (korean_tags_selected tags ts SD) as (out & _ & R & _ & X & _). exists out. split; [exact R|]. eapply effect_korean_keep; [exact H|exact M|].
    eapply selected_iff; [|exact X]. apply first_detail, SD.
  - destruct (korean_tags_selected tags ts SD) as (_ & out & _ & R & _ & X). exists out. split; [exact R|]. eapply effect_korean_stop; [exact H|exact M|].
    eapply selected_iff; [|exact X]. eapply Forall_impl; [|apply (first_detail tags), SD]. intros tk E. cbn beta. rewrite E. reflexivity.
  - destruct (detail_filter_spec (Some 3) ts (S5 eq_refl)) as (out & R & F). exists out. split; [exact R|]. apply effect_korean_reading. exact F.
  - destruct (length_selected (option_map N.to_nat a) (option_map N.to_nat b) ts) as (out & R & X). exists out. split; [exact R|].
    eapply effect_length; eassumption.
  - destruct (convert_spec (e_lower e) ts) as (out & R & F). exists out. split; [exact R|]. apply effect_lowercase. exact F.
  - destruct (convert_spec (e_upper e) ts) as (out & R & F). exists out. split; [exact R|]. apply effect_uppercase. exact F.
  - destruct (mapping_tokens_spec m f ts (S7 eq_refl v m H M) NF SV) as (out & R & O & X). rewrite R. exists out. split; [reflexivity|].
    eapply effect_mapping; [exact H|exact M|]. clear - O X. induction O; inversion X; subst; constructor; auto.
Qed.

(** * Character filters *)

Lemma source_of_widths text x : source_of (map (fun c => (width c, width c)) text) x = x.
Proof.
  revert x. induction text as [|c text IH]; intros x; cbn [map source_of]; [reflexivity|]. destruct (Nat.ltb_spec x (width c)); [lia|].
  rewrite IH. lia.
Qed.
Lemma widths_total text : in_total (map (fun c => (width c, width c)) text) = blen text /\ out_total (map (fun c => (width c, width c)) text) = blen text.
Proof. induction text as [|c text [A B]]; [split; reflexivity|]. cbn [map in_total out_total fold_right blen]. fold (in_total (map (fun c => (width c, width c)) text)).
  fold (out_total (map (fun c => (width c, width c)) text)). unfold blen in *. cbn [map list_sum] in *. split; lia. Qed.

Lemma char_filter_runs e name fs d text : NoDup (map fst fs) -> load_char_filter e name (VObj fs) = Ok d -> text_suits e name fs text ->
  exists out segs, char_filter_effect e name fs text out segs /\ filter_records (run_char_filter e d) text out segs.
Proof.
  intros ND L S. apply load_char_filter_iff in L; [|exact ND]. destruct S as [[V FT] SI SM SR SN].
  destruct L as [fs a b H H'|fs v m f H M NF|fs p r rx H H' E|fs v k H M]; cbn [run_char_filter].
  - destruct (iteration_spec (IterationConfig a b) text) as (out & R & X). cbn [ic_kanji ic_kana] in X.
    exists out, (map (fun c => (width c, width c)) text). split; [apply (effect_iteration e fs a b); assumption|].
    destruct (widths_total text) as [A B].
    assert (BL : blen out = blen text).
    { pose proof (iteration_offsets _ _ _ _ X (SI eq_refl a b H H') (List.length text)) as Y. rewrite <- (proj1 X) in Y at 1. rewrite !firstn_all in Y. exact Y. }
    split; [exact A|]. split; [rewrite B, BL; reflexivity|]. exists [], []. rewrite R. split; [reflexivity|].
    intros x _. rewrite source_of_widths. reflexivity.
  - destruct (SM eq_refl v m H M) as [K FO]. destruct (mapping_filter_spec m text K V) as (f' & NF' & _ & out & offs & diffs & segs & R & X).
    exists out, segs. split; [eapply effect_char_mapping; eassumption|]. apply (mapping_records m); auto. eapply FO; eassumption.
  - destruct (SR eq_refl p r rx H H' E) as (D & ps & tail & -> & FI & NE & FO). exists (with_replaced r ps tail), (match_segments r ps tail).
    split; [eapply effect_regex; eassumption|]. apply regex_records; assumption.
  - destruct (SN eq_refl) as (C & NE & FO). exists (flat_map (e_form e k) (e_graphemes e text)), (grapheme_segments (e_form e k) (e_graphemes e text)).
    split; [eapply effect_normalize; eassumption|]. apply normalize_records; auto.
Qed.

Lemma text_chain_runs e cs ds text :
  Forall2 (fun '(name, fs) d => NoDup (map fst fs) /\ load_char_filter e name (VObj fs) = Ok d) cs ds -> texts_suit e cs text ->
  exists out segss, text_chain e cs text out segss /\ filtered (map (run_char_filter e) ds) text out segss.
Proof.
  intros F. revert text. induction F as [|[name fs] d cs ds [ND L] F IH]; intros text S; cbn [texts_suit map] in *.
  - exists text, []. split; constructor.
  - destruct S as [S SS]. destruct (char_filter_runs e name fs d text ND L S) as (mid & segs & X & R).
    destruct (IH mid (SS _ _ X)) as (out & segss & T & FL). exists out, (segs :: segss). split; econstructor; eassumption.
Qed.

Lemma token_chain_runs e cs ds ts :
  Forall2 (fun '(name, fs) d => NoDup (map fst fs) /\ load_token_filter name (VObj fs) = Ok d) cs ds -> all_tokens_suit e cs ts ->
  exists out, token_chain e cs ts out /\ foldM (fun ts f => f ts) (map (run_token_filter e) ds) ts = Ok out.
Proof.
  intros F. revert ts. induction F as [|[name fs] d cs ds [ND L] F IH]; intros ts S; cbn [all_tokens_suit map foldM] in *.
  - exists ts. split; [constructor|reflexivity].
  - destruct S as [S SS]. destruct (token_filter_runs e name fs d ts ND L S) as (mid & R & X). rewrite R. cbn [bind].
    destruct (IH mid (SS _ X)) as (out & T & FL). exists out. split; [econstructor; eassumption|exact FL].
Qed.

(** * Offsets stay within bounds *)

Lemma selected_Forall {A} (P Q : A -> Prop) l out : selected P l out -> Forall Q l -> Forall Q out.
Proof. induction 1; intros F; inversion F; subst; auto. Qed.
Lemma only_text_Forall (Q : N -> N -> Prop) ts out : Forall2 only_text ts out -> Forall (fun tk => Q (ft_start tk) (ft_end tk)) ts ->
  Forall (fun tk => Q (ft_start tk) (ft_end tk)) out.
Proof. induction 1 as [|tk tk' ts out O F IH]; intros X; inversion X; subst; constructor; auto. rewrite O. cbn [ft_start ft_end]. assumption. Qed.
Lemma compounded_Forall P details b ts out : compounded P details ts out ->
  Forall (fun tk => (ft_start tk <= b)%N /\ (ft_end tk <= b)%N) ts -> Forall (fun tk => (ft_start tk <= b)%N /\ (ft_end tk <= b)%N) out.
Proof.
  induction 1 as [|t r out N C IH|run t r out FP CO NX C IH]; intros F; [constructor|inversion F; subst; constructor; auto|].
  apply Forall_app in F. destruct F as [F1 F2]. constructor; [|auto]. destruct run as [|t1 [|t2 run]]; [contradiction|cbn in CO; subst; inversion F1; assumption|].
  destruct CO as (_ & -> & -> & _). rewrite Forall_forall in F1. split; [apply F1; left; reflexivity|].
  apply F1. clear. assert (H : forall (l : list ftoken) x, l <> [] -> In (last l x) l).
  { intros l x. induction l as [|a [|b l] IH]; intros N; [congruence|left; reflexivity|]. right. apply IH. discriminate. }
  apply H. discriminate.
Qed.

Lemma effect_bounds e name fs b ts out : token_filter_effect e name fs ts out ->
  Forall (fun tk => (ft_start tk <= b)%N /\ (ft_end tk <= b)%N) ts -> Forall (fun tk => (ft_start tk <= b)%N /\ (ft_end tk <= b)%N) out.
Proof.
  intros X. destruct X;
    try (eapply selected_Forall; eassumption);
    try (eapply compounded_Forall; eassumption);
    intros F; (eapply (only_text_Forall (fun s e => (s <= b)%N /\ (e <= b)%N)); [|exact F]);
      (eapply Forall2_weaken; [|eassumption]); intros ? ? [O _]; exact O.
Qed.
Lemma chain_bounds e cs b ts out : token_chain e cs ts out ->
  Forall (fun tk => (ft_start tk <= b)%N /\ (ft_end tk <= b)%N) ts -> Forall (fun tk => (ft_start tk <= b)%N /\ (ft_end tk <= b)%N) out.
Proof. induction 1; intros F; [exact F|]. eauto using effect_bounds. Qed.

(** * The whole analyzer *)

Lemma configured_analyzer e t A cs cds tfs tds text : represents t A ->
  Forall2 (fun '(name, fs) d => NoDup (map fst fs) /\ load_char_filter e name (VObj fs) = Ok d) cs cds ->
  Forall2 (fun '(name, fs) d => NoDup (map fst fs) /\ load_token_filter name (VObj fs) = Ok d) tfs tds ->
  texts_suit e cs text ->
  (forall out segss, text_chain e cs text out segss -> valid_str out /\ covered A out /\
    forall tmp, tokenize t out = Some (Ok tmp) -> exists tokens, mapM (analyzed_token t) tmp = Ok tokens /\ all_tokens_suit e tfs tokens) ->
  exists out segss tmp tokens tokens', text_chain e cs text out segss /\
    tokenize t out = Some (Ok tmp) /\ mapM (analyzed_token t) tmp = Ok tokens /\ token_chain e tfs tokens tokens' /\
    analyze (analyzer_of e (AnalyzerDef cds t tds)) text = Some (Ok (map (fun tk =>
      with_offsets tk (undone segss (N.to_nat (ft_start tk))) (undone segss (N.to_nat (ft_end tk)))) tokens')).
Proof.
  intros R FC FT S H. destruct (text_chain_runs e cs cds text FC S) as (out & segss & TC & FL).
  destruct (H out segss TC) as (V & C & HT). destruct (tokenize_tiles t A R out V C) as (tmp & T & TI).
  destruct (HT tmp T) as (tokens & M & TS). destruct (token_chain_runs e tfs tds tokens FT TS) as (tokens' & TCH & FO).
  exists out, segss, tmp, tokens, tokens'. repeat (split; [assumption|]).
  apply (analyze_offsets (analyzer_of e (AnalyzerDef cds t tds)) text out segss tmp tokens tokens' FL T M FO).
  eapply chain_bounds; [exact TCH|]. destruct (mapM_details _ _ _ M) as (details & L & ->).
  assert (B := tiles_from_bound _ _ _ _ TI). cbn [Nat.add] in B. apply Forall_map. apply Forall_forall. intros [tk ds] I1. apply in_combine_l in I1.
  rewrite Forall_forall in B. specialize (B _ I1). cbn [ft_start ft_end]. lia.
Qed.

(** * Examples *)

Lemma normalize_suits : text_suits sample_env (lit "unicode_normalize") [(lit "kind", VStr (lit "nfc"))] (lit "zz").
Proof.
  constructor; try (intros E; vm_compute in E; discriminate E).
  - split; [apply ascii_valid|]. vm_compute. reflexivity.
  - intros _. split; [reflexivity|]. split; [repeat constructor; discriminate|]. intros form. vm_compute. reflexivity.
Qed.

Lemma normalize_same name fs text out segs : char_filter_effect sample_env name fs text out segs -> name = lit "unicode_normalize" -> out = text.
Proof.
  intros [| | |fs0 v k t H M] E; try (vm_compute in E; discriminate E). cbn [sample_env e_form e_graphemes]. clear. induction t as [|c t IH]; [reflexivity|].
  cbn [map flat_map app]. f_equal. exact IH.
Qed.

Lemma uppercase_same e name fs ts out : token_filter_effect e name fs ts out -> name = lit "uppercase" -> Forall2 (convert_text (e_upper e)) ts out.
Proof. intros [] E; try (vm_compute in E; discriminate E). assumption. Qed.

Lemma analyzer_suits : let t := sample Normal [sample_unk] in
  let cs := [(lit "unicode_normalize", [(lit "kind", VStr (lit "nfc"))])] in let tfs := [(lit "uppercase", []); (lit "length", [(lit "min", VInt 2)])] in
  represents t (sample_meaning [sample_unk]) /\ texts_suit sample_env cs (lit "zz") /\
  (forall out segss, text_chain sample_env cs (lit "zz") out segss -> valid_str out /\ covered (sample_meaning [sample_unk]) out /\
    forall tmp, tokenize t out = Some (Ok tmp) -> exists tokens, mapM (analyzed_token t) tmp = Ok tokens /\ all_tokens_suit sample_env tfs tokens).
Proof.
  intros t cs tfs. split; [apply sample_represents, sample_unk_ok|]. split.
  - cbn [texts_suit cs]. split; [exact normalize_suits|]. auto.
  - intros out segss C. inversion C as [|? ? ? ? mid ? ? ? X Y]; subst. inversion Y; subst. apply normalize_same in X; [|reflexivity]. subst.
    split; [apply ascii_valid|]. split; [apply sample_covered; discriminate|]. intros tmp T.
    vm_compute in T. injection T as <-. eexists. split; [vm_compute; reflexivity|]. cbn [all_tokens_suit tfs]. split.
    + constructor; try (intros E; vm_compute in E; discriminate E). constructor; [|constructor]. cbn [ft_details ft_text]. split; [discriminate|]. apply (ascii_valid "zz").
    + intros mid U. split; [|auto]. constructor; try (intros E; vm_compute in E; discriminate E).
      assert (U' : Forall2 (convert_text (map upper_char)) [FToken (lit "zz") 0 2 0 1 (WordId u32_max true) [lit "UNK"]] mid).
      { exact (uppercase_same _ _ _ _ _ U eq_refl). }
      inversion U' as [|? tk' ? ? [O E] R]; subst. inversion R; subst. constructor; [|constructor]. rewrite O. cbn [ft_details ft_text]. split; [discriminate|].
      rewrite E. apply (ascii_valid "ZZ").
Qed.

(** * Where an analyzer stops *)

Lemma texts_given_filters fs text out : texts_given fs text out -> forall more vecs, exists vecs',
  apply_char_filters (fs ++ more) text vecs = apply_char_filters more out vecs'.
Proof.
  induction 1 as [|f fs text mid offsets diffs out H G IH]; intros more vecs; [exists vecs; reflexivity|].
  cbn [app apply_char_filters]. rewrite H. apply IH.
Qed.
Lemma tokens_given_filters fs tokens out : tokens_given fs tokens out -> forall more,
  foldM (fun ts (f : list ftoken -> res (list ftoken)) => f ts) (fs ++ more) tokens = foldM (fun ts f => f ts) more out.
Proof. induction 1 as [|f fs tokens mid out H G IH]; intros more; [reflexivity|]. cbn [app foldM]. rewrite H. cbn [bind]. apply IH. Qed.

Theorem analyze_stops_text t tfs fs f more text mid r : texts_given fs text mid -> f mid = Some r ->
  forall out, same_failure r out -> analyze (Analyzer (fs ++ f :: more) t tfs) text = Some out.
Proof.
  intros G E out F. unfold analyze. cbn [an_char_filters]. destruct (texts_given_filters fs text mid G (f :: more) []) as [vecs ->].
  cbn [apply_char_filters]. rewrite E. destruct F; reflexivity.
Qed.
Theorem analyze_stops_search t tfs fs text mid r : texts_given fs text mid -> tokenize t mid = Some r ->
  forall out, same_failure r out -> analyze (Analyzer fs t tfs) text = Some out.
Proof.
  intros G E out F. unfold analyze. cbn [an_char_filters an_tokenizer]. destruct (texts_given_filters fs text mid G [] []) as [vecs X]. rewrite app_nil_r in X. rewrite X.
  cbn [apply_char_filters]. rewrite E. destruct F; reflexivity.
Qed.
Theorem analyze_stops_details t tfs fs text mid tmp : texts_given fs text mid -> tokenize t mid = Some (Ok tmp) ->
  forall out, same_failure (mapM (analyzed_token t) tmp) out -> analyze (Analyzer fs t tfs) text = Some out.
Proof.
  intros G E out F. unfold analyze. cbn [an_char_filters an_tokenizer]. destruct (texts_given_filters fs text mid G [] []) as [vecs X]. rewrite app_nil_r in X. rewrite X.
  cbn [apply_char_filters]. rewrite E. unfold analyze_normalized. cbn [an_tokenizer]. inversion F; reflexivity.
Qed.
Theorem analyze_stops_tokens t tfs f more fs text mid tmp tokens mid' : texts_given fs text mid -> tokenize t mid = Some (Ok tmp) ->
  mapM (analyzed_token t) tmp = Ok tokens -> tokens_given tfs tokens mid' ->
  forall out, same_failure (f mid') out -> analyze (Analyzer fs t (tfs ++ f :: more)) text = Some out.
Proof.
  intros G E M T out F. unfold analyze. cbn [an_char_filters an_tokenizer]. destruct (texts_given_filters fs text mid G [] []) as [vecs X]. rewrite app_nil_r in X. rewrite X.
  cbn [apply_char_filters]. rewrite E. unfold analyze_normalized. cbn [an_tokenizer an_token_filters]. rewrite M. cbn [bind]. rewrite (tokens_given_filters tfs tokens mid' T).
  cbn [foldM]. inversion F; reflexivity.
Qed.
