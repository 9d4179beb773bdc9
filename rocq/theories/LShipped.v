(** The shipped configuration. *)
From Coq Require Import String.
From Coq Require Import List NArith ZArith Bool Lia ZifyBool ZifyNat ZifyN.
From Verif Require Import MBase MUtf8 MText MCodec MDict MLattice MTokenizer MDetails MBuild MCharFilter MAnalyzer MTokenFilter MConfig MBuilders MShipped
  STok SBuild SBuilders SConfig SCharFilter STokenFilter SNumber SRun SSafe SFull SShipped
  LBase LUtf8 LText LTokenFilter LTokenProps LNumber LConfig LRun LSafe LAgain LFull LLater.
Import ListNotations.
Local Open Scope list_scope.

(** ** The stem filter, exactly *)

Lemma katakana_panics fb text : blocks_ok fb -> (is_katakana fb text = Panic <-> unblocked fb text).
Proof.
  intros [B1 B2]. unfold unblocked. induction text as [|c text IH]; cbn [is_katakana].
  - split; [discriminate|]. intros (a & c & b & E & _). destruct a; discriminate.
  - destruct (fb c) as [bl|] eqn:E.
    + destruct (block_eqb bl KATAKANA) eqn:Q.
      * unfold block_eqb, KATAKANA in Q. rewrite andb_true_iff, !N.eqb_eq in Q. cbn [fst snd] in Q. destruct Q as [Q1 Q2].
        rewrite IH. split.
        -- intros (a & d & b & X & F & N). exists (c :: a), d, b. split; [rewrite X; reflexivity|]. split; [|exact N]. constructor; [|exact F].
           specialize (B1 _ _ E). unfold in_katakana. rewrite Q1, Q2 in B1. exact B1.
        -- intros ([|x a] & d & b & X & F & N); injection X as <- X; [congruence|]. exists a, d, b. split; [exact X|]. split; [exact (Forall_inv_tail F)|exact N].
      * split; [discriminate|]. intros ([|x a] & d & b & X & F & N); injection X as <- X; [congruence|].
        rewrite (B2 _ (Forall_inv F)) in E. injection E as <-. discriminate Q.
    + split; [|reflexivity]. intros _. exists [], c, text. auto.
Qed.
Lemma katakana_no_err fb text k : is_katakana fb text <> Err k.
Proof. induction text as [|c text IH]; cbn [is_katakana]; [discriminate|]. destruct (fb c); [|discriminate]. destruct (block_eqb _ _); [exact IH|discriminate]. Qed.

Lemma stem_cases fb min text : blocks_ok fb ->
  (unblocked fb text /\ stem fb min text = Panic) \/ (~ unblocked fb text /\ exists t, stem fb min text = Ok t /\ stemmed min text t).
Proof.
  intros B. unfold stem. destruct (is_katakana fb text) as [b|k|] eqn:E; [|destruct (katakana_no_err _ _ _ E)|left; split; [apply katakana_panics; assumption|reflexivity]].
  right. split; [rewrite <- katakana_panics by exact B; congruence|]. pose proof (katakana_known fb text b B E) as K. cbn [bind].
  destruct b; cbn [negb].
  - assert (KT : Forall in_katakana text) by (apply K; reflexivity).
    destruct (ends_with_char text PROLONGED_SOUND_MARK) eqn:W.
    + apply ends_with_char_spec in W. destruct W as (body & ->). cbn [andb].
      destruct (Nat.ltb_spec min (List.length (body ++ [PROLONGED_SOUND_MARK]))) as [L|L].
      * exists body. split.
        -- rewrite blen_app. change (blen [PROLONGED_SOUND_MARK]) with (width PROLONGED_SOUND_MARK). rewrite Nat.add_sub. apply str_to_app.
        -- split; [intros bd EB _ _; apply app_inj_tail in EB; destruct EB; auto|]. intros [H|[H|H]]; [exfalso; apply (H body); reflexivity|contradiction|lia].
      * eexists. split; [reflexivity|]. split; [intros; lia|reflexivity].
    + cbn [andb]. exists text. split; [reflexivity|]. split; [|reflexivity]. intros bd EB _ _. exfalso.
      assert (X : ends_with_char text PROLONGED_SOUND_MARK = true) by (apply ends_with_char_spec; exists bd; exact EB). congruence.
  - exists text. split; [reflexivity|]. split; [|reflexivity]. intros bd _ H _. apply K in H. discriminate.
Qed.

(** ** Filters that may panic on a token *)

Lemma map_texts_cases (bad : ftoken -> Prop) (good : ftoken -> str -> Prop) f ts :
  Forall (fun tk => (bad tk /\ f tk = Panic) \/ (~ bad tk /\ exists t, f tk = Ok t /\ good tk t)) ts ->
  (Exists bad ts /\ map_texts f ts = Panic) \/
  (Forall (fun tk => ~ bad tk) ts /\ exists out, map_texts f ts = Ok out /\ Forall2 (fun tk tk' => only_text tk tk' /\ good tk (ft_text tk')) ts out).
Proof.
  unfold map_texts. induction 1 as [|tk ts [[H1 H2]|[H1 (t & H2 & H3)]] F IH]; cbn [mapM].
  - right. split; [constructor|]. exists []. split; [reflexivity|constructor].
  - left. split; [left; exact H1|]. rewrite H2. reflexivity.
  - rewrite H2. cbn [bind]. destruct IH as [[E ->]|[N (out & -> & R)]]; cbn [bind].
    + left. split; [right; exact E|reflexivity].
    + right. split; [constructor; assumption|]. eexists. split; [reflexivity|]. constructor; [|exact R]. split; [reflexivity|exact H3].
Qed.

Theorem stem_exact fb min ts : blocks_ok fb ->
  (Exists (fun tk => unblocked fb (ft_text tk)) ts /\ katakana_stem_apply fb min ts = Panic) \/
  (Forall (fun tk => ~ unblocked fb (ft_text tk)) ts /\
   exists out, katakana_stem_apply fb min ts = Ok out /\ Forall2 (fun tk tk' => only_text tk tk' /\ stemmed min (ft_text tk) (ft_text tk')) ts out).
Proof.
  intros B. apply (map_texts_cases (fun tk => unblocked fb (ft_text tk)) (fun tk t => stemmed min (ft_text tk) t)).
  apply Forall_forall. intros tk _. apply stem_cases, B.
Qed.

Lemma tag_decided tags tk : Forall short_tag tags -> ft_details tk <> [] -> has_tag tags tk \/ ~ has_tag tags tk.
Proof. intros F NE. rewrite <- (contains_tag tags tk F NE). destruct (contains _ _); [left; reflexivity|right; discriminate]. Qed.

Theorem number_filter_exact tags ts : Forall short_tag tags -> Forall (fun tk => ft_details tk <> []) ts ->
  (Exists (fun tk => has_tag tags tk /\ crowded (ft_text tk)) ts /\ japanese_number_apply (Some (map formatted tags)) ts = Panic) \/
  (Forall (fun tk => ~ (has_tag tags tk /\ crowded (ft_text tk))) ts /\ exists out, japanese_number_apply (Some (map formatted tags)) ts = Ok out /\
   Forall2 (fun tk tk' => only_text tk tk' /\ ((has_tag tags tk -> read_as None (ft_text tk) (ft_text tk')) /\ (~ has_tag tags tk -> ft_text tk' = ft_text tk))) ts out).
Proof.
  intros ST NE.
  apply (map_texts_cases (fun tk => has_tag tags tk /\ crowded (ft_text tk))
    (fun tk t => (has_tag tags tk -> read_as None (ft_text tk) t) /\ (~ has_tag tags tk -> t = ft_text tk))).
  eapply Forall_impl; [|exact NE]. intros tk D. cbv beta. rewrite (token_tag_ok tk D). cbn [bind].
  pose proof (contains_tag tags tk ST D) as C. destruct (contains _ _).
  - assert (H : has_tag tags tk) by (apply C; reflexivity). destruct (number_else (ft_text tk)) as [P|(r & R)].
    + left. split; [split; [exact H|apply number_panics, P]|exact P].
    + right. split; [intros [_ X]; apply number_panics in X; congruence|]. exists r. split; [exact R|]. split; [intros _; apply number_exact, R|contradiction].
  - assert (H : ~ has_tag tags tk) by (intros X; apply C in X; discriminate). right. split; [tauto|]. exists (ft_text tk). split; [reflexivity|]. split; [contradiction|reflexivity].
Qed.

(** ** Details stay non-empty *)

Lemma compounded_details P d ts out : compounded P d ts out -> d <> [] -> Forall (fun tk => ft_details tk <> []) ts -> Forall (fun tk => ft_details tk <> []) out.
Proof.
  intros C D. induction C as [|t r out NP C IH|run t r out FP CO NX C IH]; intros F; [constructor|..].
  - constructor; [exact (Forall_inv F)|apply IH, (Forall_inv_tail F)].
  - apply Forall_app in F. destruct F as [F1 F2]. constructor; [|apply IH, F2].
    destruct run as [|a [|b run]]; cbn [compound_of] in CO; [contradiction|subst t; exact (Forall_inv F1)|].
    destruct CO as (_ & _ & _ & _ & _ & _ & ->). exact D.
Qed.

Lemma short_from tag : Nat.leb (List.length (split_char 44%N tag)) 4 = true -> short_tag tag.
Proof. intros L. exists (split_char 44%N tag). split; [apply split_parts|apply Nat.leb_le, L]. Qed.
Lemma shorts_from tags : forallb (fun tag => Nat.leb (List.length (split_char 44%N tag)) 4) tags = true -> Forall short_tag tags.
Proof. intros H. apply Forall_forall. intros tag I. apply short_from. rewrite forallb_forall in H. apply H, I. Qed.
Lemma only_text_details ts out (Q : ftoken -> ftoken -> Prop) : Forall2 (fun tk tk' => only_text tk tk' /\ Q tk tk') ts out ->
  Forall (fun tk => ft_details tk <> []) ts -> Forall (fun tk => ft_details tk <> []) out.
Proof.
  induction 1 as [|a b ts out [O _] F IH]; intros D; constructor; [|apply IH, (Forall_inv_tail D)].
  unfold only_text in O. rewrite O. cbn. exact (Forall_inv D).
Qed.

(** ** The chain *)

Definition shipped_chars : list char_filter_def := [CFNormalize NFKC; CFIteration (IterationConfig true true)].
Definition shipped_compound : compound_config := CompoundConfig IPADIC (map formatted [number_tag]) (Some (formatted number_tag)).
Definition example_tokens : list token_filter_def :=
  [TFCompound shipped_compound; TFNumber (Some (map formatted [number_tag])); TFStopTags (map formatted shipped_stop_tags)].
Definition shipped_tokens : list token_filter_def := example_tokens ++ [TFStem 3].

Lemma number_tag_is : number_tag = noun_number.
Proof. vm_compute. reflexivity. Qed.
Lemma compound_is : compound_config_new IPADIC [number_tag] (Some number_tag) = Ok shipped_compound.
Proof. vm_compute. reflexivity. Qed.

Lemma unreadable_first ts joined : compounded (has_tag [noun_number]) (new_details IPADIC (Some noun_parts)) ts joined ->
  (unreadable ts <-> Exists (fun tk => has_tag [noun_number] tk /\ crowded (ft_text tk)) joined).
Proof.
  intros C. split.
  - intros (joined' & tk & C' & I & H). rewrite (compounded_unique _ _ _ _ C _ C'). apply Exists_exists. eauto.
  - intros E. apply Exists_exists in E. destruct E as (tk & I & H). exists joined, tk. auto.
Qed.

Theorem example_chain e ts : Forall (fun tk => ft_details tk <> []) ts ->
  exists r, foldM (fun ts f => f ts) (map (run_token_filter e) example_tokens) ts = r /\ example_outcome shipped_stop_tags ts r.
Proof.
  intros D. eexists. split; [reflexivity|]. unfold example_tokens. cbn [map foldM run_token_filter].
  assert (SN : Forall short_tag [number_tag]) by (apply shorts_from; vm_compute; reflexivity).
  assert (SS : Forall short_tag shipped_stop_tags) by (apply shorts_from; vm_compute; reflexivity).
  destruct (compound_spec IPADIC [number_tag] (Some number_tag) ts SN) as (cfg & joined & C & R & X).
  { intros t E. injection E as <-. exact (Forall_inv SN). }
  { exact D. }
  rewrite compound_is in C. injection C as <-. rewrite R. cbn [bind]. cbn [option_map] in X.
  assert (PE : split_char 44%N number_tag = noun_parts) by (vm_compute; reflexivity). rewrite PE in X. rewrite number_tag_is in X.
  assert (DJ : Forall (fun tk => ft_details tk <> []) joined) by (eapply compounded_details; [exact X|vm_compute; discriminate|exact D]).
  destruct (number_filter_exact [number_tag] joined SN DJ) as [[E P]|[NE (read & P & F)]]; cbn [map] in P; rewrite P; cbn [bind].
  - apply example_panics, (unreadable_first ts joined X). rewrite number_tag_is in E. exact E.
  - assert (DR : Forall (fun tk => ft_details tk <> []) read) by (eapply only_text_details; [exact F|exact DJ]).
    destruct (stop_tags_selected shipped_stop_tags read SS DR) as (fts & kept & FT & RK & SK).
    rewrite (format_tags_ok _ SS) in FT. assert (FE : fts = map formatted shipped_stop_tags) by congruence. rewrite FE in RK. rewrite RK. cbn [bind].
    apply example_gives.
    + rewrite (unreadable_first ts joined X). rewrite number_tag_is in NE. intros E. apply Exists_exists in E. destruct E as (tk & I & H).
      rewrite Forall_forall in NE. exact (NE tk I H).
    + apply (joined_read _ _ joined read kept X); [|exact SK]. rewrite number_tag_is in F. exact F.
Qed.

Theorem shipped_chain e ts : blocks_ok (e_block e) -> Forall (fun tk => ft_details tk <> []) ts ->
  exists r, foldM (fun ts f => f ts) (map (run_token_filter e) shipped_tokens) ts = r /\ shipped_outcome (e_block e) shipped_stop_tags ts r.
Proof.
  intros B D. eexists. split; [reflexivity|]. unfold shipped_tokens. rewrite map_app, foldM_app_.
  destruct (example_chain e ts D) as (r & -> & O). destruct O as [U|kept U J]; cbn [bind map foldM run_token_filter].
  - apply shipped_number, U.
  - change (N.to_nat 3) with 3. destruct (stem_exact (e_block e) 3 kept B) as [[E ->]|[NE (out & -> & F)]]; cbn [bind].
    + apply Exists_exists in E. destruct E as (tk & I & H). eapply shipped_block; eassumption.
    + eapply shipped_gives; eassumption.
Qed.

(** ** Loading *)

Definition shipped_user : user_dictionary_config := UserDictionaryConfig (lit "./resources/ipadic_simple_userdic.bin") None.
Definition shipped_tokenizer : tokenizer_config := TokenizerConfig (DictionaryConfig (Some IPADIC) None) (Some shipped_user) Normal.

Theorem shipped_loads e : analyzer_from_config e shipped_value =
  bind (tokenizer_from_config e shipped_tokenizer) (fun t => Ok (AnalyzerDef shipped_chars t shipped_tokens)).
Proof.
  unfold analyzer_from_config.
  assert (C : load_filters (load_char_filter e) (as_array (index shipped_value (lit "character_filters"))) = Ok shipped_chars) by (vm_compute; reflexivity).
  rewrite C. cbn [bind]. clear C.
  assert (F : exists fs, ok_or (as_object (index shipped_value (lit "tokenizer"))) EDeserialize = Ok fs /\ de_tokenizer_config fs = Ok shipped_tokenizer)
    by (eexists; split; [vm_compute; reflexivity|vm_compute; reflexivity]).
  destruct F as (fs & -> & T). cbn [bind]. rewrite T. cbn [bind]. destruct (tokenizer_from_config e shipped_tokenizer) as [t|k|]; [|reflexivity|reflexivity]. cbn [bind].
  assert (X : load_filters load_token_filter (as_array (index shipped_value (lit "token_filters"))) = Ok shipped_tokens) by (vm_compute; reflexivity).
  rewrite X. reflexivity.
Qed.
Theorem example_loads e : example_analyzer e =
  bind (match tokenizer_from_config e (TokenizerConfig (DictionaryConfig (Some IPADIC) None) None Normal) with Ok t => Ok t | _ => Panic end)
    (fun t => Ok (AnalyzerDef shipped_chars t example_tokens)).
Proof.
  unfold example_analyzer. destruct (tokenizer_from_config e _) as [t|k|]; [|reflexivity|reflexivity]. cbn [bind]. rewrite compound_is. cbn [bind].
  assert (SN : Forall short_tag [number_tag]) by (apply shorts_from; vm_compute; reflexivity).
  assert (SS : Forall short_tag shipped_stop_tags) by (apply shorts_from; vm_compute; reflexivity).
  rewrite (format_tags_ok _ SN), (format_tags_ok _ SS). reflexivity.
Qed.

(** ** Analysis *)

Definition unfiltered (d : analyzer_def) : analyzer_def := AnalyzerDef (ad_char_filters d) (ad_tokenizer d) [].

Theorem shipped_analyze e d text given : blocks_ok (e_block e) -> analyzer_from_config e shipped_value = Ok d ->
  analyze (analyzer_of e (unfiltered d)) text = Some (Ok given) -> Forall (fun tk => ft_details tk <> []) given ->
  exists r, analyze (analyzer_of e d) text = Some r /\ shipped_outcome (e_block e) shipped_stop_tags given r.
Proof.
  intros B L A D. rewrite shipped_loads in L. apply bind_ok in L. destruct L as (t & T & E). injection E as <-. unfold unfiltered in A. cbn [ad_char_filters ad_tokenizer] in A.
  destruct (shipped_chain e given B D) as (r & R & O). exists r. split; [|exact O].
  change shipped_tokens with ([] ++ shipped_tokens). rewrite analyze_later, A. unfold later. cbn [bind]. f_equal. exact R.
Qed.
Theorem example_analyze e d text given : example_analyzer e = Ok d ->
  analyze (analyzer_of e (unfiltered d)) text = Some (Ok given) -> Forall (fun tk => ft_details tk <> []) given ->
  exists r, analyze (analyzer_of e d) text = Some r /\ example_outcome shipped_stop_tags given r.
Proof.
  intros L A D. rewrite example_loads in L. apply bind_ok in L. destruct L as (t & T & E). injection E as <-. unfold unfiltered in A. cbn [ad_char_filters ad_tokenizer] in A.
  destruct (example_chain e given D) as (r & R & O). exists r. split; [|exact O].
  change example_tokens with ([] ++ example_tokens). rewrite analyze_later, A. unfold later. cbn [bind]. f_equal. exact R.
Qed.

(** ** From sources *)

Lemma served_given e n t : env_sound e -> 0 < n -> serves n t -> forall text, valid_str text ->
  exists given, analyze (analyzer_of e (AnalyzerDef shipped_chars t [])) text = Some (Ok given) /\ Forall (good_token n) given.
Proof.
  intros ES P SV. 
  apply (analyzer_total e n t [(lit "unicode_normalize", [(lit "kind", VStr (lit "nfkc"))]); (lit "japanese_iteration_mark", [(lit "normalize_kanji", VBool true); (lit "normalize_kana", VBool true)])]
    shipped_chars [] [] ES SV); try constructor.
  - split; [|vm_compute; reflexivity]. repeat (constructor; [cbn; intuition discriminate|]). constructor.
  - constructor; [|constructor]. split; [|vm_compute; reflexivity]. constructor; [|constructor; [|constructor]]; cbn; [|tauto]. intros [X|[]]. vm_compute in X. discriminate X.
  - split; intros X; vm_compute in X; discriminate X.
  - constructor; [|constructor]. split; intros X; vm_compute in X; discriminate X.
Qed.

Theorem shipped_from_sources n be e dir S C : env_sound e -> blocks_ok (e_block e) -> good_sources n be e IPADIC dir S C ->
  finds_dictionary be e IPADIC dir (DictionaryConfig (Some IPADIC) None) -> finds_user be e IPADIC C (Some shipped_user) ->
  exists d, analyzer_from_config e shipped_value = Ok d /\ forall text, valid_str text ->
    exists given r, analyze (analyzer_of e (unfiltered d)) text = Some (Ok given) /\ Forall (good_token n) given /\
      analyze (analyzer_of e d) text = Some r /\ shipped_outcome (e_block e) shipped_stop_tags given r.
Proof.
  intros ES B G FD FU. destruct (serves_config n be e IPADIC dir S C _ _ G FD FU) as (dd & ud & LD & LU & SV).
  assert (T : exists t, tokenizer_from_config e shipped_tokenizer = Ok t /\ serves n t).
  { unfold tokenizer_from_config, shipped_tokenizer. cbn [tc_dictionary tc_user tc_mode]. rewrite LD. cbn [bind].
    destruct ud as [u|]; cbn [loads_user] in LU; [|contradiction]. rewrite LU. cbn [bind]. eexists. split; [reflexivity|apply SV]. }
  destruct T as (t & T & ST). exists (AnalyzerDef shipped_chars t shipped_tokens).
  assert (L : analyzer_from_config e shipped_value = Ok (AnalyzerDef shipped_chars t shipped_tokens)) by (rewrite shipped_loads, T; reflexivity).
  split; [exact L|]. intros text V. destruct (served_given e n t ES (proj1 (gs_details _ _ _ _ _ _ _ G)) ST text V) as (given & A & GG).
  assert (D : Forall (fun tk => ft_details tk <> []) given) by (eapply Forall_impl; [|exact GG]; intros tk (_ & _ & X & _); exact X).
  destruct (shipped_analyze e _ text given B L A D) as (r & R & O). exists given, r. auto.
Qed.

Theorem shipped_loads_as : exists stop, format_tags shipped_stop_tags = Ok stop /\ forall e, analyzer_from_config e shipped_value =
  bind (tokenizer_from_config e shipped_tokenizer)
    (fun t => Ok (AnalyzerDef shipped_chars t
      [TFCompound (CompoundConfig IPADIC [noun_number ++ lit ",*,*"] (Some (noun_number ++ lit ",*,*"))); TFNumber (Some [noun_number ++ lit ",*,*"]); TFStopTags stop; TFStem 3])).
Proof.
  exists (map formatted shipped_stop_tags). split; [apply format_tags_ok, shorts_from; vm_compute; reflexivity|]. intros e. rewrite shipped_loads.
  assert (E : formatted number_tag = noun_number ++ lit ",*,*") by (vm_compute; reflexivity).
  unfold shipped_tokens, example_tokens, shipped_compound. cbn [map app]. rewrite E. reflexivity.
Qed.
Theorem number_filter_formatted tags fts ts : Forall short_tag tags -> format_tags tags = Ok fts -> Forall (fun tk => ft_details tk <> []) ts ->
  (Exists (fun tk => has_tag tags tk /\ crowded (ft_text tk)) ts /\ japanese_number_apply (Some fts) ts = Panic) \/
  (Forall (fun tk => ~ (has_tag tags tk /\ crowded (ft_text tk))) ts /\ exists out, japanese_number_apply (Some fts) ts = Ok out /\
   Forall2 (fun tk tk' => only_text tk tk' /\ ((has_tag tags tk -> read_as None (ft_text tk) (ft_text tk')) /\ (~ has_tag tags tk -> ft_text tk' = ft_text tk))) ts out).
Proof. intros S F D. rewrite (format_tags_ok _ S) in F. assert (E : fts = map formatted tags) by congruence. rewrite E. apply number_filter_exact; assumption. Qed.
Lemma stop_words_are : shipped_stop_tags = stop_words.
Proof. vm_compute. reflexivity. Qed.
