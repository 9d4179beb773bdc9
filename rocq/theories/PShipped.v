(** Property C104: the shipped configuration. *)
From Coq Require Import String.
From Coq Require Import List NArith ZArith Bool Lia.
From Verif Require Import MBase MUtf8 MText MCodec MDict MBincode MLattice MTokenizer MBuild MCharFilter MAnalyzer MTokenFilter MConfig MBuilders MShipped
  STok SBuild SMatrix SCharDef SUnk SData SCharFilter SAnalyzer STokenFilter SNumber SConfig SBuilders SSafe SFull SShipped
  LBase LText LDict LCharDef LShipped XSample XBuild XData XConfig XUnit XBuilders XShipped PBuilders PSafe PFull PNumber.
Import ListNotations.
Local Open Scope string_scope.
Local Open Scope list_scope.

Theorem C104_loads : exists stop, format_tags stop_words = Ok stop /\ forall e, analyzer_from_config e shipped_value =
  bind (tokenizer_from_config e (TokenizerConfig (DictionaryConfig (Some IPADIC) None)
          (Some (UserDictionaryConfig (lit "./resources/ipadic_simple_userdic.bin") None)) Normal))
    (fun t => Ok (AnalyzerDef [CFNormalize NFKC; CFIteration (IterationConfig true true)] t
      [TFCompound (CompoundConfig IPADIC [noun_number ++ lit ",*,*"] (Some (noun_number ++ lit ",*,*"))); TFNumber (Some [noun_number ++ lit ",*,*"]); TFStopTags stop; TFStem 3])).
Proof. rewrite <- stop_words_are. exact shipped_loads_as. Qed.
Print Assumptions C104_loads.

Theorem C104_outcome : forall e d text given, blocks_ok (e_block e) -> analyzer_from_config e shipped_value = Ok d ->
  analyze (analyzer_of e (unfiltered d)) text = Some (Ok given) -> Forall (fun tk => ft_details tk <> []) given ->
  exists r, analyze (analyzer_of e d) text = Some r /\ shipped_outcome (e_block e) stop_words given r.
Proof. rewrite <- stop_words_are. exact shipped_analyze. Qed.
Print Assumptions C104_outcome.

Theorem C104_example : forall e d text given, example_analyzer e = Ok d ->
  analyze (analyzer_of e (unfiltered d)) text = Some (Ok given) -> Forall (fun tk => ft_details tk <> []) given ->
  exists r, analyze (analyzer_of e d) text = Some r /\ example_outcome stop_words given r.
Proof. rewrite <- stop_words_are. exact example_analyze. Qed.
Print Assumptions C104_example.

Theorem C104_sources : forall n be e dir S C, env_sound e -> blocks_ok (e_block e) -> good_sources n be e IPADIC dir S C ->
  finds_dictionary be e IPADIC dir (DictionaryConfig (Some IPADIC) None) ->
  finds_user be e IPADIC C (Some (UserDictionaryConfig (lit "./resources/ipadic_simple_userdic.bin") None)) ->
  exists d, analyzer_from_config e shipped_value = Ok d /\ forall text, valid_str text ->
    exists given r, analyze (analyzer_of e (unfiltered d)) text = Some (Ok given) /\ Forall (good_token n) given /\
      analyze (analyzer_of e d) text = Some r /\ shipped_outcome (e_block e) stop_words given r.
Proof. rewrite <- stop_words_are. exact shipped_from_sources. Qed.
Print Assumptions C104_sources.

(** The filters alone *)

Theorem C36_exactly : forall fb min ts, blocks_ok fb ->
  (Exists (fun tk => unblocked fb (ft_text tk)) ts /\ katakana_stem_apply fb min ts = Panic) \/
  (Forall (fun tk => ~ unblocked fb (ft_text tk)) ts /\
   exists out, katakana_stem_apply fb min ts = Ok out /\ Forall2 (fun tk tk' => only_text tk tk' /\ stemmed min (ft_text tk) (ft_text tk')) ts out).
Proof. exact stem_exact. Qed.
Print Assumptions C36_exactly.

Theorem C35_filter : forall tags fts ts, Forall short_tag tags -> format_tags tags = Ok fts -> Forall (fun tk => ft_details tk <> []) ts ->
  (Exists (fun tk => has_tag tags tk /\ crowded (ft_text tk)) ts /\ japanese_number_apply (Some fts) ts = Panic) \/
  (Forall (fun tk => ~ (has_tag tags tk /\ crowded (ft_text tk))) ts /\ exists out, japanese_number_apply (Some fts) ts = Ok out /\
   Forall2 (fun tk tk' => only_text tk tk' /\ ((has_tag tags tk -> read_as None (ft_text tk) (ft_text tk')) /\ (~ has_tag tags tk -> ft_text tk' = ft_text tk))) ts out).
Proof. exact number_filter_formatted. Qed.
Print Assumptions C35_filter.

(** Sources for which everything is as it should be *)

Lemma ship_has_sources c : has_sources (ship_build c) IPADIC (lit "in") src.
Proof.
  split; try (eexists; split; vm_compute; reflexivity).
  exists [lit "words.csv"], [src_rows]. split; [reflexivity|]. split; [|reflexivity]. constructor; [|constructor].
  exists [1%N]. split; [vm_compute; reflexivity|]. split; [reflexivity|]. right. exists 5. repeat constructor.
Qed.
Lemma ship_sources : env_sound ship_env /\ blocks_ok (e_block ship_env) /\ good_sources 1 (ship_build true) ship_env IPADIC (lit "in") src src_content /\
  finds_dictionary (ship_build true) ship_env IPADIC (lit "in") (DictionaryConfig (Some IPADIC) None) /\
  finds_user (ship_build true) ship_env IPADIC src_content (Some (UserDictionaryConfig (lit "./resources/ipadic_simple_userdic.bin") None)).
Proof.
  split; [destruct (sample_sound []) as [H1 H2 H3 H4 H5 H6 H7]; constructor; assumption|].
  split; [exact ship_blocks_ok|].
  split; [destruct (src_good true _ [] eq_refl) as [H1 H2 H3 H4 H5 H6]; constructor; [exact (ship_has_sources true)|assumption..]|].
  split.
  - apply (finds_embedded _ _ _ _ true (src_built true) (get_file (src_built true))); [exact codecs_sample_inverse|exact codecs_sample_bytes|vm_compute; reflexivity| | |].
    + intros name bytes I. pose proof (src_built_names true) as ND. unfold get_file. revert I ND. generalize (src_built true). intros l. induction l as [|[n b] l IH]; intros I ND; [destruct I|].
      cbn [List.find fst]. inversion ND as [|? ? N1 N2]; subst. destruct (str_eqb n name) eqn:E.
      * apply str_eqb_true in E. subst n. destruct I as [I|I]; [injection I as <-; reflexivity|]. exfalso. apply N1. change name with (fst (name, bytes)). apply in_map. exact I.
      * destruct I as [I|I]; [injection I as -> ->|apply IH; assumption]. assert (X : str_eqb name name = true) by (apply str_eqb_true; reflexivity). congruence.
    + intros plain P. assert (E : plain = src_built false) by (vm_compute in P; injection P as <-; vm_compute; reflexivity).
      subst plain. clear P.
      assert (H : forallb (fun f => forallb (fun b => b <? 256)%N (snd f) && (N.of_nat (List.length (snd f)) <? 10000)%N) (src_built false) = true) by (vm_compute; reflexivity).
      rewrite forallb_forall in H. apply Forall_forall. intros [n b] I1. specialize (H _ I1). cbn [snd] in H. apply andb_true_iff in H. destruct H as [H1 H2]. split.
      * rewrite forallb_forall in H1. apply Forall_forall. intros x I2. apply N.ltb_lt. auto.
      * unfold short. apply N.ltb_lt in H2. eapply N.lt_trans; [exact H2|reflexivity].
    + unfold ship_env at 1. cbn [e_embedded]. apply (f_equal Some). apply embedded_da. reflexivity.
  - apply (finds_bin _ _ _ _ (lit "my/number.csv") (lit "./resources/ipadic_simple_userdic.bin") number_user);
      [apply number_user_readable|exact number_user_fits|apply (sample_yada_works true src_files []); vm_compute; reflexivity|apply sample_yada_bytes| |].
    + exists (lit "./resources/"), (lit "ipadic_simple_userdic"). repeat split; try discriminate; try (right; exists (lit "./resources"); reflexivity); vm_compute; intuition discriminate.
    + intros file B. assert (E : file = ship_bin) by (unfold ship_bin; rewrite B; reflexivity). subst file. reflexivity.
Qed.

Example C104_ex : exists d e, analyzer_from_config ship_env shipped_value = Ok d /\ example_analyzer ship_env = Ok e /\
  shown (analyze (analyzer_of ship_env d) (tx "百三のメーター三々")) =
    Some (Ok [(tx "103", 0, 6, 0, 2); (tx "メータ", 9, 21, 3, 1); (tx "33", 21, 27, 4, 2)]) /\
  shown (analyze (analyzer_of ship_env (unfiltered d)) (tx "百三のメーター三々")) =
    Some (Ok [(tx "百", 0, 3, 0, 1); (tx "三", 3, 6, 1, 1); (tx "の", 6, 9, 2, 1); (tx "メーター", 9, 21, 3, 1); (tx "三", 21, 24, 4, 1); (tx "三", 24, 27, 5, 1)]).
Proof.
  destruct (C104_sources 1 _ _ _ _ _ (proj1 ship_sources) (proj1 (proj2 ship_sources)) (proj1 (proj2 (proj2 ship_sources)))
    (proj1 (proj2 (proj2 (proj2 ship_sources)))) (proj2 (proj2 (proj2 (proj2 ship_sources))))) as (d & L & _).
  destruct (example_analyzer ship_env) as [e| |] eqn:E; [|vm_compute in E; discriminate|vm_compute in E; discriminate].
  exists d, e. split; [exact L|]. split; [reflexivity|].
  assert (H : ship_shown "百三のメーター三々" = Some (Ok [(tx "103", 0, 6, 0, 2); (tx "メータ", 9, 21, 3, 1); (tx "33", 21, 27, 4, 2)])) by (vm_compute; reflexivity).
  unfold ship_shown in H. rewrite L in H. split; [exact H|]. clear H.
  assert (H : match analyzer_from_config ship_env shipped_value with Ok d => shown (analyze (analyzer_of ship_env (unfiltered d)) (tx "百三のメーター三々")) | _ => None end =
    Some (Ok [(tx "百", 0, 3, 0, 1); (tx "三", 3, 6, 1, 1); (tx "の", 6, 9, 2, 1); (tx "メーター", 9, 21, 3, 1); (tx "三", 21, 24, 4, 1); (tx "三", 24, 27, 5, 1)])) by (vm_compute; reflexivity).
  rewrite L in H. exact H.
Qed.

(** The claim that this analyzer never panics does not hold: two numerals in a row, and a character in no block *)
Theorem C104_total_refuted : ~ (forall n be e dir S C d text, env_sound e -> blocks_ok (e_block e) -> good_sources n be e IPADIC dir S C ->
  finds_dictionary be e IPADIC dir (DictionaryConfig (Some IPADIC) None) ->
  finds_user be e IPADIC C (Some (UserDictionaryConfig (lit "./resources/ipadic_simple_userdic.bin") None)) ->
  analyzer_from_config e shipped_value = Ok d -> valid_str text -> analyze (analyzer_of e d) text <> Some Panic).
Proof.
  intros H. destruct ship_sources as (A & B & G & FD & FU). destruct (C104_sources 1 _ _ _ _ _ A B G FD FU) as (d & L & _).
  apply (H 1 _ _ _ _ _ d [0x5341; 0x767E]%N A B G FD FU L); [repeat constructor; vm_compute; auto|].
  assert (X : match analyzer_from_config ship_env shipped_value with Ok d => analyze (analyzer_of ship_env d) [0x5341; 0x767E]%N | _ => None end = Some Panic) by (vm_compute; reflexivity).
  rewrite L in X. exact X.
Qed.
Print Assumptions C104_total_refuted.

Example C104_panics_ex : ship_shown "十百" = Some Panic /\
  match analyzer_from_config ship_env shipped_value with Ok d => analyze (analyzer_of ship_env d) [0x2FE0]%N | _ => None end = Some Panic /\
  unblocked ship_block [0x30E1; 0x2FE0]%N /\ ~ unblocked ship_block [0x3042; 0x2FE0]%N /\ crowded (tx "十百").
Proof.
  split; [vm_compute; reflexivity|]. split; [vm_compute; reflexivity|]. split; [|split].
  - exists [0x30E1%N], 0x2FE0%N, []. split; [reflexivity|]. split; [repeat constructor; vm_compute; discriminate|reflexivity].
  - intros (a & c & b & E & K & N). destruct a as [|x a]; [injection E as <- <-; vm_compute in N; discriminate N|]. injection E as <- E. apply Forall_inv in K. unfold in_katakana in K. lia.
  - apply C74_panics. vm_compute. reflexivity.
Qed.
