(** Property C80: from source files and a configuration to tokens. *)
From Coq Require Import String.
From Coq Require Import List NArith ZArith Bool Lia.
From Verif Require Import MBase MUtf8 MText MCodec MDict MCharDef MUnk MBincode MLattice MTokenizer MDetails MBuild MCharFilter MAnalyzer MTokenFilter MConfig MBuilders
  STok SBuild SMatrix SCharDef SUnk SData SCharFilter SAnalyzer STokenFilter SConfig SBuilders SSafe SFull
  LBase LDict LCharDef LConfig LConfigMore LConfigRound LFull XSample XBuild XData XConfig XBuilders PBuilders PSafe.
Import ListNotations.
Local Open Scope string_scope.
Local Open Scope list_scope.

Theorem C80_configuration : forall n be e k dir S C top fs tc, env_sound e -> good_sources n be e k dir S C ->
  distinct_settings top -> has top "tokenizer" (VObj fs) -> object_structs fs -> tokenizer_described fs tc ->
  finds_dictionary be e k dir (tc_dictionary tc) -> finds_user be e k C (tc_user tc) ->
  fine_filters (fine_char e) (fun _ => False) top "character_filters" -> fine_filters (fine_token n) (bare_token n) top "token_filters" ->
  exists d, analyzer_from_config e (VObj top) = Ok d /\
    forall text, valid_str text -> exists tokens, analyze (analyzer_of e d) text = Some (Ok tokens) /\ Forall (good_token n) tokens.
Proof. exact configured_analyzer. Qed.
Print Assumptions C80_configuration.

Theorem C80_command_line : forall n be e k dir S C args, env_sound e -> good_sources n be e k dir S C ->
  finds_dictionary be e k dir (DictionaryConfig (ta_dic_type args) (ta_dic_dir args)) ->
  finds_user be e k C (option_map (fun path => UserDictionaryConfig path (ta_dic_type args)) (ta_user_dic_file args)) ->
  In (ta_output_format args) (map fst format_names) ->
  Forall (fine_flag e (fine_char e)) (ta_character_filters args) -> Forall (fine_flag e (fine_token n)) (ta_token_filters args) ->
  exists d f, cli_setup e args = Ok (d, f) /\
    forall text lines, valid_str text -> input_lines text lines ->
      exists tss, Forall2 (fun line ts => analyze (analyzer_of e d) (trim line) = Some (Ok ts)) lines tss /\
        cli_tokenize e (analyzer_of e d) f (utf8 text) = Some (flat_map (printed (e_pretty e) f) tss, Ok tt).
Proof. exact cli_total. Qed.
Print Assumptions C80_command_line.

(** A configuration with the dictionary in a directory and the user dictionary in a CSV file *)

Definition path_tokenizer : list (str * value) :=
  [(lit "dictionary", obj [("path", VStr (lit "out"))]);
   (lit "user_dictionary", obj [("path", VStr (lit "my/small.csv")); ("kind", VStr (lit "ipadic"))]);
   (lit "mode", VStr (lit "normal"))].
Definition path_top : list (str * value) :=
  [(lit "character_filters", VArr (map (fun f => setting (fst f, VObj (snd f))) safe_chars));
   (lit "tokenizer", VObj path_tokenizer);
   (lit "token_filters", VArr ([obj [("note", VNull)]; obj [("kind", VStr (lit "uppercase"))]] ++ map (fun f => setting (fst f, VObj (snd f))) safe_tokens))].
Definition path_env : env := file_env (put (lit "out") (src_built false) ++ [(lit "my/small.csv", [3%N])]).

Ltac no_dup := repeat (constructor; [cbn [In map fst]; intros X; repeat (destruct X as [X|X]; [vm_compute in X; discriminate X|]); exact X|]); constructor.

Lemma src_good c e files : e = file_env files -> good_sources 1 (src_env c src_files) e IPADIC (lit "in") src src_content.
Proof.
  intros ->. constructor; [apply src_sources|exact src_readable|exact src_complete|cbn; lia|repeat constructor|apply sample_yada_works; vm_compute; reflexivity].
Qed.

Lemma setting_distinct (f : str * value) : distinct (setting f).
Proof. intros fs H. injection H as <-. cbn [map fst]. no_dup. Qed.
Lemma settings_fine (fine : str -> list (str * value) -> Prop) bare l : Forall (fun '(name, fs) => NoDup (map fst fs) /\ fine name fs) l ->
  Forall (fine_entry fine bare) (map (fun f => setting (fst f, VObj (snd f))) l).
Proof.
  intros F. apply Forall_map. eapply Forall_impl; [|exact F]. intros [name fs] [ND H]. apply (fine_filter _ _ _ name fs); [| |exact ND|exact H].
  - eexists. split; [reflexivity|left; reflexivity].
  - eexists. split; [reflexivity|left; right; left; reflexivity].
Qed.

Lemma safe_chars_fine files : Forall (fun '(name, fs) => NoDup (map fst fs) /\ fine_char (file_env files) name fs) safe_chars.
Proof.
  pose proof safe_chars_harmless as H. unfold safe_chars in *. repeat match goal with H : Forall _ (_ :: _) |- _ => inversion H; subst; clear H end.
  repeat apply Forall_cons; try apply Forall_nil;
  (match goal with |- NoDup ?l /\ _ => assert (ND : NoDup l) by no_dup end; split; [exact ND|]; split; [|assumption]; eexists;
   refine (proj1 (load_char_filter_iff (file_env files) _ _ _ ND) _); vm_compute; reflexivity).
Qed.
Lemma safe_tokens_fine : Forall (fun '(name, fs) => NoDup (map fst fs) /\ fine_token 1 name fs) safe_tokens.
Proof.
  pose proof safe_tokens_harmless as H. unfold safe_tokens in *. repeat match goal with H : Forall _ (_ :: _) |- _ => inversion H; subst; clear H end.
  repeat apply Forall_cons; try apply Forall_nil;
  (match goal with |- NoDup ?l /\ _ => assert (ND : NoDup l) by no_dup end; split; [exact ND|]; split; [|assumption]; eexists;
   refine (proj1 (load_token_filter_iff _ _ _ ND) _); vm_compute; reflexivity).
Qed.

Lemma small_user_readable e : e_read e (lit "my/small.csv") = Some [3%N] -> e_csv e [3%N] = Ok small_user -> user_readable e IPADIC (lit "my/small.csv") small_user.
Proof.
  intros R CS. constructor.
  - exists [3%N]. auto.
  - exact small_user_room.
  - constructor; [cbn; lia|constructor].
  - constructor; [|constructor]. repeat constructor; vm_compute; discriminate.
Qed.

Example C80_ex : exists tc d, env_sound path_env /\ good_sources 1 (src_env false src_files) path_env IPADIC (lit "in") src src_content /\
  distinct_settings path_top /\ has path_top "tokenizer" (VObj path_tokenizer) /\ object_structs path_tokenizer /\ tokenizer_described path_tokenizer tc /\
  finds_dictionary (src_env false src_files) path_env IPADIC (lit "in") (tc_dictionary tc) /\ finds_user (src_env false src_files) path_env IPADIC src_content (tc_user tc) /\
  fine_filters (fine_char path_env) (fun _ => False) path_top "character_filters" /\ fine_filters (fine_token 1) (bare_token 1) path_top "token_filters" /\
  analyzer_from_config path_env (VObj path_top) = Ok d /\
  option_map (fun r => match r with Ok ts => map (fun t => (ft_text t, ft_start t, ft_end t, hd [] (ft_details t))) ts | _ => [] end)
    (analyze (analyzer_of path_env d) (lit "zabskyd")) =
    Some [(lit "ABAB", 0%N, 3%N, lit "compound"); (lit "SKY", 3%N, 6%N, lit "1")].
Proof.
  exists (TokenizerConfig (DictionaryConfig None (Some (lit "out"))) (Some (UserDictionaryConfig (lit "my/small.csv") (Some IPADIC))) Normal). eexists.
  assert (OS : object_structs path_tokenizer).
  { split; [no_dup|]. split.
    - intros v [H|H]; (destruct H as [H|[H|[H|[]]]]; try (vm_compute in H; discriminate H); injection H as <-; split; [intros fs X; injection X as <-; no_dup|discriminate]).
    - intros v w H E. subst v. repeat (destruct H as [H|H]; [vm_compute in H; discriminate H|]). destruct H. }
  split; [apply sample_sound|]. split; [eapply src_good; reflexivity|]. split; [|split; [right; left; reflexivity|]].
  { split; [no_dup|]. intros key v [H|[H|[H|[]]]]; injection H as <- <-.
    - split; [discriminate|]. intros l E. injection E as <-. repeat apply Forall_cons; try apply Forall_nil; apply setting_distinct.
    - split; [|discriminate]. intros fs E. injection E as <-. no_dup.
    - split; [discriminate|]. intros l E. injection E as <-. apply Forall_cons; [intros fs E; injection E as <-; no_dup|]. apply Forall_cons; [intros fs E; injection E as <-; no_dup|].
      repeat apply Forall_cons; try apply Forall_nil; apply setting_distinct. }
  split; [exact OS|]. split; [apply de_tokenizer_config_iff; [exact OS|]; vm_compute; reflexivity|]. cbn [tc_dictionary tc_user].
  split; [apply finds_files; [reflexivity|]; intros files B; assert (E : files = src_built false) by (unfold src_built; rewrite B; reflexivity); subst files; apply put_files_and, src_built_names|].
  split; [apply (finds_csv _ _ _ _ (lit "my/small.csv") small_user); [|apply small_user_readable; vm_compute; reflexivity|exact small_user_fits]|].
  { exists (lit "my/"), (lit "small"). repeat split; try discriminate; try (right; exists (lit "my"); reflexivity); vm_compute; intuition discriminate. }
  split; [intros l [H|[H|[H|[]]]]; try (vm_compute in H; discriminate H); injection H as <-; exact (settings_fine (fine_char path_env) _ safe_chars (safe_chars_fine _))|].
  split; [intros l [H|[H|[H|[]]]]; try (vm_compute in H; discriminate H); injection H as <-|].
  { apply Forall_cons; [|apply Forall_cons; [|exact (settings_fine (fine_token 1) _ safe_tokens safe_tokens_fine)]].
    - apply fine_skipped. intros name (fs & E & H). injection E as <-. destruct H as [H|[]]. vm_compute in H. discriminate H.
    - apply (fine_bare _ _ _ (lit "uppercase") VNull); [eexists; split; [reflexivity|left; reflexivity]| |right; left; reflexivity].
      eexists. split; [reflexivity|]. right. split; [|reflexivity]. intros [H|[]]. vm_compute in H. discriminate H. }
  split; [vm_compute; reflexivity|]. vm_compute. reflexivity.
Qed.

(** The command line with the dictionary in the program, compressed, and a compiled user dictionary *)

Definition small_file : list N := match build_user_file (src_env true src_files) IPADIC (lit "my/small.csv") with Ok f => f | _ => [] end.
Definition embedded_env : env :=
  let e := file_env [(lit "out/small.bin", small_file)] in
  Env (e_parse e) (e_pretty e) (e_regex e) (e_graphemes e) (e_form e) (e_lower e) (e_upper e) (e_kana e) (e_block e)
    (fun k => match k with IPADIC => Some (embedded_dictionary e codecs_sample true (get_file (src_built true))) | _ => None end) (e_read e) (e_da e) (e_csv e).
Definition embedded_args : tokenize_args :=
  TokenizeArgs (Some IPADIC) None (Some (lit "out/small.bin")) Normal (lit "mecab") [] [lit "uppercase:{}"; lit "length:{min:2}"].

Lemma embedded_da e e' c feature get : e_da e = e_da e' -> embedded_dictionary e c feature get = embedded_dictionary e' c feature get.
Proof. intros E. unfold embedded_dictionary. rewrite E. reflexivity. Qed.

Example C80_cli_ex : exists d, env_sound embedded_env /\ good_sources 1 (src_env true src_files) embedded_env IPADIC (lit "in") src src_content /\
  finds_dictionary (src_env true src_files) embedded_env IPADIC (lit "in") (DictionaryConfig (ta_dic_type embedded_args) (ta_dic_dir embedded_args)) /\
  finds_user (src_env true src_files) embedded_env IPADIC src_content (option_map (fun path => UserDictionaryConfig path (ta_dic_type embedded_args)) (ta_user_dic_file embedded_args)) /\
  In (ta_output_format embedded_args) (map fst format_names) /\
  Forall (fine_flag embedded_env (fine_token 1)) (ta_token_filters embedded_args) /\
  cli_setup embedded_env embedded_args = Ok (d, FMecab) /\
  cli_tokenize embedded_env (analyzer_of embedded_env d) FMecab (lit "  absky " ++ [10%N; 32%N]) =
    Some (as_lines [lit "AB" ++ [9%N] ++ lit "noun"; lit "SKY" ++ [9%N] ++ lit "1,2,3,4,5,6,7,8,9"; lit "EOS"; lit "EOS"], Ok tt).
Proof.
  eexists. split; [destruct (sample_sound []) as [H1 H2 H3 H4 H5 H6 H7]; constructor; assumption|].
  split; [destruct (src_good true _ [] eq_refl) as [H1 H2 H3 H4 H5 H6]; constructor; assumption|].
  split; [|split; [|split; [left; reflexivity|split]]].
  - apply (finds_embedded _ _ _ _ true (src_built true) (get_file (src_built true))); [exact codecs_sample_inverse|exact codecs_sample_bytes|vm_compute; reflexivity| | |].
    + intros name bytes I. pose proof (src_built_names true) as ND. unfold get_file. revert I ND. generalize (src_built true). intros l. induction l as [|[n b] l IH]; intros I ND; [destruct I|].
      cbn [find fst]. inversion ND as [|? ? N1 N2]; subst. destruct (str_eqb n name) eqn:E.
      * apply str_eqb_true in E. subst n. destruct I as [I|I]; [injection I as <-; reflexivity|]. exfalso. apply N1. change name with (fst (name, bytes)). apply in_map. exact I.
      * destruct I as [I|I]; [injection I as -> ->|apply IH; assumption]. assert (X : str_eqb name name = true) by (apply str_eqb_true; reflexivity). congruence.
    + intros plain P. assert (E : plain = src_built false) by (unfold src_built; change (src_env false src_files) with (with_compress false (src_env true src_files)); rewrite P; reflexivity).
      subst plain. clear P.
      assert (H : forallb (fun f => forallb (fun b => b <? 256)%N (snd f) && (N.of_nat (List.length (snd f)) <? 10000)%N) (src_built false) = true) by (vm_compute; reflexivity).
      rewrite forallb_forall in H. apply Forall_forall. intros [n b] I1. specialize (H _ I1). cbn [snd] in H. apply andb_true_iff in H. destruct H as [H1 H2]. split.
      * rewrite forallb_forall in H1. apply Forall_forall. intros x I2. apply N.ltb_lt. auto.
      * unfold short. apply N.ltb_lt in H2. eapply N.lt_trans; [exact H2|reflexivity].
    + unfold embedded_env at 1. cbn [e_embedded]. apply (f_equal Some). apply embedded_da. reflexivity.
  - apply (finds_bin _ _ _ _ (lit "my/small.csv") (lit "out/small.bin") small_user);
      [apply small_user_readable; vm_compute; reflexivity|exact small_user_fits|apply (sample_yada_works true src_files []); vm_compute; reflexivity|apply sample_yada_bytes| |].
    + exists (lit "out/"), (lit "small"). repeat split; try discriminate; try (right; exists (lit "out"); reflexivity); vm_compute; intuition discriminate.
    + intros file B. assert (E : file = small_file) by (unfold small_file; rewrite B; reflexivity). subst file. reflexivity.
  - apply Forall_cons; [|apply Forall_cons; [|apply Forall_nil]].
    + exists (lit "uppercase"), []. split; [exists (lit "{}"); split; [split; [reflexivity|vm_compute; intuition discriminate]|reflexivity]|]. split; [constructor|].
      split; [eexists; constructor|]. pose proof safe_tokens_harmless as H. unfold safe_tokens in H. inversion H; assumption.
    + exists (lit "length"), [(lit "min", VInt 2)]. split; [exists (lit "{min:2}"); split; [split; [reflexivity|vm_compute; intuition discriminate]|reflexivity]|]. split; [no_dup|].
      pose proof safe_tokens_fine as H. rewrite Forall_forall in H. apply (H (lit "length", [(lit "min", VInt 2)])). right. right. left. reflexivity.
  - split; [vm_compute; reflexivity|]. vm_compute. reflexivity.
Qed.
