(** Properties C77 and C78: settings that say the same; filters whose order does not matter. *)
From Coq Require Import String.
From Coq Require Import List NArith ZArith Bool Lia Permutation.
From Verif Require Import MBase MUtf8 MText MCodec MDict MBuild MCharFilter MAnalyzer MTokenFilter MConfig
  STok SConfig SSame LSame XSample XConfig.
Import ListNotations.
Local Open Scope string_scope.
Local Open Scope list_scope.

(** C77 *)
Theorem C77_token_filter : forall name fs fs' d, NoDup (map fst fs) -> same_settings fs fs' -> load_token_filter name (VObj fs) = Ok d ->
  exists d', load_token_filter name (VObj fs') = Ok d' /\ forall e ts, run_token_filter e d' ts = run_token_filter e d ts.
Proof. exact same_token_filter. Qed.
Print Assumptions C77_token_filter.
Theorem C77_char_filter : forall e name fs fs' d, NoDup (map fst fs) -> same_settings fs fs' -> load_char_filter e name (VObj fs) = Ok d ->
  exists d', load_char_filter e name (VObj fs') = Ok d' /\ forall text, run_char_filter e d' text = run_char_filter e d text.
Proof. exact same_char_filter. Qed.
Print Assumptions C77_char_filter.
Theorem C77_analyzer : forall e top top' d, distinct_settings top -> distinct_settings top' -> same_analyzer top top' ->
  analyzer_from_config e (VObj top) = Ok d ->
  exists d', analyzer_from_config e (VObj top') = Ok d' /\ forall text, analyze (analyzer_of e d') text = analyze (analyzer_of e d) text.
Proof. exact same_analyzer_from_config. Qed.
Print Assumptions C77_analyzer.

Definition dictionary_setting : value := obj [("dictionary", obj [("kind", VStr (lit "ipadic"))]); ("mode", VStr (lit "normal"))].
(* the mapping, the words and the fields in two orders, one word twice *)
Definition two_maps : list (str * str) := [(lit "z", lit "q"); (lit "zz", lit "y")].
Definition map_setting (m : list (str * str)) : value := VObj [(lit "mapping", VObj (map (fun kv => (fst kv, VStr (snd kv))) m))].
Definition words_setting (ws : list str) : value := VObj [(lit "words", VArr (map VStr ws))].
Definition one_top : list (str * value) :=
  [(lit "character_filters", VArr [obj [("kind", VStr (lit "mapping")); ("args", map_setting two_maps)]]);
   (lit "tokenizer", dictionary_setting);
   (lit "token_filters", VArr [obj [("kind", VStr (lit "stop_words")); ("args", words_setting [lit "a"; lit "b"])]])].
Definition other_top : list (str * value) :=
  [(lit "token_filters", VArr [obj [("args", words_setting [lit "b"; lit "a"; lit "b"]); ("kind", VStr (lit "stop_words"))]]);
   (lit "character_filters", VArr [obj [("args", map_setting (rev two_maps)); ("kind", VStr (lit "mapping"))]]);
   (lit "tokenizer", dictionary_setting)].
Ltac nodup := repeat (constructor; [cbn [In map fst]; intros ?; repeat match goal with H : _ \/ _ |- _ => destruct H as [H|H] end; first [discriminate | contradiction]|]); constructor.
Lemma two_distinct : NoDup (map fst two_maps).
Proof. nodup. Qed.
Example C77_ex : distinct_settings one_top /\ distinct_settings other_top /\ same_analyzer one_top other_top /\
  exists d d', analyzer_from_config sample_env (VObj one_top) = Ok d /\ analyzer_from_config sample_env (VObj other_top) = Ok d' /\ d <> d' /\
    analyze (analyzer_of sample_env d) (lit "zzz") = analyze (analyzer_of sample_env d') (lit "zzz") /\
    option_map (fun r => match r with Ok ts => map ft_text ts | _ => [] end) (analyze (analyzer_of sample_env d') (lit "zzz")) = Some [lit "yq"].
Proof.
  assert (D : forall top, NoDup (map fst top) -> Forall (fun kv => distinct (snd kv) /\ forall l, snd kv = VArr l -> Forall distinct l) top -> distinct_settings top).
  { intros top N F. split; [exact N|]. intros key v I. rewrite Forall_forall in F. apply (F _ I). }
  split; [|split; [|split]].
  - apply D; [nodup|]. repeat apply Forall_cons; try apply Forall_nil; (split; [intros fs E; try discriminate E; injection E as <-; nodup|intros l E; try discriminate E; injection E as <-]);
      (constructor; [intros fs E; injection E as <-; nodup|constructor]).
  - apply D; [nodup|]. repeat apply Forall_cons; try apply Forall_nil; (split; [intros fs E; try discriminate E; injection E as <-; nodup|intros l E; try discriminate E; injection E as <-]);
      (constructor; [intros fs E; injection E as <-; nodup|constructor]).
  - split; [|split].
    + intros v. split; intros [H|[H|[H|[]]]]; try discriminate H; injection H as <-; [right; right; left|right; left]; reflexivity.
    + right. do 2 eexists. split; [left; reflexivity|]. split; [right; left; reflexivity|]. constructor; [|constructor].
      eapply same_entry_args with (name := lit "mapping"); [nodup|nodup| |left; reflexivity|right; left; reflexivity|right; left; reflexivity|left; reflexivity|]; [nodup|].
      eexists. split; [apply Permutation_refl|]. constructor; [|constructor]. split; [reflexivity|]. apply same_map; [exact two_distinct|apply Permutation_rev].
    + right. do 2 eexists. split; [right; right; left; reflexivity|]. split; [left; reflexivity|]. constructor; [|constructor].
      eapply same_entry_args with (name := lit "stop_words"); [nodup|nodup| |left; reflexivity|right; left; reflexivity|right; left; reflexivity|left; reflexivity|]; [nodup|].
      eexists. split; [apply Permutation_refl|]. constructor; [|constructor]. split; [reflexivity|]. apply same_set. intros x. cbn [In]. tauto.
  - do 2 eexists. split; [vm_compute; reflexivity|]. split; [vm_compute; reflexivity|]. split; [discriminate|]. split; vm_compute; reflexivity.
Qed.

(** C78 *)
Theorem C78_keeping_commutes : forall e d d' ts, by_details d \/ by_text d -> by_details d' \/ by_text d' -> Forall (fun tk => ft_details tk <> []) ts ->
  exists out, then_run e d d' ts = Ok out /\ then_run e d' d ts = Ok out.
Proof. exact keeping_commutes. Qed.
Print Assumptions C78_keeping_commutes.
Theorem C78_keeping_again : forall e d ts out, by_details d \/ by_text d -> Forall (fun tk => ft_details tk <> []) ts ->
  run_token_filter e d ts = Ok out -> run_token_filter e d out = Ok out.
Proof. exact keeping_again. Qed.
Print Assumptions C78_keeping_again.
Theorem C78_keep_and_stop : forall e d d' ts, opposite d d' -> Forall (fun tk => ft_details tk <> []) ts ->
  (exists P a b, run_token_filter e d ts = Ok a /\ run_token_filter e d' ts = Ok b /\
     a = filter P ts /\ b = filter (fun tk => negb (P tk)) ts /\ Permutation ts (a ++ b)) /\
  then_run e d d' ts = Ok [] /\ then_run e d' d ts = Ok [].
Proof. exact keeping_opposite. Qed.
Print Assumptions C78_keep_and_stop.
Theorem C78_merged : forall e d d' m ts, merged d d' m -> Forall (fun tk => ft_details tk <> []) ts ->
  exists out, then_run e d d' ts = Ok out /\ run_token_filter e m ts = Ok out.
Proof. exact keeping_merged. Qed.
Print Assumptions C78_merged.
(* tags may be filtered before the texts change; the other way round may panic at a token that is dropped *)
Theorem C78_tags_first : forall e r d ts out, rewrites r -> by_details d -> Forall (fun tk => ft_details tk <> []) ts ->
  then_run e r d ts = Ok out -> then_run e d r ts = Ok out.
Proof. exact rewriting_commutes. Qed.
Print Assumptions C78_tags_first.
Theorem C78_forms_again : forall e d ts out, shows_detail d -> run_token_filter e d ts = Ok out -> run_token_filter e d out = Ok out.
Proof. exact showing_again. Qed.
Print Assumptions C78_forms_again.
Theorem C78_last_form : forall e r d ts out, rewrites r -> shows_detail d -> Forall (fun tk => hd [] (ft_details tk) <> lit "UNK") ts ->
  then_run e r d ts = Ok out -> run_token_filter e d ts = Ok out.
Proof. exact showing_last. Qed.
Print Assumptions C78_last_form.

Definition word (text : string) (tags : list string) (base reading : string) : ftoken :=
  FToken (lit text) 0 1 0 1 (WordId 7 true) (map lit tags ++ [lit "*"; lit "*"] ++ [lit base; lit reading; lit "x"]).
Definition runs : ftoken := word "ran" ["V"; "a"; "b"; "c"] "run" "RAN".
Definition cats : ftoken := word "cats" ["N"; "a"; "b"; "c"] "cat" "CATS".
Example C78_ex :
  then_run sample_env (TFKeepTags [lit "V,a,b,c"]) (TFLength (Some 3%N) None) [runs; cats] = Ok [runs] /\
  run_token_filter sample_env (TFStopTags [lit "V,a,b,c"]) [runs; cats] = Ok [cats] /\
  then_run sample_env (TFReadingForm IPADIC) (TFBaseForm IPADIC) [runs; cats] = Ok [set_ft_text runs (lit "run"); set_ft_text cats (lit "cat")] /\
  merged (TFKeepWords [lit "a"; lit "b"]) (TFKeepWords [lit "b"; lit "c"]) (TFKeepWords [lit "b"]).
Proof.
  split; [vm_compute; reflexivity|]. split; [vm_compute; reflexivity|]. split; [vm_compute; reflexivity|]. constructor. intros x. split.
  - intros [<-|[]]. split; [right; left; reflexivity|left; reflexivity].
  - intros [[<-|[<-|[]]] [H|[H|[]]]]; try discriminate H; left; reflexivity.
Qed.
(* the order matters between words and texts, after an unknown word, and where a dropped token would panic; stems can shrink twice *)
Example C78_order_matters :
  then_run sample_env (TFStopWords [lit "ran"]) TFUppercase [runs] = Ok [] /\
  then_run sample_env TFUppercase (TFStopWords [lit "ran"]) [runs] = Ok [set_ft_text runs (lit "RAN")] /\
  (let u := FToken (lit "z") 0 1 0 1 (WordId 7 true) [lit "UNK"] in
   then_run sample_env TFUppercase (TFBaseForm IPADIC) [u] = Ok [set_ft_text u (lit "Z")] /\ run_token_filter sample_env (TFBaseForm IPADIC) [u] = Ok [u]) /\
  (let n := FToken [0x5341; 0x767E]%N 0 1 0 1 (WordId 7 true) [lit "N"; lit "a"; lit "b"; lit "c"] in
   then_run sample_env (TFStopTags [lit "N,a,b,c"]) (TFNumber None) [n] = Ok [] /\ then_run sample_env (TFNumber None) (TFStopTags [lit "N,a,b,c"]) [n] = Panic) /\
  (let a := [0x30A2; 0x30A2; 0x30A2; 0x30FC; 0x30FC]%N in
   stem (fun _ => Some KATAKANA) 3 a = Ok [0x30A2; 0x30A2; 0x30A2; 0x30FC]%N /\ stem (fun _ => Some KATAKANA) 3 [0x30A2; 0x30A2; 0x30A2; 0x30FC]%N = Ok [0x30A2; 0x30A2; 0x30A2]%N).
Proof. repeat match goal with |- _ /\ _ => split | |- let _ := _ in _ => cbv zeta end; vm_compute; reflexivity. Qed.
