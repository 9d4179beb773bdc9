(** C98 and C99 for analyzers. *)
From Coq Require Import String.
From Coq Require Import List NArith ZArith Bool Lia.
From Verif Require Import MBase MUtf8 MText MCodec MDict MCharDef MUnk MLattice MTokenizer MDetails MCharFilter MAnalyzer MTokenFilter MConfig MLattice32 MDebug MAnalyzer32.
From Verif Require Import STok SWork SCast SDebug SFrame LUtf8 LTok LCast LDebug XSample XCast XConfig.
Import ListNotations.
Local Open Scope list_scope.

(** C98: what the character filters make of the text has sentences that fit: the analyzer gives the same with 32-bit numbers. *)
Theorem C98_analyze : forall e cfs t tfs A text, represents t A ->
  (forall n, filtered e cfs text n -> valid_str n /\ exists ss, sentences n ss /\ Forall (fits_u32 A) ss) ->
  analyze32 (analyzer_of e (AnalyzerDef cfs t tfs)) text = analyze (analyzer_of e (AnalyzerDef cfs t tfs)) text.
Proof.
  intros e cfs t tfs A text R H. unfold analyze32, analyze, analyzer_of. cbn [an_char_filters an_tokenizer ad_char_filters ad_tokenizer ad_token_filters].
  destruct (apply_char_filters _ text []) as [[[n vecs]|k|]|] eqn:E; try reflexivity. destruct (H n (ex_intro _ vecs E)) as (V & ss & S & F).
  rewrite (same_tokens t A R n ss V S F). reflexivity.
Qed.
Print Assumptions C98_analyze.

(** C99: a debug build of the analyzer panics or gives what the release build gives. *)
Theorem C99_analyze_panics_or_agrees : forall a text, analyze_debug a text = Some Panic \/ analyze_debug a text = analyze32 a text.
Proof.
  intros a text. unfold analyze_debug, analyze32. destruct (apply_char_filters _ text []) as [[[n vecs]|k|]|]; auto.
  destruct (panics_or_agrees (an_tokenizer a) n) as [-> | ->]; auto.
Qed.
Print Assumptions C99_analyze_panics_or_agrees.

Theorem C99_analyze : forall e cfs t tfs A text, represents t A -> small_matrix (d_matrix (t_dictionary t)) A ->
  (forall n, filtered e cfs text n -> valid_str n /\ exists ss, sentences n ss /\ Forall (fits_i32 (t_mode t)) ss /\ Forall (fits_u32 A) ss) ->
  analyze_debug (analyzer_of e (AnalyzerDef cfs t tfs)) text = analyze (analyzer_of e (AnalyzerDef cfs t tfs)) text.
Proof.
  intros e cfs t tfs A text R SM H. unfold analyze_debug, analyze, analyzer_of. cbn [an_char_filters an_tokenizer ad_char_filters ad_tokenizer ad_token_filters].
  destruct (apply_char_filters _ text []) as [[[n vecs]|k|]|] eqn:E; try reflexivity. destruct (H n (ex_intro _ vecs E)) as (V & ss & S & F1 & F2).
  rewrite (proj1 (all_agree t A R SM n ss V S F1 F2)). reflexivity.
Qed.
Print Assumptions C99_analyze.
Example C99_analyze_ex : let t := sample (Decompose default_penalty) [sample_unk] in let A := sample_meaning [sample_unk] in
  let a := AnalyzerDef [CFIteration (IterationConfig true true)] t [TFLength (Some 2%N) None] in let n := lit "zq" ++ [10%N] ++ lit "z" in
  represents t A /\ small_matrix (d_matrix (t_dictionary t)) A /\ filtered sample_env (ad_char_filters a) n n /\ sentences n [lit "zq" ++ [10%N]; lit "z"] /\
  Forall (fits_i32 (t_mode t)) [lit "zq" ++ [10%N]; lit "z"] /\ Forall (fits_u32 A) [lit "zq" ++ [10%N]; lit "z"] /\
  exists ts, analyze_debug (analyzer_of sample_env a) n = Some (Ok ts) /\ map (fun tk => (ft_text tk, ft_details tk)) ts = [(lit "zq" ++ [10%N], [lit "UNK"])].
Proof.
  cbv zeta. split; [exact (sample_represents _ _ sample_unk_ok)|]. split; [vm_compute; congruence|]. split; [eexists; vm_compute; reflexivity|]. split; [exact (split_sentences (lit "zq" ++ [10%N] ++ lit "z"))|].
  split; [repeat constructor; vm_compute; reflexivity|]. split; [repeat constructor; vm_compute; congruence|].
  eexists. split; vm_compute; reflexivity.
Qed.
