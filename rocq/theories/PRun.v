(** Property theorems about configured filters at work: C53 - C55, C66. *)
From Coq Require Import String.
From Coq Require Import List NArith ZArith Bool Lia.
From Verif Require Import MBase MUtf8 MText MCodec MDict MCharDef MUnk MLattice MTokenizer MDetails MBincode MBuild MCharFilter MAnalyzer MTokenFilter
  MConfig STok SCharFilter SAnalyzer STokenFilter SConfig SRun LRun LOrder XSample XConfig.
Import ListNotations.
Local Open Scope string_scope.
Local Open Scope list_scope.

(** C53 *)
Theorem C53_token_filters : forall e name fs d ts, NoDup (map fst fs) -> load_token_filter name (VObj fs) = Ok d -> tokens_suit e name fs ts ->
  exists out, run_token_filter e d ts = Ok out /\ token_filter_effect e name fs ts out.
Proof. exact token_filter_runs. Qed.
Print Assumptions C53_token_filters.
(* words of at least two characters *)
Example C53_ex : let fs := [(lit "min", VInt 2)] in let tk s := FToken (lit s) 0 2 0 1 (WordId 0 true) [lit "UNK"] in
  NoDup (map fst fs) /\ load_token_filter (lit "length") (VObj fs) = Ok (TFLength (Some 2%N) None) /\
  tokens_suit sample_env (lit "length") fs [tk "a"; tk "ab"] /\
  run_token_filter sample_env (TFLength (Some 2%N) None) [tk "a"; tk "ab"] = Ok [tk "ab"].
Proof.
  cbn zeta. split; [repeat constructor; intros []|]. split; [vm_compute; reflexivity|]. split; [|vm_compute; reflexivity].
  constructor; try (intros E; vm_compute in E; discriminate E). repeat constructor; try discriminate; vm_compute; intuition congruence.
Qed.

(** C54 *)
Theorem C54_char_filters : forall e name fs d text, NoDup (map fst fs) -> load_char_filter e name (VObj fs) = Ok d -> text_suits e name fs text ->
  exists out segs, char_filter_effect e name fs text out segs /\ filter_records (run_char_filter e d) text out segs.
Proof. exact char_filter_runs. Qed.
Print Assumptions C54_char_filters.
Example C54_ex : let fs := [(lit "kind", VStr (lit "nfc"))] in
  NoDup (map fst fs) /\ load_char_filter sample_env (lit "unicode_normalize") (VObj fs) = Ok (CFNormalize NFC) /\
  text_suits sample_env (lit "unicode_normalize") fs (lit "zz").
Proof. cbn zeta. split; [repeat constructor; intros []|]. split; [vm_compute; reflexivity|]. exact normalize_suits. Qed.

(** C55 *)
Theorem C55_analyzer : forall e t A cs cds tfs tds text, represents t A ->
  Forall2 (fun '(name, fs) d => NoDup (map fst fs) /\ load_char_filter e name (VObj fs) = Ok d) cs cds ->
  Forall2 (fun '(name, fs) d => NoDup (map fst fs) /\ load_token_filter name (VObj fs) = Ok d) tfs tds ->
  texts_suit e cs text ->
  (forall out segss, text_chain e cs text out segss -> valid_str out /\ covered A out /\
    forall tmp, tokenize t out = Some (Ok tmp) -> exists tokens, mapM (analyzed_token t) tmp = Ok tokens /\ all_tokens_suit e tfs tokens) ->
  exists out segss tmp tokens tokens', text_chain e cs text out segss /\
    tokenize t out = Some (Ok tmp) /\ mapM (analyzed_token t) tmp = Ok tokens /\ token_chain e tfs tokens tokens' /\
    analyze (analyzer_of e (AnalyzerDef cds t tds)) text = Some (Ok (map (fun tk =>
      with_offsets tk (undone segss (N.to_nat (ft_start tk))) (undone segss (N.to_nat (ft_end tk)))) tokens')).
Proof. exact configured_analyzer. Qed.
Print Assumptions C55_analyzer.
Example C55_ex : let t := sample Normal [sample_unk] in
  let cs := [(lit "unicode_normalize", [(lit "kind", VStr (lit "nfc"))])] in let tfs := [(lit "uppercase", []); (lit "length", [(lit "min", VInt 2)])] in
  represents t (sample_meaning [sample_unk]) /\ texts_suit sample_env cs (lit "zz") /\
  (forall out segss, text_chain sample_env cs (lit "zz") out segss -> valid_str out /\ covered (sample_meaning [sample_unk]) out /\
    forall tmp, tokenize t out = Some (Ok tmp) -> exists tokens, mapM (analyzed_token t) tmp = Ok tokens /\ all_tokens_suit sample_env tfs tokens).
Proof. exact analyzer_suits. Qed.

Theorem C55_stops : forall t tfs fs text mid, texts_given fs text mid ->
  (forall f more r out, f mid = Some r -> same_failure r out -> analyze (Analyzer (fs ++ f :: more) t tfs) text = Some out) /\
  (forall r out, tokenize t mid = Some r -> same_failure r out -> analyze (Analyzer fs t tfs) text = Some out) /\
  (forall tmp, tokenize t mid = Some (Ok tmp) ->
     (forall out, same_failure (mapM (analyzed_token t) tmp) out -> analyze (Analyzer fs t tfs) text = Some out) /\
     (forall tokens tokens' f more out, mapM (analyzed_token t) tmp = Ok tokens -> tokens_given tfs tokens tokens' -> same_failure (f tokens') out ->
        analyze (Analyzer fs t (tfs ++ f :: more)) text = Some out)).
Proof.
  exact (fun t tfs fs text mid G => conj (fun f more r out E F => analyze_stops_text t tfs fs f more text mid r G E out F)
    (conj (fun r out E F => analyze_stops_search t tfs fs text mid r G E out F)
      (fun tmp E => conj (fun out F => analyze_stops_details t tfs fs text mid tmp G E out F)
        (fun tokens tokens' f more out M T F => analyze_stops_tokens t tfs f more fs text mid tmp tokens tokens' G E M T out F)))).
Qed.
Print Assumptions C55_stops.
(* the second token filter panics *)
Example C55_stops_ex : let t := sample Normal [sample_unk] in
  texts_given [] (lit "zz") (lit "zz") /\ tokens_given [Ok (A:=list ftoken)] [] [] /\
  analyze (Analyzer [] t [Ok (A:=list ftoken); fun _ => Panic; fun _ => Err EIo]) (lit "zz") = Some Panic /\
  analyze (Analyzer [fun _ => Some Panic; fun _ => Some (Err EIo)] t []) (lit "zz") = Some Panic /\
  analyze (Analyzer [fun _ => Some (Err EIo); fun _ => Some Panic] t [fun _ => Panic]) (lit "zz") = Some (Err EIo).
Proof. cbv zeta. split; [constructor|]. split; [econstructor; [reflexivity|constructor]|]. repeat split; vm_compute; reflexivity. Qed.

(** C66 *)
Theorem C66_in_order : forall e t A fs tds text out segss tokens, represents t A -> valid_str out -> filtered fs text out segss ->
  analyze (Analyzer fs t (map (run_token_filter e) tds)) text = Some (Ok tokens) -> in_order 0 0 (N.of_nat (blen text)) tokens.
Proof. exact analyze_order. Qed.
Print Assumptions C66_in_order.
Theorem C66_nothing_lost : forall e t A fs tds text out segss tokens, represents t A -> valid_str out -> covered A out -> filtered fs text out segss ->
  Forall (fun d => removes d = false) tds ->
  analyze (Analyzer fs t (map (run_token_filter e) tds)) text = Some (Ok tokens) ->
  side_by_side (N.of_nat (undone segss 0)) (N.of_nat (blen text)) tokens /\
  exists tmp, tokenize t out = Some (Ok tmp) /\ in_a_row 0 (List.length tmp) tokens.
Proof. exact analyze_row. Qed.
Print Assumptions C66_nothing_lost.
Example C66_ex : exists f c, mapping_new [(lit "q", lit "xx")] = Ok f /\ compound_config_new IPADIC [lit "UNK"] None = Ok c /\
  let t := sample Normal [sample_unk] in
  represents t (sample_meaning [sample_unk]) /\ valid_str order_out /\ covered (sample_meaning [sample_unk]) order_out /\
  filtered [mapping_apply f] order_text order_out order_segments /\
  analyze (Analyzer [mapping_apply f] t (map (run_token_filter sample_env) [TFLength None (Some 2%N); TFUppercase])) order_text =
    Some (Ok [FToken (lit "Z") 5 6 2 1 (WordId u32_max true) [lit "UNK"]]) /\
  analyze (Analyzer [mapping_apply f] t (map (run_token_filter sample_env) [TFCompound c; TFUppercase])) order_text =
    Some (Ok [FToken (map upper_char order_out) 0 6 0 3 (WordId u32_max true) (compound_details IPADIC)]).
Proof. exact order_runs. Qed.
