(** C109 for analyzers: the same tokens in a debug build. *)
From Coq Require Import String.
From Coq Require Import List NArith ZArith Bool Lia.
From Verif Require Import MBase MUtf8 MText MCodec MDict MCharDef MUnk MLattice MTokenizer MDetails MCharFilter MAnalyzer MTokenFilter MConfig MLattice32 MDebug MOffset64 MAnalyzer64.
From Verif Require Import STok SCharFilter SAnalyzer STokenFilter SConfig SRun SWork SCast SDebug LUtf8 LTok LCast LDebug LRun LAnalyzer64 XSample XCast XConfig.
Import ListNotations.
Local Open Scope list_scope.

(** C109: with overflow checks in the search, in the character filters and in the correction of offsets, a configured analyzer
    whose filters suit the text returns what it returns without them. *)
Theorem C109_analyze : forall e t A cs cds tfs tds text, represents t A -> small_matrix (d_matrix (t_dictionary t)) A ->
  Forall2 (fun '(name, fs) d => NoDup (map fst fs) /\ load_char_filter e name (VObj fs) = Ok d) cs cds ->
  Forall2 (fun '(name, fs) d => NoDup (map fst fs) /\ load_token_filter name (VObj fs) = Ok d) tfs tds ->
  texts_suit e cs text ->
  (forall out segss, text_chain e cs text out segss -> valid_str out /\ covered A out /\
    (exists ss, sentences out ss /\ Forall (fits_i32 (t_mode t)) ss /\ Forall (fits_u32 A) ss) /\
    forall tmp, tokenize t out = Some (Ok tmp) -> exists tokens, mapM (analyzed_token t) tmp = Ok tokens /\ all_tokens_suit e tfs tokens) ->
  exists ts, analyze (analyzer_of e (AnalyzerDef cds t tds)) text = Some (Ok ts) /\ analyze_checked e (AnalyzerDef cds t tds) text = Some (Ok ts).
Proof. exact analyzer_checked. Qed.
Print Assumptions C109_analyze.

Example C109_analyze_ex : let t := sample Normal [sample_unk] in let A := sample_meaning [sample_unk] in
  let cs := [(lit "unicode_normalize", [(lit "kind", VStr (lit "nfc"))])] in let tfs := [(lit "uppercase", []); (lit "length", [(lit "min", VInt 2)])] in
  represents t A /\ small_matrix (d_matrix (t_dictionary t)) A /\ texts_suit sample_env cs (lit "zz") /\
  (forall out segss, text_chain sample_env cs (lit "zz") out segss -> valid_str out /\ covered A out /\
    (exists ss, sentences out ss /\ Forall (fits_i32 (t_mode t)) ss /\ Forall (fits_u32 A) ss) /\
    forall tmp, tokenize t out = Some (Ok tmp) -> exists tokens, mapM (analyzed_token t) tmp = Ok tokens /\ all_tokens_suit sample_env tfs tokens).
Proof.
  cbv zeta. destruct analyzer_suits as (R & S & H). split; [exact R|]. split; [vm_compute; congruence|]. split; [exact S|].
  intros out segss C. destruct (H out segss C) as (V & CO & TS). split; [exact V|]. split; [exact CO|]. split; [|exact TS].
  inversion C as [|? ? ? ? mid ? ? ? X Y]; subst. inversion Y; subst. apply normalize_same in X; [|reflexivity]. subst.
  exists [lit "zz"]. split; [exact (split_sentences (lit "zz"))|]. split; repeat constructor; vm_compute; congruence.
Qed.

(* two filters that change lengths: "y" to "zzz", then every "q" away *)
Example C109_analyze_offsets_ex : let t := sample Normal [sample_unk] in
  exists f, mapping_new [(lit "y", lit "zzz")] = Ok f /\
  let rx := Regex (fun text => if str_eqb text (lit "qzzz") then [(0, 1)] else []) (fun _ _ r => r) in
  let a := AnalyzerDef [CFMapping f; CFRegex rx []] t [] in
  exists ts, analyze_checked sample_env a (lit "qy") = Some (Ok ts) /\ analyze (analyzer_of sample_env a) (lit "qy") = Some (Ok ts) /\
  map (fun tk => (ft_text tk, ft_start tk, ft_end tk)) ts = [(lit "zzz", 1%N, 2%N)].
Proof. cbv zeta. eexists. split; [vm_compute; reflexivity|]. eexists. repeat match goal with |- _ /\ _ => split end; vm_compute; reflexivity. Qed.
