(** C109 for any chain of character filters: empty matches, any mapping and iteration marks included. *)
From Coq Require Import String.
From Coq Require Import List NArith ZArith Bool Lia.
From Verif Require Import MBase MUtf8 MText MCodec MDict MCharDef MUnk MLattice MTokenizer MDetails MCharFilter MAnalyzer MTokenFilter MConfig MLattice32 MDebug MOffset64 MAnalyzer64.
From Verif Require Import STok SCharFilter SAnalyzer STokenFilter SConfig SRun SWork SCast SDebug SChain64 LUtf8 LTok LCast LDebug LRun LChain64 XSample XCast XConfig.
Import ListNotations.
Local Open Scope list_scope.

(** C109: when the texts before, between and after the character filters have fewer than 2^62 bytes together, the analyzer returns
    the same with the overflow checks and without, whatever the token filters do, errors and panics included. *)
Theorem C109_any_chain : forall e t A cds tds text out n, represents t A -> small_matrix (d_matrix (t_dictionary t)) A ->
  staged e cds text out n -> (2 * Z.of_nat n < 9223372036854775808)%Z -> valid_str out ->
  (exists ss, sentences out ss /\ Forall (fits_i32 (t_mode t)) ss /\ Forall (fits_u32 A) ss) ->
  analyze_checked e (AnalyzerDef cds t tds) text = analyze (analyzer_of e (AnalyzerDef cds t tds)) text.
Proof. exact chain_analyzed. Qed.
Print Assumptions C109_any_chain.

(* an empty match in front of "zz" becomes "z": no segment of the input is behind it, and the first token starts before the text *)
Definition before_all : regex := Regex (fun _ => [(0, 0)]) (fun _ _ r => r).

Example C109_any_chain_ex : let t := sample Normal [sample_unk] in let A := sample_meaning [sample_unk] in
  represents t A /\ small_matrix (d_matrix (t_dictionary t)) A /\ staged sample_env [CFRegex before_all (lit "z")] (lit "zz") (lit "zzz") 5 /\
  valid_str (lit "zzz") /\ exists ss, sentences (lit "zzz") ss /\ Forall (fits_i32 (t_mode t)) ss /\ Forall (fits_u32 A) ss.
Proof.
  cbv zeta. destruct analyzer_suits as (R & _ & _). split; [exact R|]. split; [vm_compute; congruence|]. split; [|split].
  - apply (staged_more sample_env (CFRegex before_all (lit "z")) [] (lit "zz") (lit "zzz") [0%N] [(-1)%Z] (lit "zzz") 3); [|vm_compute; reflexivity|].
    + split; [reflexivity|]. exists [([], [])], (lit "zz"). split; reflexivity.
    + exact (staged_none sample_env (lit "zzz")).
  - repeat constructor; vm_compute; congruence.
  - exists [lit "zzz"]. split; [exact (split_sentences (lit "zzz"))|]. split; repeat constructor; vm_compute; congruence.
Qed.

Example C109_any_chain_run_ex : let a := AnalyzerDef [CFRegex before_all (lit "z")] (sample Normal [sample_unk]) [] in
  exists ts, analyze_checked sample_env a (lit "zz") = Some (Ok ts) /\
    map (fun tk => (ft_text tk, ft_start tk, ft_end tk)) ts = [(lit "zzz", 18446744073709551615%N, 2%N)].
Proof. cbv zeta. eexists. split; vm_compute; reflexivity. Qed.
