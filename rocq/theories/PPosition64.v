(** C109 with the token filters: the sums of position lengths do not overflow. *)
From Coq Require Import String.
From Coq Require Import List NArith ZArith Bool Lia.
From Verif Require Import MBase MUtf8 MText MCodec MDict MCharDef MUnk MLattice MTokenizer MDetails MCharFilter MAnalyzer MTokenFilter MConfig MLattice32 MDebug MOffset64 MAnalyzer64 MPosition64.
From Verif Require Import STok SCharFilter SAnalyzer STokenFilter SConfig SRun SWork SCast SDebug SChain64 LUtf8 LTok LCast LDebug LRun LPosition64 PChain64 XSample XCast XConfig.
Import ListNotations.
Local Open Scope list_scope.

(** C109: also with the sum of position lengths in the compound word filter checked, the analyzer returns the same. *)
Theorem C109_position_lengths : forall e t A cds tds text out n, represents t A -> small_matrix (d_matrix (t_dictionary t)) A ->
  staged e cds text out n -> (2 * Z.of_nat n < 9223372036854775808)%Z -> valid_str out ->
  (exists ss, sentences out ss /\ Forall (fits_i32 (t_mode t)) ss /\ Forall (fits_u32 A) ss) ->
  analyze_all_checked e (AnalyzerDef cds t tds) text = analyze (analyzer_of e (AnalyzerDef cds t tds)) text.
Proof. exact all_analyzed. Qed.
Print Assumptions C109_position_lengths.

(** C109: any token filter gives the same in a debug build if the position lengths of the tokens add up to less than 2^64. *)
Theorem C109_token_filter : forall e d ts, (Z.of_nat (list_sum (map ft_position_length ts)) < 18446744073709551616)%Z ->
  run_token_filter_debug e d ts = run_token_filter e d ts.
Proof. exact token_filter_checked. Qed.
Print Assumptions C109_token_filter.

(** C109: the check is not idle: two tokens whose position lengths add up to 2^64 or more cannot be joined. *)
Theorem C109_join_panics : forall cfg t1 t2, (18446744073709551616 <= Z.of_nat (ft_position_length t1) + Z.of_nat (ft_position_length t2))%Z ->
  concat_token_debug cfg t1 t2 = Panic.
Proof. exact concat_overflow. Qed.
Print Assumptions C109_join_panics.

(* C109_any_chain_ex in PChain64.v shows that the hypotheses can be met.  Three words joined to one of length 3: *)
Example C109_position_lengths_ex :
  let tk s a b p := FToken (lit s) a b p 1 (WordId 0 true) [lit "x"] in
  let ts := [tk "a"%string 0%N 1%N 0; tk "b"%string 1%N 2%N 1; tk "c"%string 2%N 3%N 2] in
  let d := TFCompound (CompoundConfig MBuild.IPADIC [lit "x,*,*,*"] None) in
  exists out, run_token_filter_debug sample_env d ts = Ok out /\ map (fun t => (ft_text t, ft_position_length t)) out = [(lit "abc", 3)].
Proof. cbv zeta. eexists. split; vm_compute; reflexivity. Qed.

Example C109_join_panics_ex : exists t1 t2 : ftoken, (18446744073709551616 <= Z.of_nat (ft_position_length t1) + Z.of_nat (ft_position_length t2))%Z.
Proof.
  exists (FToken [] 0 0 0 (Z.to_nat 18446744073709551615) (WordId 0 true) []), (FToken [] 0 0 0 1 (WordId 0 true) []).
  cbn [ft_position_length]. rewrite Z2Nat.id by lia. lia.
Qed.
