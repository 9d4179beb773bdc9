(** Property C91: when the mode does not matter. *)
From Coq Require Import String List NArith ZArith Bool Lia ZifyBool ZifyNat ZifyN.
From Verif Require Import MBase MUtf8 MText MCodec MDict MCharDef MUnk MLattice MTokenizer MCharFilter MAnalyzer MConfig STok SFrame SModes LModes XSample XMore XConfig.
Import ListNotations.
Local Open Scope string_scope.
Local Open Scope list_scope.

Theorem C91_modes : forall m m' d u text, same_penalties m m' text -> is_search m = is_search m' \/ single_unknown (d_chardef d) text ->
  tokenize (Tokenizer d u m) text = tokenize (Tokenizer d u m') text.
Proof. intros m m' d u text H1 H2. exact (tokenize_modes m m' text (d_chardef d) H2 H1 d u eq_refl). Qed.
Print Assumptions C91_modes.
(* two decompose modes with the same penalties for the pieces of the text *)
Theorem C91_decompose : forall p p' d u text, same_penalties (Decompose p) (Decompose p') text ->
  tokenize (Tokenizer d u (Decompose p)) text = tokenize (Tokenizer d u (Decompose p')) text.
Proof. intros p p' d u text H. exact (C91_modes _ _ d u text H (or_introl eq_refl)). Qed.
Print Assumptions C91_decompose.
(* a text no longer than the threshold *)
Theorem C91_short : forall p d u text, (N.of_nat (blen text / 3) <= kanji_threshold p)%N -> single_unknown (d_chardef d) text ->
  tokenize (Tokenizer d u Normal) text = tokenize (Tokenizer d u (Decompose p)) text.
Proof. intros p d u text H1 H2. exact (C91_modes _ _ d u text (penalties_short p text H1) (or_intror H2)). Qed.
Print Assumptions C91_short.
(* penalties of zero *)
Theorem C91_zero : forall p d u text, kanji_penalty p = 0%Z -> other_penalty p = 0%Z -> single_unknown (d_chardef d) text ->
  tokenize (Tokenizer d u Normal) text = tokenize (Tokenizer d u (Decompose p)) text.
Proof. intros p d u text H1 H2 H3. exact (C91_modes _ _ d u text (penalties_zero p text H1 H2) (or_intror H3)). Qed.
Print Assumptions C91_zero.
Theorem C91_analyze : forall e cfs tfs m m' d u text,
  (forall n, filtered e cfs text n -> same_penalties m m' n /\ (is_search m = is_search m' \/ single_unknown (d_chardef d) n)) ->
  analyze (analyzer_of e (AnalyzerDef cfs (Tokenizer d u m) tfs)) text = analyze (analyzer_of e (AnalyzerDef cfs (Tokenizer d u m') tfs)) text.
Proof. exact analyze_modes. Qed.
Print Assumptions C91_analyze.

(* with runs of unknown characters the modes differ, even with penalties of zero *)
Theorem C91_grouping_matters : exists d u p text, kanji_penalty p = 0%Z /\ other_penalty p = 0%Z /\ same_penalties Normal (Decompose p) text /\
  (N.of_nat (blen text / 3) <= kanji_threshold p)%N /\
  tokenize (Tokenizer d u Normal) text <> tokenize (Tokenizer d u (Decompose p)) text.
Proof.
  exists (t_dictionary (small true Normal)), (t_user (small true Normal)), (Penalty 2 0 7 0), (lit "abcd"). split; [reflexivity|]. split; [reflexivity|].
  split; [apply penalties_zero; reflexivity|]. split; [vm_compute; discriminate|]. vm_compute. discriminate.
Qed.
Print Assumptions C91_grouping_matters.

(* every character in one category, whose unknown words are single characters *)
Definition one_by_one : char_definitions := CharDefinitions [CategoryData true false 0] [lit "DEFAULT"] (LookupTable [0%N] [[0%nat]]).
Definition one_dict : dictionary := Dictionary small_dict (ConnMatrix (i16_bytes 3) 1) one_by_one (UnknownDictionary [[0%N]] [sample_unk]) [] [].
Example C91_ex : single_unknown one_by_one (lit "abcdabcab") /\ same_penalties Normal (Decompose (Penalty 3 3000 7 1700)) (lit "abcdabcab") /\
  ~ same_penalties Normal (Decompose (Penalty 0 3000 0 1700)) (lit "abcdabcab") /\
  option_map (fun r => match r with Ok ts => map tk_text ts | _ => [] end) (tokenize (Tokenizer one_dict (Some small_user) (Decompose (Penalty 3 3000 7 1700))) (lit "abcdabcab")) =
    Some [lit "abc"; lit "d"; lit "abc"; lit "a"; lit "b"] /\
  option_map (fun r => match r with Ok ts => map tk_text ts | _ => [] end) (tokenize (Tokenizer one_dict (Some small_user) (Decompose (Penalty 0 3000 0 1700))) (lit "abcdabcab")) <>
    Some [lit "abc"; lit "d"; lit "abc"; lit "a"; lit "b"].
Proof.
  split.
  { intros a c rest _ cats ord k data H1 H2 H3. left. unfold lookup_definition in H3. cbn [one_by_one cds_definitions] in H3.
    destruct k as [|[|k]]; cbn in H3; inversion H3; reflexivity. }
  split; [apply penalties_short; vm_compute; discriminate|]. split.
  { intros H. specialize (H (lit "abc")). cut (0 = 1700)%Z; [discriminate|]. apply H. exists [], (lit "dabcab"). reflexivity. }
  split; vm_compute; [reflexivity|discriminate].
Qed.
