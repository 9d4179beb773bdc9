(** Property C106: the analysis of two texts one after the other, with character filters. *)
From Coq Require Import String.
From Coq Require Import List NArith ZArith Bool Lia.
From Verif Require Import MBase MUtf8 MText MTokenizer MCharFilter MAnalyzer MTokenFilter MConfig STok SCharFilter SAnalyzer STokenFilter SApart SBeside
  LUtf8 LText LCharFilter LAnalyzer LFilterProps LBeside XSample XConfig PLocal PApart.
Import ListNotations.
Local Open Scope string_scope.
Local Open Scope list_scope.

Theorem C106_cut : forall e t A cfs u v a c out_v gu gv tds out, represents t A -> filtered_beside (map (run_char_filter e) cfs) u v (a ++ [c]) out_v ->
  valid_str ((a ++ [c]) ++ out_v) -> delimiter c -> covered A ((a ++ [c]) ++ out_v) ->
  analyze (analyzer_of e (AnalyzerDef cfs t [])) u = Some (Ok gu) -> analyze (analyzer_of e (AnalyzerDef cfs t [])) v = Some (Ok gv) -> kept_apart e tds gu gv ->
  (analyze (analyzer_of e (AnalyzerDef cfs t tds)) (u ++ v) = Some (Ok out) <->
   exists o1 o2, analyze (analyzer_of e (AnalyzerDef cfs t tds)) u = Some (Ok o1) /\ analyze (analyzer_of e (AnalyzerDef cfs t tds)) v = Some (Ok o2) /\
     out = o1 ++ map (put_behind (N.of_nat (blen u)) (List.length gu)) o2).
Proof. exact analyze_beside. Qed.
Print Assumptions C106_cut.

(* the condition on the filters, for each kind of filter *)
Theorem C106_mapping : forall m f u v out_u out_v su sv, mapping_keys_ok m -> mapping_new m = Ok f -> valid_str (u ++ v) -> replaced m u out_u su -> replaced m v out_v sv ->
  no_key_across m u v -> (forall k value rest, In (k, value) m -> v = k ++ rest -> value <> []) -> fits_isize (blen (u ++ v)) -> fits_isize (blen (out_u ++ out_v)) ->
  filtered_beside [mapping_apply f] u v out_u out_v.
Proof. exact mapping_beside. Qed.
Print Assumptions C106_mapping.
Theorem C106_normalize : forall graphemes form u v, concat (graphemes u) = u -> concat (graphemes v) = v -> Forall (fun g => g <> []) (graphemes u ++ graphemes v) ->
  graphemes (u ++ v) = graphemes u ++ graphemes v -> (forall g, In g (graphemes v) -> form g <> []) ->
  fits_isize (blen (u ++ v)) -> fits_isize (blen (flat_map form (graphemes u ++ graphemes v))) ->
  filtered_beside [fun t => Some (Ok (normalize_apply graphemes form t))] u v (flat_map form (graphemes u)) (flat_map form (graphemes v)).
Proof. exact normalize_beside. Qed.
Print Assumptions C106_normalize.
Theorem C106_lengths : forall (f : char_filter) u v out_u out_v, u <> [] -> v <> [] -> f u = Some (Ok (out_u, [], [])) -> f v = Some (Ok (out_v, [], [])) ->
  f (u ++ v) = Some (Ok (out_u ++ out_v, [], [])) -> blen out_u = blen u -> blen out_v = blen v -> filtered_beside [f] u v out_u out_v.
Proof. exact lengths_beside. Qed.
Print Assumptions C106_lengths.
Theorem C106_marks : forall cfg u v, u <> [] -> v <> [] -> repeats_three_bytes (ic_kanji cfg) (ic_kana cfg) u -> repeats_three_bytes (ic_kanji cfg) (ic_kana cfg) v ->
  marks_inside (ic_kanji cfg) (ic_kana cfg) v -> exists out_u out_v, marks_expanded (ic_kanji cfg) (ic_kana cfg) u out_u /\ marks_expanded (ic_kanji cfg) (ic_kana cfg) v out_v /\
    filtered_beside [fun t => Some (iteration_apply cfg t)] u v out_u out_v.
Proof. exact marks_beside. Qed.
Print Assumptions C106_marks.
Theorem C106_regex : forall rx r ps tail qs tail', let u := whole ps tail in let v := whole qs tail' in has_dollar r = false ->
  rx_find_iter rx u = match_spans 0 ps -> rx_find_iter rx v = match_spans 0 qs -> rx_find_iter rx (u ++ v) = rx_find_iter rx u ++ spans_behind (blen u) (rx_find_iter rx v) ->
  (Forall (fun '(_, m) => m <> []) ps /\ Forall (fun '(_, m) => m <> []) qs /\ r <> [] \/ r = [] /\ match qs with (gap, m) :: _ => gap <> [] | [] => True end) ->
  fits_isize (blen (u ++ v)) -> fits_isize (blen (with_replaced r ps tail ++ with_replaced r qs tail')) ->
  filtered_beside [fun t => Some (regex_apply rx r t)] u v (with_replaced r ps tail) (with_replaced r qs tail').
Proof. exact regex_beside. Qed.
Print Assumptions C106_regex.
Theorem C106_chain : forall fs gs u v mu mv ou ov, filtered_beside fs u v mu mv -> filtered_beside gs mu mv ou ov -> filtered_beside (fs ++ gs) u v ou ov.
Proof. exact beside_app. Qed.
Print Assumptions C106_chain.

Definition beside_mapping (m : list (str * str)) : list char_filter_def := match mapping_new m with Ok f => [CFMapping f] | _ => [] end.
Definition beside_seen (m : list (str * str)) (tds : list token_filter_def) (text : str) : option (res (list (str * nat * nat * nat))) :=
  match analyze (analyzer_of sample_env (AnalyzerDef (beside_mapping m) apart_tokenizer tds)) text with
  | Some (Ok ts) => Some (Ok (map (fun tk => (ft_text tk, N.to_nat (ft_start tk), N.to_nat (ft_end tk), ft_position tk)) ts))
  | Some (Err k) => Some (Err k) | Some Panic => Some Panic | None => None
  end.
Definition longer : list (str * str) := [(lit "z", lit "qqq")].
Definition line (s : string) : str := lit s ++ [10%N].

Lemma validb_ok s : forallb valid_charb s = true -> valid_str s.
Proof. intros H. apply Forall_forall. intros c I. apply valid_charb_iff. rewrite forallb_forall in H. exact (H c I). Qed.
Ltac valid := apply validb_ok; vm_compute; reflexivity.
Lemma one_replaced z w text : replaced [([z], w)] text (flat_map (fun c => if (c =? z)%N then w else [c]) text) (map (fun c => (width c, blen (if (c =? z)%N then w else [c]))) text).
Proof.
  induction text as [|c text IH]; cbn [flat_map map]; [constructor|]. destruct (N.eqb_spec c z) as [->|N].
  - change (z :: text) with ([z] ++ text). replace (width z) with (blen [z]) by (cbn [blen]; lia). apply replaced_key; [left; reflexivity|discriminate| |exact IH].
    intros k v t [E|[]] _. injection E as <- <-. apply le_n.
  - cbn [blen app]. rewrite Nat.add_0_r. apply replaced_char; [|exact IH]. intros k v t [E|[]] X. injection E as <- <-. cbn in X. congruence.
Qed.
Lemma one_across z w u v : no_key_across [([z], w)] u v.
Proof.
  intros a b k value rest _ N [E|[]] X. injection E as <- <-. destruct b as [|c b]; [congruence|]. injection X as <- _. exists b. reflexivity.
Qed.

Example C106_ex : exists gu gv, represents apart_tokenizer (sample_meaning [sample_unk]) /\
  filtered_beside (map (run_char_filter sample_env) (beside_mapping longer)) (line "qz") (lit "zq") (lit "qqqq" ++ [10%N]) (lit "qqqq") /\
  valid_str ((lit "qqqq" ++ [10%N]) ++ lit "qqqq") /\ delimiter 10%N /\ covered (sample_meaning [sample_unk]) ((lit "qqqq" ++ [10%N]) ++ lit "qqqq") /\
  analyze (analyzer_of sample_env (AnalyzerDef (beside_mapping longer) apart_tokenizer [])) (line "qz") = Some (Ok gu) /\
  analyze (analyzer_of sample_env (AnalyzerDef (beside_mapping longer) apart_tokenizer [])) (lit "zq") = Some (Ok gv) /\ kept_apart sample_env [TFUppercase] gu gv /\
  beside_seen longer [TFUppercase] (line "qz") = Some (Ok [(line "QQQQ", 0, 3, 0)]) /\ beside_seen longer [TFUppercase] (lit "zq") = Some (Ok [(lit "QQQQ", 0, 2, 0)]) /\
  beside_seen longer [TFUppercase] (line "qz" ++ lit "zq") = Some (Ok [(line "QQQQ", 0, 3, 0); (lit "QQQQ", 3, 5, 1)]).
Proof.
  eexists. eexists. split; [exact (sample_represents _ _ sample_unk_ok)|]. split.
  { unfold beside_mapping. destruct (mapping_new longer) as [f|k|] eqn:F; [|vm_compute in F; discriminate F|vm_compute in F; discriminate F]. cbn [map run_char_filter].
    eapply (C106_mapping longer f (line "qz") (lit "zq")); [apply mapping_keys_okb_spec; vm_compute; reflexivity|exact F|valid|
      exact (one_replaced 122%N (lit "qqq") (line "qz"))|exact (one_replaced 122%N (lit "qqq") (lit "zq"))|apply one_across| |vm_compute; reflexivity|vm_compute; reflexivity].
    intros k value rest [E|[]] _. injection E as <- <-. discriminate. }
  split; [valid|]. split; [right; right; left; reflexivity|]. split; [apply sample_covered; discriminate|].
  split; [vm_compute; reflexivity|]. split; [vm_compute; reflexivity|]. split; [apply C105_no_compound; repeat constructor; discriminate|].
  repeat split; vm_compute; reflexivity.
Qed.

(** It is not enough that each text is filtered as it should be: the key "\nz" of a mapping lies across the place between the texts,
    and the two words become one *)
Definition across : list (str * str) := [(10%N :: lit "z", lit "q")].
Lemma across_kept text : (forall a rest, text = a ++ (10%N :: lit "z") ++ rest -> False) -> replaced across text text (map (fun c => (width c, width c)) text).
Proof.
  induction text as [|c text IH]; intros H; cbn [map]; [constructor|]. apply replaced_char.
  - intros k v t [E|[]] X. assert (K : 10%N :: lit "z" = k) by congruence. subst k. exact (H [] t X).
  - apply IH. intros a rest ->. exact (H (c :: a) rest eq_refl).
Qed.
Theorem C106_across_matters : ~ (forall e t A cfs u v a c out_v su sv gu gv tds out, represents t A ->
  filtered (map (run_char_filter e) cfs) u (a ++ [c]) su -> filtered (map (run_char_filter e) cfs) v out_v sv ->
  valid_str ((a ++ [c]) ++ out_v) -> delimiter c -> covered A ((a ++ [c]) ++ out_v) ->
  analyze (analyzer_of e (AnalyzerDef cfs t [])) u = Some (Ok gu) -> analyze (analyzer_of e (AnalyzerDef cfs t [])) v = Some (Ok gv) -> kept_apart e tds gu gv ->
  (analyze (analyzer_of e (AnalyzerDef cfs t tds)) (u ++ v) = Some (Ok out) <->
   exists o1 o2, analyze (analyzer_of e (AnalyzerDef cfs t tds)) u = Some (Ok o1) /\ analyze (analyzer_of e (AnalyzerDef cfs t tds)) v = Some (Ok o2) /\
     out = o1 ++ map (put_behind (N.of_nat (blen u)) (List.length gu)) o2)).
Proof.
  intros H. assert (FR : forall text, replaced across text text (map (fun c => (width c, width c)) text) -> valid_str text -> fits_isize (blen text) ->
    exists su, filtered (map (run_char_filter sample_env) (beside_mapping across)) text text su).
  { intros text R V L. exists [map (fun c => (width c, width c)) text]. unfold beside_mapping.
    destruct (mapping_new across) as [f|k|] eqn:F; [|vm_compute in F; discriminate F|vm_compute in F; discriminate F]. cbn [map run_char_filter].
    econstructor; [|constructor]. apply (mapping_records across f); try assumption. apply mapping_keys_okb_spec. vm_compute. reflexivity. }
  destruct (FR (line "q")) as (su & Fu); [|valid|vm_compute; reflexivity|].
  { apply across_kept. intros a rest E. destruct a as [|? [|? [|? a]]]; discriminate E. }
  destruct (FR (lit "z")) as (sv & Fv); [|valid|vm_compute; reflexivity|].
  { apply across_kept. intros a rest E. destruct a as [|? [|? a]]; discriminate E. }
  assert (X : exists out, analyze (analyzer_of sample_env (AnalyzerDef (beside_mapping across) apart_tokenizer [])) (line "q" ++ lit "z") = Some (Ok out) /\ List.length out = 1)
    by (eexists; split; [vm_compute; reflexivity|reflexivity]).
  assert (X1 : exists out, analyze (analyzer_of sample_env (AnalyzerDef (beside_mapping across) apart_tokenizer [])) (line "q") = Some (Ok out) /\ List.length out = 1)
    by (eexists; split; [vm_compute; reflexivity|reflexivity]).
  assert (X2 : exists out, analyze (analyzer_of sample_env (AnalyzerDef (beside_mapping across) apart_tokenizer [])) (lit "z") = Some (Ok out) /\ List.length out = 1)
    by (eexists; split; [vm_compute; reflexivity|reflexivity]).
  destruct X as (out & X & L). destruct X1 as (x1 & X1 & L1). destruct X2 as (x2 & X2 & L2).
  assert (NN : [sample_unk] <> []) by (intros NN; discriminate NN).
  assert (V : valid_str ((lit "q" ++ [10%N]) ++ lit "z")) by (valid).
  destruct (proj1 (H sample_env apart_tokenizer _ (beside_mapping across) (line "q") (lit "z") (lit "q") 10%N (lit "z") su sv x1 x2 [] out (sample_represents _ _ sample_unk_ok) Fu Fv
    V (or_intror (or_intror (or_introl eq_refl))) (sample_covered _ _ NN) X1 X2 I) X) as (o1 & o2 & Y1 & Y2 & E).
  pose proof (eq_trans (eq_sym X1) Y1) as Z1. pose proof (eq_trans (eq_sym X2) Y2) as Z2. injection Z1 as <-. injection Z2 as <-. subst. rewrite app_length, map_length, L1, L2 in L. discriminate L.
Qed.
Print Assumptions C106_across_matters.

(** Nor that the filters make the same of both texts together, when the second begins with a part that is deleted: the last word of the first
    text then ends behind the deleted part *)
Example C106_deleted_ex : beside_seen [(lit "z", [])] [] (line "q") = Some (Ok [(line "q", 0, 2, 0)]) /\ beside_seen [(lit "z", [])] [] (lit "zq") = Some (Ok [(lit "q", 1, 2, 0)]) /\
  beside_seen [(lit "z", [])] [] (line "q" ++ lit "zq") = Some (Ok [(line "q", 0, 3, 0); (lit "q", 3, 4, 1)]).
Proof. repeat split; vm_compute; reflexivity. Qed.

(* かゝ。 and かゞ: the marks of the second text repeat its own characters; a text that begins with a mark is another matter *)
Example C106_marks_ex : let u := [0x304B; 0x309D; 0x3002]%N in let v := [0x304B; 0x309E]%N in
  repeats_three_bytes true true u /\ repeats_three_bytes true true v /\ marks_inside true true v /\ ~ marks_inside true true [0x309E]%N /\
  iteration_apply (IterationConfig true true) (u ++ v) = Ok ([0x304B; 0x304B; 0x3002] ++ [0x304B; 0x304C], [], [])%N /\
  iteration_apply (IterationConfig true true) (u ++ [0x309E]%N) = Ok ([0x304B; 0x304B; 0x3002] ++ [0x3002], [], [])%N /\
  iteration_apply (IterationConfig true true) [0x309E]%N = Ok ([0x309E], [], [])%N.
Proof.
  cbv zeta. split; [|split; [|split; [|split; [|repeat split; vm_compute; reflexivity]]]].
  - intros s n p c _ _ E. apply nth_error_In in E. repeat (destruct E as [<-|E]; [vm_compute; reflexivity|]). destruct E.
  - intros s n p c _ _ E. apply nth_error_In in E. repeat (destruct E as [<-|E]; [vm_compute; reflexivity|]). destruct E.
  - intros s n P (R & _ & _). destruct (R s ltac:(lia)) as (c & f & E & A). destruct s as [|[|s]]; [injection E as <-; discriminate A| |destruct s; discriminate E].
    destruct n as [|[|n]]; [lia|lia|]. destruct (R 2 ltac:(lia)) as (c' & f' & E' & _). discriminate E'.
  - intros M. specialize (M 0 1 ltac:(lia)). assert (X : 1 <= 0); [|lia]. apply M. split; [|split].
    + intros p P. assert (p = 0) by lia. subst p. eexists. eexists. split; reflexivity.
    + left. reflexivity.
    + intros (c & f & E & _). discriminate E.
Qed.
(* a normal form that is longer than the grapheme *)
Example C106_normalize_ex : filtered_beside [fun t => Some (Ok (normalize_apply (fun s => map (fun c => [c]) s) (fun g => g ++ g) t))] (line "q") (lit "z") (lit "qq" ++ [10; 10]%N) (lit "zz").
Proof.
  apply (C106_normalize (fun s => map (fun c => [c]) s) (fun g => g ++ g) (line "q") (lit "z")); try reflexivity; [repeat constructor; discriminate|].
  intros g [<-|[]]. discriminate.
Qed.

(* the regular expression z, replaced by qqq *)
Fixpoint all_z (start : nat) (s : str) : list (nat * nat) :=
  match s with [] => [] | c :: r => (if (c =? 122)%N then [(start, start + width c)] else []) ++ all_z (start + width c) r end.
Definition regex_z : regex := Regex (all_z 0) (fun _ _ r => r).
Example C106_regex_ex : filtered_beside [fun t => Some (regex_apply regex_z (lit "qqq") t)] (line "qz") (lit "zq") (line "qqqq") (lit "qqqq").
Proof.
  apply (C106_regex regex_z (lit "qqq") [(lit "q", lit "z")] [10%N] [([], lit "z")] (lit "q")); try reflexivity.
  left. repeat split; [repeat constructor; discriminate|repeat constructor; discriminate|discriminate].
Qed.
