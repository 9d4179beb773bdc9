(** Property C105: the analysis of two texts one after the other. *)
From Coq Require Import String.
From Coq Require Import List NArith ZArith Bool Lia.
From Verif Require Import MBase MUtf8 MText MCodec MLattice MTokenizer MBuild MAnalyzer MTokenFilter MConfig STok STokenFilter SLocal SApart LText LApart XSample XConfig PLocal.
Import ListNotations.
Local Open Scope string_scope.
Local Open Scope list_scope.

Theorem C105_cut : forall e t A a c b g1 g2 tds out, represents t A -> valid_str ((a ++ [c]) ++ b) -> delimiter c ->
  analyze (analyzer_of e (AnalyzerDef [] t [])) (a ++ [c]) = Some (Ok g1) -> analyze (analyzer_of e (AnalyzerDef [] t [])) b = Some (Ok g2) -> kept_apart e tds g1 g2 ->
  (analyze (analyzer_of e (AnalyzerDef [] t tds)) ((a ++ [c]) ++ b) = Some (Ok out) <->
   exists o1 o2, analyze (analyzer_of e (AnalyzerDef [] t tds)) (a ++ [c]) = Some (Ok o1) /\ analyze (analyzer_of e (AnalyzerDef [] t tds)) b = Some (Ok o2) /\
     out = o1 ++ map (put_behind (last_end g1) (List.length g1)) o2).
Proof. exact analyze_cut. Qed.
Print Assumptions C105_cut.

(* at a place where a sentence falls apart, see C95 *)
Theorem C105_within_sentence : forall e t A u v gu gv tds out, represents t A -> distinct_entries A -> divides A u v -> leaves A u v 0 ->
  valid_str (u ++ v) -> sentence (u ++ v) -> u <> [] -> v <> [] -> fits_i32 (t_mode t) (u ++ v) ->
  analyze (analyzer_of e (AnalyzerDef [] t [])) u = Some (Ok gu) -> analyze (analyzer_of e (AnalyzerDef [] t [])) v = Some (Ok gv) -> gu <> [] -> gv <> [] -> kept_apart e tds gu gv ->
  (analyze (analyzer_of e (AnalyzerDef [] t tds)) (u ++ v) = Some (Ok out) <->
   exists o1 o2, analyze (analyzer_of e (AnalyzerDef [] t tds)) u = Some (Ok o1) /\ analyze (analyzer_of e (AnalyzerDef [] t tds)) v = Some (Ok o2) /\
     out = o1 ++ map (put_behind (N.of_nat (blen u)) (List.length gu)) o2).
Proof. exact analyze_apart. Qed.
Print Assumptions C105_within_sentence.

(* any number of sentences, for example the lines of a document *)
Theorem C105_document : forall e t A tds z gz, represents t A -> valid_str z -> analyze (analyzer_of e (AnalyzerDef [] t [])) z = Some (Ok gz) ->
  forall texts gs, Forall (fun s => valid_str s /\ exists a c, s = a ++ [c] /\ delimiter c) texts ->
  Forall2 (fun s g => analyze (analyzer_of e (AnalyzerDef [] t [])) s = Some (Ok g) /\ forall ys, kept_apart e tds g ys) texts gs ->
  forall out, analyze (analyzer_of e (AnalyzerDef [] t tds)) (concat texts ++ z) = Some (Ok out) <->
    exists os oz, Forall2 (fun s o => analyze (analyzer_of e (AnalyzerDef [] t tds)) s = Some (Ok o)) texts os /\
      analyze (analyzer_of e (AnalyzerDef [] t tds)) z = Some (Ok oz) /\ out = laid_out 0 0 (combine gs os ++ [(gz, oz)]).
Proof. exact analyze_document. Qed.
Print Assumptions C105_document.

(* for token lists of any kind *)
Theorem C105_filters : forall e tds xs ys out n p, kept_apart e tds xs ys ->
  (foldM (fun ts f => f ts) (map (run_token_filter e) tds) (xs ++ map (put_behind n p) ys) = Ok out <->
   exists a b, foldM (fun ts f => f ts) (map (run_token_filter e) tds) xs = Ok a /\ foldM (fun ts f => f ts) (map (run_token_filter e) tds) ys = Ok b /\ out = a ++ map (put_behind n p) b).
Proof. exact filters_behind. Qed.
Print Assumptions C105_filters.

(* filters other than the compound filter, and a first compound filter that leaves the delimiter alone *)
Theorem C105_no_compound : forall e tds, Forall (fun d => forall c, d <> TFCompound c) tds -> forall xs ys, kept_apart e tds xs ys.
Proof. exact apart_plain. Qed.
Print Assumptions C105_no_compound.
Theorem C105_delimiter : forall e tds c, Forall (fun d => forall c, d <> TFCompound c) tds -> forall xs x ys, ~ takes_up c x -> kept_apart e (TFCompound c :: tds) (xs ++ [x]) ys.
Proof. exact apart_silent. Qed.
Print Assumptions C105_delimiter.

Definition apart_tokenizer : tokenizer := sample Normal [sample_unk].
Definition apart_seen (tds : list token_filter_def) (text : str) : option (res (list (str * nat * nat * nat * nat))) :=
  match analyze (analyzer_of sample_env (AnalyzerDef [] apart_tokenizer tds)) text with
  | Some (Ok ts) => Some (Ok (map (fun tk => (ft_text tk, N.to_nat (ft_start tk), N.to_nat (ft_end tk), ft_position tk, ft_position_length tk)) ts))
  | Some (Err k) => Some (Err k) | Some Panic => Some Panic | None => None
  end.
Definition unknown_words : token_filter_def := TFCompound (CompoundConfig IPADIC [lit "UNK,*,*,*"] None).

Example C105_ex : represents apart_tokenizer (sample_meaning [sample_unk]) /\ valid_str ((lit "zq" ++ [10%N]) ++ lit "z") /\ delimiter 10%N /\
  exists g1 g2, analyze (analyzer_of sample_env (AnalyzerDef [] apart_tokenizer [])) (lit "zq" ++ [10%N]) = Some (Ok g1) /\
    analyze (analyzer_of sample_env (AnalyzerDef [] apart_tokenizer [])) (lit "z") = Some (Ok g2) /\
    kept_apart sample_env [TFUppercase] g1 g2 /\ ~ kept_apart sample_env [unknown_words] g1 g2 /\
    apart_seen [TFUppercase] (lit "zq" ++ [10%N]) = Some (Ok [(lit "ZQ" ++ [10%N], 0, 3, 0, 1)]) /\ apart_seen [TFUppercase] (lit "z") = Some (Ok [(lit "Z", 0, 1, 0, 1)]) /\
    apart_seen [TFUppercase] ((lit "zq" ++ [10%N]) ++ lit "z") = Some (Ok [(lit "ZQ" ++ [10%N], 0, 3, 0, 1); (lit "Z", 3, 4, 1, 1)]).
Proof.
  split; [exact (sample_represents _ _ sample_unk_ok)|]. split; [repeat constructor; vm_compute; auto|]. split; [right; right; left; reflexivity|].
  eexists. eexists. split; [vm_compute; reflexivity|]. split; [vm_compute; reflexivity|]. split; [apply C105_no_compound; repeat constructor; discriminate|].
  split; [|repeat split; vm_compute; reflexivity]. intros [K _]. eapply K; [left; reflexivity|left; reflexivity|]. split; left; vm_compute; reflexivity.
Qed.

(* two lines and a rest; the tokens of the first line are not kept, but count *)
Example C105_document_ex : exists gs gz out,
  Forall2 (fun s g => analyze (analyzer_of sample_env (AnalyzerDef [] apart_tokenizer [])) s = Some (Ok g) /\ forall ys, kept_apart sample_env [TFLength (Some 3%N) None] g ys)
    [lit "z" ++ [10%N]; lit "zq" ++ [10%N]] gs /\
  analyze (analyzer_of sample_env (AnalyzerDef [] apart_tokenizer [])) (lit "qqq") = Some (Ok gz) /\
  apart_seen [TFLength (Some 3%N) None] (concat [lit "z" ++ [10%N]; lit "zq" ++ [10%N]] ++ lit "qqq") = Some (Ok [(lit "zq" ++ [10%N], 2, 5, 1, 1); (lit "qqq", 5, 8, 2, 1)]) /\
  List.length gs = 2 /\ analyze (analyzer_of sample_env (AnalyzerDef [] apart_tokenizer [TFLength (Some 3%N) None])) (lit "z" ++ [10%N]) = Some (Ok []) /\ out = laid_out 0 0 (combine gs [[]; nth 1 gs []] ++ [(gz, gz)]) /\
  map (fun tk => (ft_text tk, N.to_nat (ft_start tk), N.to_nat (ft_end tk), ft_position tk, ft_position_length tk)) out = [(lit "zq" ++ [10%N], 2, 5, 1, 1); (lit "qqq", 5, 8, 2, 1)].
Proof.
  eexists. eexists. eexists. split.
  { constructor; [split; [vm_compute; reflexivity|intros ys; apply C105_no_compound; repeat constructor; discriminate]|].
    constructor; [split; [vm_compute; reflexivity|intros ys; apply C105_no_compound; repeat constructor; discriminate]|]. constructor. }
  split; [vm_compute; reflexivity|]. split; [vm_compute; reflexivity|]. split; [reflexivity|]. split; [vm_compute; reflexivity|]. split; [reflexivity|]. vm_compute. reflexivity.
Qed.

(** Without the condition the claim does not hold: a compound can go across the end of a sentence *)
Theorem C105_condition_matters : ~ (forall e t A a c b g1 g2 tds out, represents t A -> valid_str ((a ++ [c]) ++ b) -> delimiter c ->
  analyze (analyzer_of e (AnalyzerDef [] t [])) (a ++ [c]) = Some (Ok g1) -> analyze (analyzer_of e (AnalyzerDef [] t [])) b = Some (Ok g2) ->
  (analyze (analyzer_of e (AnalyzerDef [] t tds)) ((a ++ [c]) ++ b) = Some (Ok out) <->
   exists o1 o2, analyze (analyzer_of e (AnalyzerDef [] t tds)) (a ++ [c]) = Some (Ok o1) /\ analyze (analyzer_of e (AnalyzerDef [] t tds)) b = Some (Ok o2) /\
     out = o1 ++ map (put_behind (last_end g1) (List.length g1)) o2)).
Proof.
  intros H. destruct C105_ex as (R & V & D & g1 & g2 & A1 & A2 & _).
  assert (X : exists out, analyze (analyzer_of sample_env (AnalyzerDef [] apart_tokenizer [unknown_words])) ((lit "zq" ++ [10%N]) ++ lit "z") = Some (Ok out) /\ List.length out = 1)
    by (eexists; split; [vm_compute; reflexivity|reflexivity]).
  assert (X1 : exists out, analyze (analyzer_of sample_env (AnalyzerDef [] apart_tokenizer [unknown_words])) (lit "zq" ++ [10%N]) = Some (Ok out) /\ List.length out = 1)
    by (eexists; split; [vm_compute; reflexivity|reflexivity]).
  assert (X2 : exists out, analyze (analyzer_of sample_env (AnalyzerDef [] apart_tokenizer [unknown_words])) (lit "z") = Some (Ok out) /\ List.length out = 1)
    by (eexists; split; [vm_compute; reflexivity|reflexivity]).
  destruct X as (out & X & L). destruct X1 as (x1 & X1 & L1). destruct X2 as (x2 & X2 & L2). 
  destruct (proj1 (H sample_env apart_tokenizer _ (lit "zq") 10%N (lit "z") g1 g2 [unknown_words] out R V D A1 A2) X) as (o1 & o2 & Y1 & Y2 & E).
  pose proof (eq_trans (eq_sym X1) Y1) as Z1. pose proof (eq_trans (eq_sym X2) Y2) as Z2. injection Z1 as <-. injection Z2 as <-. subst. rewrite app_length, map_length, L1, L2 in L. discriminate L.
Qed.
Print Assumptions C105_condition_matters.

(** The sample with details: a place inside a sentence *)
Definition apart_data : list N := (le_bytes 8 1 ++ le_bytes 8 1 ++ [110])%N.
Definition apart_words : tokenizer :=
  Tokenizer (Dictionary sample_dict (d_matrix (t_dictionary ex_t)) sample_chars (d_unknown (t_dictionary ex_t)) (repeat 0%N 12) apart_data)
    (Some (UserDictionary (u_dict sample_user) (repeat 0%N 4) apart_data)) Normal.
Lemma apart_represents : represents apart_words (sample_meaning [sample_unk]).
Proof. destruct (sample_represents Normal _ sample_unk_ok). constructor; assumption. Qed.
Example C105_within_ex : represents apart_words (sample_meaning [sample_unk]) /\ distinct_entries (sample_meaning [sample_unk]) /\
  divides (sample_meaning [sample_unk]) (lit "a") (lit "abc") /\ leaves (sample_meaning [sample_unk]) (lit "a") (lit "abc") 0 /\
  sentence (lit "aabc") /\ fits_i32 (t_mode apart_words) (lit "aabc") /\
  exists gu gv out, analyze (analyzer_of sample_env (AnalyzerDef [] apart_words [])) (lit "a") = Some (Ok gu) /\
    analyze (analyzer_of sample_env (AnalyzerDef [] apart_words [])) (lit "abc") = Some (Ok gv) /\ gu <> [] /\ gv <> [] /\
    kept_apart sample_env [TFLength (Some 2%N) None; TFUppercase] gu gv /\
    analyze (analyzer_of sample_env (AnalyzerDef [] apart_words [TFLength (Some 2%N) None; TFUppercase])) (lit "aabc") = Some (Ok out) /\
    map (fun tk => (ft_text tk, ft_start tk, ft_end tk, N.of_nat (ft_position tk), ft_details tk)) out = [(lit "BC", 2, 4, 2, [lit "n"])]%N.
Proof.
  split; [exact apart_represents|]. destruct C95_ex as (_ & H1 & H2 & _ & H3 & _ & H4 & _). do 4 (split; [assumption|]). split; [unfold fits_i32; vm_compute; reflexivity|].
  eexists. eexists. eexists. split; [vm_compute; reflexivity|]. split; [vm_compute; reflexivity|]. split; [discriminate|]. split; [discriminate|].
  split; [apply C105_no_compound; repeat constructor; discriminate|]. split; [vm_compute; reflexivity|]. vm_compute. reflexivity.
Qed.
