(** Property C90: words that do not occur in the text do not matter. *)
From Coq Require Import String.
From Coq Require Import List NArith ZArith Bool Lia.
From Verif Require Import MBase MUtf8 MText MCodec MDict MCharDef MUnk MBincode MLattice MTokenizer MDetails MBuild MCharFilter MAnalyzer MTokenFilter MConfig MBuilders
  STok SBuild SData SConfig SBuilders SFrame LFrame XSample XBuild XData XConfig XBuilders XFrame.
Import ListNotations.
Local Open Scope string_scope.
Local Open Scope list_scope.

(** C90 *)
Theorem C90_words : forall R text t t', same_in R text t t' -> agree_run (Forall2 (same_token R)) (tokenize t text) (tokenize t' text).
Proof. exact tokenize_alike. Qed.
Print Assumptions C90_words.
Theorem C90_sources : forall k S S' d d' rows rows' u u' text, loaded_from k S d -> loaded_from k S' d' -> user_from k rows u -> user_from k rows' u' ->
  same_sources k text S S' -> same_rows (fun s => user_rows_for s rows) (fun s => user_rows_for s rows') text -> valid_str text ->
  forall m, agree_run (Forall2 (same_token (details_agree d u d' u'))) (tokenize (Tokenizer d u m) text) (tokenize (Tokenizer d' u' m) text).
Proof. exact built_alike. Qed.
Print Assumptions C90_sources.
Theorem C90_extra_rows : forall k text S before after, (forall r, In r (before ++ after) -> ~ part_of (sys_surface (source_options k) r) text) ->
  (forall s, part_of s text -> (List.length (sys_rows_for (source_options k) s (s_rows S)) <= 31)%nat) ->
  same_sources k text S (Sources (s_char S) (s_unk S) (s_matrix S) (before ++ s_rows S ++ after)).
Proof. exact extra_rows. Qed.
Print Assumptions C90_extra_rows.
Theorem C90_no_user_word : forall text rows, (forall r : row, In r rows -> ~ part_of (hd [] r) text) ->
  same_rows (fun s => user_rows_for s rows) (fun s => user_rows_for s []) text.
Proof. exact no_user_word. Qed.
Print Assumptions C90_no_user_word.
Theorem C90_filters : forall e d ts ts', Forall2 same_ftoken ts ts' -> agree (Forall2 same_ftoken) (run_token_filter e d ts) (run_token_filter e d ts').
Proof. exact filter_alike. Qed.
Print Assumptions C90_filters.
Theorem C90_analyze : forall k S S' d d' rows rows' u u' e cfs tfs m text,
  loaded_from k S d -> loaded_from k S' d' -> user_from k rows u -> user_from k rows' u' ->
  (forall n, filtered e cfs text n ->
     valid_str n /\ same_sources k n S S' /\ same_rows (fun s => user_rows_for s rows) (fun s => user_rows_for s rows') n) ->
  agree_run (Forall2 same_ftoken) (analyze (analyzer_of e (AnalyzerDef cfs (Tokenizer d u m) tfs)) text)
    (analyze (analyzer_of e (AnalyzerDef cfs (Tokenizer d' u' m) tfs)) text).
Proof. exact analyze_built. Qed.
Print Assumptions C90_analyze.
Theorem C90_command : forall k S S' d d' rows rows' u u' e cfs tfs m f input,
  loaded_from k S d -> loaded_from k S' d' -> user_from k rows u -> user_from k rows' u' -> f <> FJson ->
  (forall line text n, In line (split_inclusive (N.eqb 10) input) -> utf8_decode line = Some text -> filtered e cfs (trim text) n ->
     valid_str n /\ same_sources k n S S' /\ same_rows (fun s => user_rows_for s rows) (fun s => user_rows_for s rows') n) ->
  cli_tokenize e (analyzer_of e (AnalyzerDef cfs (Tokenizer d u m) tfs)) f input =
  cli_tokenize e (analyzer_of e (AnalyzerDef cfs (Tokenizer d' u' m) tfs)) f input.
Proof. exact command_alike. Qed.
Print Assumptions C90_command.

(* words before, between and after those of the example *)
Definition more_rows : list row :=
  [ [lit "aa"; lit "1"; lit "1"; lit "-900"; lit "other"] ] ++ src_rows ++ [ [lit "bcd"; lit "0"; lit "0"; lit "-900"; lit "other"]; [lit "z"; lit "0"; lit "0"; lit "3"; lit "last"] ].
Lemma not_part s text : (forall n, (n <= List.length text)%nat -> firstn (List.length s) (skipn n text) <> s) -> ~ part_of s text.
Proof.
  intros H (a & b & E). apply (H (List.length a)).
  - rewrite E, app_length. lia.
  - rewrite E, skipn_app, Nat.sub_diag, skipn_all. cbn [skipn app]. rewrite firstn_app, Nat.sub_diag, firstn_all. cbn [firstn]. apply app_nil_r.
Qed.
Definition texts_of (d : dictionary) (u : option user_dictionary) (o : option (res (list token))) : option (list (str * list str)) :=
  match o with
  | Some (Ok ts) => Some (map (fun t => (tk_text t, match get_details d u (tk_word t) None with Ok (Some ds, _) => ds | _ => [] end)) ts)
  | _ => None
  end.
Ltac not_there := apply not_part; intros n N; cbn [List.length] in N;
  do 7 (destruct n as [|n]; [vm_compute; discriminate|]); exfalso; vm_compute in N; lia.
Example C90_ex : exists d d' ud, loaded_from IPADIC (rows_src src_rows) d /\ loaded_from IPADIC (rows_src more_rows) d' /\
  user_from IPADIC [] None /\ user_from IPADIC small_user (Some ud) /\
  same_sources IPADIC (lit "abbab") (rows_src src_rows) (rows_src more_rows) /\
  same_rows (fun s => user_rows_for s []) (fun s => user_rows_for s small_user) (lit "abbab") /\
  option_map (fun r => match r with Ok ts => map tk_word ts | _ => [] end) (tokenize (Tokenizer d None Normal) (lit "abbab")) <>
    option_map (fun r => match r with Ok ts => map tk_word ts | _ => [] end) (tokenize (Tokenizer d' (Some ud) Normal) (lit "abbab")) /\
  texts_of d None (tokenize (Tokenizer d None Normal) (lit "abbab")) = Some [(lit "ab", [lit "noun"]); (lit "b", [lit "verb"]); (lit "ab", [lit "noun"])] /\
  texts_of d' (Some ud) (tokenize (Tokenizer d' (Some ud) Normal) (lit "abbab")) = Some [(lit "ab", [lit "noun"]); (lit "b", [lit "verb"]); (lit "ab", [lit "noun"])].
Proof.
  eexists _, _, _. split; [apply rows_from; vm_compute; reflexivity|]. split; [apply rows_from; vm_compute; reflexivity|]. split; [reflexivity|].
  split; [split; [vm_compute; reflexivity|exact small_user_room]|]. split; [|split; [|split; [|split]]].
  - apply (C90_extra_rows IPADIC (lit "abbab") (rows_src src_rows)).
    + intros r [<-|[<-|[<-|[]]]]; not_there.
    + intros s _. eapply Nat.le_trans; [apply filter_le|]. cbn. lia.
  - intros s P. destruct (C90_no_user_word (lit "abbab") small_user) with (s := s) as [E _]; [|exact P|].
    + intros r [<-|[]]. not_there.
    + cbv beta in *. rewrite E. split; [reflexivity|cbn; lia].
  - vm_compute. discriminate.
  - vm_compute. reflexivity.
  - vm_compute. reflexivity.
Qed.

(* with 33 rows of the same word it depends on the other words which of them is found *)
Definition many_rows : list row := [lit "b"; lit "0"; lit "0"; lit "-4"; lit "first"] :: repeat [lit "b"; lit "0"; lit "0"; lit "-4"; lit "other"] 32.
Definition one_more : list row := [lit "a"; lit "0"; lit "0"; lit "-4"; lit "more"] :: many_rows.
Theorem C90_limit_matters : exists S S' d d' text, loaded_from IPADIC S d /\ loaded_from IPADIC S' d' /\
  s_char S = s_char S' /\ s_unk S = s_unk S' /\ s_matrix S = s_matrix S' /\ valid_str text /\
  (forall s, part_of s text -> sys_rows_for (source_options IPADIC) s (s_rows S) = sys_rows_for (source_options IPADIC) s (s_rows S')) /\
  texts_of d None (tokenize (Tokenizer d None Normal) text) = Some [(lit "b", [lit "other"])] /\
  texts_of d' None (tokenize (Tokenizer d' None Normal) text) = Some [(lit "b", [lit "first"])].
Proof.
  exists (rows_src many_rows), (rows_src one_more). eexists _, _. exists (lit "b").
  split; [apply rows_from; vm_compute; reflexivity|]. split; [apply rows_from; vm_compute; reflexivity|].
  split; [reflexivity|]. split; [reflexivity|]. split; [reflexivity|]. split; [repeat constructor|]. split; [|split; vm_compute; reflexivity].
  intros s P. change (s_rows (rows_src one_more)) with ([[lit "a"; lit "0"; lit "0"; lit "-4"; lit "more"]] ++ many_rows). rewrite rows_app, (rows_none _ s [[lit "a"; lit "0"; lit "0"; lit "-4"; lit "more"]]); [reflexivity|].
  constructor; [|constructor]. intros <-. revert P. not_there.
Qed.
Print Assumptions C90_limit_matters.

Example C90_command_ex : exists d d', loaded_from IPADIC (rows_src src_rows) d /\ loaded_from IPADIC (rows_src more_rows) d' /\
  cli_tokenize sample_env (analyzer_of sample_env (AnalyzerDef [] (Tokenizer d None Normal) [TFStopWords [lit "b"]])) FMecab (lit "abbab") =
  cli_tokenize sample_env (analyzer_of sample_env (AnalyzerDef [] (Tokenizer d' None Normal) [TFStopWords [lit "b"]])) FMecab (lit "abbab") /\
  cli_tokenize sample_env (analyzer_of sample_env (AnalyzerDef [] (Tokenizer d' None Normal) [TFStopWords [lit "b"]])) FMecab (lit "abbab") =
    Some (lit "ab" ++ [9%N] ++ lit "noun" ++ [10%N] ++ lit "ab" ++ [9%N] ++ lit "noun" ++ [10%N] ++ lit "EOS" ++ [10%N], Ok tt).
Proof.
  eexists _, _. split; [apply rows_from; vm_compute; reflexivity|]. split; [apply rows_from; vm_compute; reflexivity|]. split; vm_compute; reflexivity.
Qed.
