(** Property C76: a configured analyzer gives tokens for every text. *)
From Coq Require Import String.
From Coq Require Import List NArith ZArith Bool Lia ZifyBool ZifyNat ZifyN.
From Verif Require Import MBase MUtf8 MText MCodec MDict MCharDef MUnk MBincode MLattice MTokenizer MDetails MBuild MCharFilter MAnalyzer MTokenFilter MConfig MBuilders
  STok SBuild SMatrix SCharDef SUnk SData SCharFilter SAnalyzer STokenFilter SConfig SBuilders SSafe LUtf8 LSafe XSample XBuild XData XConfig XBuilders.
Import ListNotations.
Local Open Scope string_scope.
Local Open Scope list_scope.

Theorem C76_never_fails : forall e n t cs cds tfs tds, env_sound e -> serves n t ->
  Forall2 (fun '(name, fs) d => NoDup (map fst fs) /\ load_char_filter e name (VObj fs) = Ok d) cs cds ->
  Forall2 (fun '(name, fs) d => NoDup (map fst fs) /\ load_token_filter name (VObj fs) = Ok d) tfs tds ->
  Forall (fun '(name, fs) => harmless_char name fs) cs -> Forall (fun '(name, fs) => harmless n name fs) tfs ->
  forall text, valid_str text -> exists tokens, analyze (analyzer_of e (AnalyzerDef cds t tds)) text = Some (Ok tokens) /\ Forall (good_token n) tokens.
Proof. exact analyzer_total. Qed.
Print Assumptions C76_never_fails.

Theorem C76_built : forall n be e k dir S C urows ud, has_sources be k dir S -> readable k S C -> complete C ->
  0 < n <= kind_details k ->
  Forall (fun r => 4 + n <= List.length r) (s_rows S) ->
  yada_works be e (system_words k (s_rows S)) -> be_compress be = false ->
  build_user (kind_user_options k) urows = Ok ud -> user_room (kind_user_options k) urows -> user_ids_fit k urows C ->
  exists files, build_dictionary be k dir = Ok files /\
    forall out, files_at e out files -> exists d, load_dictionary e out = Ok d /\ forall m, serves n (Tokenizer d (Some ud) m).
Proof. exact built_serves. Qed.
Print Assumptions C76_built.

Theorem C76_built_alone : forall n be e k dir S C, has_sources be k dir S -> readable k S C -> complete C -> 0 < n ->
  Forall (fun r => 4 + n <= List.length r) (s_rows S) ->
  yada_works be e (system_words k (s_rows S)) -> be_compress be = false ->
  exists files, build_dictionary be k dir = Ok files /\
    forall out, files_at e out files -> exists d, load_dictionary e out = Ok d /\ forall m, serves n (Tokenizer d None m).
Proof. exact built_serves_alone. Qed.
Print Assumptions C76_built_alone.

Definition safe_chars : list (str * list (str * value)) :=
  [ (lit "mapping", [(lit "mapping", VObj [(lit "z", VStr (lit "ab")); (lit "zz", VStr [])])]);
    (lit "regex", [(lit "pattern", VStr (lit "x")); (lit "replacement", VStr (lit "y"))]);
    (lit "unicode_normalize", [(lit "kind", VStr (lit "nfc"))]);
    (lit "japanese_iteration_mark", [(lit "normalize_kanji", VBool true); (lit "normalize_kana", VBool true)]) ].
Definition safe_tokens : list (str * list (str * value)) :=
  [ (lit "uppercase", []);
    (lit "japanese_compound_word", [(lit "kind", VStr (lit "ipadic")); (lit "tags", VArr [VStr (lit "noun")]); (lit "new_tag", VStr (lit "compound"))]);
    (lit "length", [(lit "min", VInt 2)]) ].

Lemma sample_sound files : env_sound (file_env files).
Proof.
  constructor; cbn [file_env sample_env e_lower e_upper e_kana e_graphemes e_form e_regex]; auto.
  - intros s V. apply Forall_map. eapply Forall_impl; [|exact V]. intros c W. unfold upper_char. destruct ((97 <=? c) && (c <=? 122))%N eqn:E; [|exact W]. apply valid_charb_iff. unfold valid_charb. lia.
  - intros s V. apply Forall_map. eapply Forall_impl; [|exact V]. intros c W. constructor; [exact W|constructor].
  - intros p rx s H V. destruct (str_eqb p (lit "x")); [|discriminate]. injection H as <-. exists [], s. split; reflexivity.
  - intros p rx s m r H V W. destruct (str_eqb p (lit "x")); [|discriminate]. injection H as <-. exact W.
Qed.

Ltac lit_valid := repeat (apply Forall_cons; [apply valid_charb_iff; vm_compute; reflexivity|]); apply Forall_nil.

Lemma safe_chars_harmless : Forall (fun '(name, fs) => harmless_char name fs) safe_chars.
Proof.
  unfold safe_chars. repeat apply Forall_cons; [| | | |apply Forall_nil]; constructor; try (intros E; vm_compute in E; discriminate E); intros _.
  - intros v m [H|[]] M. assert (X : v = VObj [(lit "z", VStr (lit "ab")); (lit "zz", VStr [])]) by (vm_compute in H; vm_compute; congruence). subst v. unfold means_map in M.
    destruct m as [|[a b] [|[c d] [|? ?]]]; try discriminate M. injection M as <- <- <- <-. split.
    + split; [discriminate|]. split; [|split; [|vm_compute; reflexivity]].
      * constructor; [intros [A|[]]; discriminate A|]. constructor; [intros []|constructor].
      * apply Forall_cons; [|apply Forall_cons; [|apply Forall_nil]]; (split; [discriminate|]; split; [lit_valid|]; intros I; vm_compute in I; intuition congruence).
    + apply Forall_cons; [lit_valid|]. apply Forall_cons; [lit_valid|apply Forall_nil].
  - intros r [H|[H|[]]]; [vm_compute in H; discriminate H|]. assert (X : r = lit "y") by (injection H as H; symmetry; exact H). subst r. lit_valid.
Qed.

Lemma safe_tokens_harmless : Forall (fun '(name, fs) => harmless 1 name fs) safe_tokens.
Proof.
  unfold safe_tokens. repeat apply Forall_cons; [| | |apply Forall_nil]; constructor; try (intros E; vm_compute in E; discriminate E); intros _.
  - intros v k _ _. destruct k; lia.
  - intros t [H|[H|[H|[]]]]; try (vm_compute in H; discriminate H). assert (X : t = lit "compound") by (injection H as H; symmetry; exact H). subst t. lit_valid.
Qed.

(* a built dictionary, four character filters and three token filters *)
Example C76_ex : let be := src_env false src_files in let e := file_env (put (lit "out") (src_built false)) in
  exists ud d cds tds, build_user (kind_user_options IPADIC) small_user = Ok ud /\ load_dictionary e (lit "out") = Ok d /\
    mapM (fun '(name, fs) => load_char_filter e name (VObj fs)) safe_chars = Ok cds /\
    mapM (fun '(name, fs) => load_token_filter name (VObj fs)) safe_tokens = Ok tds /\
    env_sound e /\ has_sources be IPADIC (lit "in") src /\ readable IPADIC src src_content /\ complete src_content /\
    yada_works be e (system_words IPADIC (s_rows src)) /\ files_at e (lit "out") (src_built false) /\
    Forall (fun r => 4 + 1 <= List.length r) (s_rows src) /\ user_room (kind_user_options IPADIC) small_user /\ user_ids_fit IPADIC small_user src_content /\
    Forall (fun '(name, fs) => harmless_char name fs) safe_chars /\ Forall (fun '(name, fs) => harmless 1 name fs) safe_tokens /\
    option_map (fun r => match r with Ok ts => map (fun t => (ft_text t, ft_start t, ft_end t, hd [] (ft_details t))) ts | _ => [] end)
      (analyze (analyzer_of e (AnalyzerDef cds (Tokenizer d (Some ud) Normal) tds)) (lit "zabskyd")) =
      Some [(lit "ABAB", 0%N, 3%N, lit "compound"); (lit "SKY", 3%N, 6%N, lit "1")].
Proof.
  cbv zeta. eexists _, _, _, _. split; [vm_compute; reflexivity|]. split; [vm_compute; reflexivity|]. split; [vm_compute; reflexivity|]. split; [vm_compute; reflexivity|].
  split; [apply sample_sound|]. split; [apply src_sources|]. split; [exact src_readable|]. split; [exact src_complete|].
  split; [apply sample_yada_works; vm_compute; reflexivity|]. split; [apply put_files_at, src_built_names|].
  split; [repeat constructor|]. split; [exact small_user_room|]. split; [exact small_user_fits|]. split; [exact safe_chars_harmless|]. split; [exact safe_tokens_harmless|].
  vm_compute. reflexivity.
Qed.

(* the conditions on the filters are needed: a compound word of the kind ipadic has nine details, and the base form of the kind unidic is the eleventh *)
Example C76_compound_then_base_form : let tk := FToken (lit "a") 0 1 0 1 (WordId 0 true) (repeat (lit "*") 17) in
  exists c, compound_config_new IPADIC [lit "*,*,*,*"] None = Ok c /\
    good_token 17 tk /\ run_token_filter sample_env (TFBaseForm UniDic) [tk; tk] = Ok [set_ft_text tk (lit "*"); set_ft_text tk (lit "*")] /\
    (do ts <- run_token_filter sample_env (TFCompound c) [tk; tk]; run_token_filter sample_env (TFBaseForm UniDic) ts) = Panic.
Proof.
  cbv zeta. eexists. split; [vm_compute; reflexivity|]. split; [|split; vm_compute; reflexivity].
  split; [lit_valid|]. split; [|split; [discriminate|right; vm_compute; lia]]. apply Forall_forall. intros x I. apply repeat_spec in I. subst x. lit_valid.
Qed.
