(** The stand-in dictionaries of docs.rs. *)
From Coq Require Import String.
From Coq Require Import List NArith ZArith Bool Lia ZifyBool ZifyNat ZifyN.
From Verif Require Import MBase MUtf8 MText MCodec MDict MCharDef MUnk MBincode MLattice MTokenizer MBuild MConfig MBuilders MDocs
  STok SPanic SBuild SBuilders SData SDocs LBase LUtf8 LDict LExact LTok LPanic LBuilders LEmbedded.
Import ListNotations.
Local Open Scope list_scope.

Definition docs_entry (k : dictionary_kind) : word_entry :=
  match k with
  | IPADIC | IPADICNEologd => WordEntry (WordId 0 true) (-1000) 1288 1288
  | UniDic => WordEntry (WordId 0 true) 767 5131 5131
  | KoDic => WordEntry (WordId 0 true) 4721 1785 3543
  | CcCedict => WordEntry (WordId 0 true) (-1131) 0 0
  end.
Definition docs_chars : char_definitions := CharDefinitions [CategoryData false true 0] [lit "DEFAULT"] (LookupTable [0%N] [[0%nat]]).
Definition docs_matrix : conn_matrix := ConnMatrix [] 1.
Definition docs_row (k : dictionary_kind) : row := split_char 44%N (docs_line k).
Definition docs_made (k : dictionary_kind) : dict_files := match build_dict (kind_dict_options k) [docs_row k] with Ok f => f | _ => DictFiles [] [] [] [] end.
Definition docs_dictionary (k : dictionary_kind) : dictionary :=
  Dictionary (PrefixDict (f_da (docs_made k)) (f_vals (docs_made k)) true) docs_matrix docs_chars (UnknownDictionary [[]] []) (f_words_idx (docs_made k)) (f_words (docs_made k)).
Definition docs_meaning (k : dictionary_kind) : adict :=
  ADict [(docs_word k, [docs_entry k])] [] (fun _ => [0%nat]) (fun _ => false) (fun _ => true) (fun _ => []) (table_cost docs_matrix) 65536 65536.

Lemma docs_word_valid k : valid_str (docs_word k).
Proof. destruct k; repeat constructor; unfold valid_char; lia. Qed.

Lemma docs_key k : f_da (docs_made k) = [(utf8 (docs_word k), 1%N)].
Proof. destruct k; vm_compute; reflexivity. Qed.
Lemma docs_means k m : means_words (Tokenizer (docs_dictionary k) None m) (docs_meaning k).
Proof.
  constructor.
  - apply dict_means_table. unfold da_of.
    cbn [t_dictionary docs_dictionary d_dict pd_da docs_meaning a_sys]. rewrite docs_key. constructor; [|constructor]. split; [reflexivity|]. split; [apply docs_word_valid|].
    destruct k; vm_compute; reflexivity.
  - reflexivity.
  - intros c V. unfold lookup_categories, lt_eval, lt_eval_with, binary_search.
    cbn [t_dictionary docs_dictionary d_chardef docs_chars cds_mapping lt_boundaries lt_values binary_search_from].
    destruct (0 =? c)%N; [reflexivity|]. destruct (c <? 0)%N eqn:E; [lia|]. reflexivity.
  - intros c j V [<-|[]]. exists 0%N. reflexivity.
  - intros c j V [<-|[]]. eexists. split; reflexivity.
  - reflexivity.
  - split; reflexivity.
  - intros j e I. cbn [docs_meaning a_sys entries_of] in I. destruct (str_eqb _ j); [|destruct I]; destruct I as [<-|[]]. destruct k; unfold entry_ok; cbn; unfold is_i16; lia.
  - intros j e [].
  - intros c j e V [<-|[]] [].
Qed.

(* what the search finds *)
Lemma docs_dict_word k s w e : dict_word (docs_meaning k) s w e -> w = docs_word k /\ exists r, s = docs_word k ++ r.
Proof.
  intros (N & (r & E) & [[]|H]). cbn [docs_meaning a_sys entries_of] in H. destruct (str_eqb (docs_word k) w) eqn:Q; [|destruct H]. apply str_eqb_spec in Q. subst w. eauto.
Qed.
Lemma docs_searched k m s W Act pre r w e : searched (docs_meaning k) m s W Act -> W pre r w e -> s = pre ++ r /\ reach W s pre /\ dict_word (docs_meaning k) r w e.
Proof.
  intros S H. apply (srch_words _ _ _ _ _ S) in H as (E & R & [D|[_ (c & r' & ord & cat & _ & _ & _ & _ & [])]]). auto.
Qed.
Lemma docs_nowhere k m s W Act : searched (docs_meaning k) m s W Act -> ~ (exists r, s = docs_word k ++ r) -> forall pre r w e, ~ W pre r w e.
Proof.
  intros S N. assert (K : forall pre, reach W s pre -> pre = []).
  { intros pre R. induction R as [|pre w rest e R IH E H]; [reflexivity|]. subst pre. exfalso. apply N.
    destruct (docs_searched k m s W Act _ _ _ _ S H) as (_ & _ & D). apply docs_dict_word in D as (_ & D). cbn [app] in E. rewrite E. exact D. }
  intros pre r w e H. destruct (docs_searched k m s W Act _ _ _ _ S H) as (E & R & D). rewrite (K pre R) in E. cbn [app] in E. subst r.
  apply docs_dict_word in D as (_ & D). exact (N D).
Qed.
Lemma docs_off k m s : s <> [] -> (off_table (docs_meaning k) m docs_matrix s <-> exists r, s = docs_word k ++ r).
Proof.
  intros NE. split.
  - intros (W & Act & pre & f & b & S & EW & GO & _).
    assert (D : (exists r, s = docs_word k ++ r) \/ ~ (exists r, s = docs_word k ++ r)).
    { destruct (list_eq_dec N.eq_dec (firstn (length (docs_word k)) s) (docs_word k)) as [E|E].
      - left. exists (skipn (length (docs_word k)) s). rewrite <- E at 1. symmetry. apply firstn_skipn.
      - right. intros (r & ->). apply E. rewrite firstn_app, Nat.sub_diag, firstn_all. cbn. apply app_nil_r. }
    destruct D as [D|D]; [exact D|]. exfalso. pose proof (docs_nowhere k m s W Act S D) as K.
    destruct GO as [[-> _]|(r & w & e & H & _)]; [|exact (K _ _ _ _ H)].
    destruct EW as [[E _]|(p & w & r & e & _ & H & _)]; [exact (NE E)|exact (K _ _ _ _ H)].
  - intros (r & ->). assert (S := searched_admitted (docs_meaning k) m (docs_word k ++ r)). eexists. eexists. exists [], 0%N, (we_left (docs_entry k)). split; [exact S|].
    split; [left; auto|]. split; [right; exists (docs_word k ++ r), (docs_word k), (docs_entry k); split; [|reflexivity]|unfold outside; cbn [docs_matrix cm_data length]; lia].
    apply (srch_words _ _ _ _ _ S). split; [reflexivity|]. split; [constructor|]. left. split; [destruct k; discriminate|]. split; [eauto|]. right.
    cbn [docs_meaning a_sys entries_of]. rewrite (proj2 (str_eqb_spec (docs_word k) (docs_word k)) eq_refl). left. reflexivity.
Qed.

Theorem docs_tokens k : docs_only k (docs_dictionary k).
Proof.
  intros m text ss V S. pose proof (docs_means k m) as M. pose proof (sentences_nonempty _ _ S) as NE. rewrite Forall_forall in NE. split; intros H.
  - apply (proj2 (panic_iff _ _ text ss M V S)). apply Exists_exists in H as (s & I & H). exists s. split; [exact I|]. apply docs_off; auto.
  - assert (K : forall s, In s ss -> ~ (exists r, s = docs_word k ++ r)) by (intros s I X; apply H, Exists_exists; eauto).
    destruct (fine_answer _ _ text ss M V S) as (ts & wss & T & W & F & _).
    { intros s I X. apply (K s I), (docs_off k m s (NE s I)), X. }
    assert (E : concat wss = []).
    { clear - F K NE. induction F as [|s ws ss wss E F IH]; [reflexivity|]. cbn [concat]. rewrite IH; [|intros; apply NE; right; assumption|intros; apply K; right; assumption].
      destruct E as (X & Act & S & [[-> _]|[SG _]]); [reflexivity|]. exfalso. inversion SG as [pre E1 E2|pre w e rest ws' N P SG' E1 E2]; subst; [apply (NE []); [left; reflexivity|reflexivity]|].
      refine (docs_nowhere k _ _ X Act S _ _ _ _ _ P). apply K. left. reflexivity. }
    rewrite E in W. destruct ts; [exact T|discriminate W].
Qed.

(* the build *)
Section Build.
Variables (be : build_env) (e : env) (euc : str -> list N) (k : dictionary_kind) (dir : str).
Hypothesis R : docs_ready be e euc k dir.

Lemma docs_read name bytes : In (name, bytes) (docs_files euc k) -> read_file (be_env be) (join_path dir name) = Ok bytes.
Proof. intros I. unfold read_file. rewrite (dr_files _ _ _ _ _ R _ _ I). reflexivity. Qed.
Lemma docs_ascii enc (s : string) : Forall (fun c => (c < 128)%N) (lit s ++ [10%N]) -> be_text be enc (utf8 (lit s ++ [10%N])) = lit s ++ [10%N].
Proof. apply (dr_text _ _ _ _ _ R). Qed.
Lemma docs_rows : system_rows be k dir = Ok [docs_row k].
Proof.
  unfold system_rows. rewrite (dr_glob _ _ _ _ _ R). cbn [bind mapM]. rewrite (docs_read (lit "dummy_dict.csv") _ (or_intror (or_introl eq_refl))). cbn [bind].
  assert (E : e_csv (be_env be) (utf8 (docs_line k ++ [10%N])) = Ok [docs_row k]) by apply (dr_csv _ _ _ _ _ R).
  unfold csv_rows. destruct k; cbn [kind_encoding kind_flexible]; rewrite ?(dr_euc _ _ _ _ _ R), E; reflexivity.
Qed.
Lemma docs_files_built : be_compress be = false -> exists da, (be_yada be (f_da (docs_made k)) = Some da /\ e_da e da = f_da (docs_made k)) /\
  build_dictionary be k dir = Ok [(lit "char_def.bin", enc_chardef docs_chars); (lit "unk.bin", enc_unknown (UnknownDictionary [[]] []));
    (lit "dict.words", f_words (docs_made k)); (lit "dict.wordsidx", f_words_idx (docs_made k)); (lit "dict.da", da); (lit "dict.vals", f_vals (docs_made k));
    (lit "matrix.mtx", [0; 0; 1; 0]%N)].
Proof.
  intros C. assert (W : forall b, written be b = Ok b) by (intros b; unfold written; rewrite C; reflexivity).
  destruct (dr_yada _ _ _ _ _ R (f_da (docs_made k))) as (da & Y & E).
  { rewrite docs_key. split; [discriminate|]. split; [|split; constructor]. constructor; [|constructor]. split; [destruct k; discriminate|]. split; [|lia].
    destruct k; vm_compute; intros I; repeat (destruct I as [I|I]; [discriminate I|]); exact I. }
  { rewrite docs_key. constructor; [|constructor]. exists (docs_word k). split; [left; reflexivity|reflexivity]. }
  exists da. split; [split; [exact Y|exact E]|]. unfold build_dictionary, build_chardef_file, build_unk_file, build_dict_files, build_matrix_file, read_text.
  rewrite (docs_read (lit "char.def") _ (or_introl eq_refl)), (docs_read (lit "unk.def") _ (or_intror (or_intror (or_introl eq_refl)))),
    (docs_read (lit "matrix.def") _ (or_intror (or_intror (or_intror (or_introl eq_refl))))). cbn [bind].
  rewrite !docs_ascii by (apply Forall_forall; intros c I; vm_compute in I; repeat (destruct I as [<-|I]; [lia|]); destruct I).
  assert (C1 : char_def_of (lit "DEFAULT 0 1 0" ++ [10%N]) = Ok docs_chars) by (vm_compute; reflexivity). rewrite C1. cbn [bind]. rewrite !W. cbn [bind].
  assert (U : forall (X : Type) (x : X), unwrapped k (Ok x) = Ok x) by (intros; destruct k; reflexivity). rewrite U. cbn [bind].
  assert (C2 : be_text be (kind_encoding k) [] = []) by (apply (dr_text _ _ _ _ _ R _ []); constructor). rewrite C2.
  assert (C3 : parse_unk (categories docs_chars) [] (unk_fields k) = Ok (UnknownDictionary [[]] [])) by (destruct k; vm_compute; reflexivity). rewrite C3. cbn [bind]. rewrite W, U. cbn [bind].
  rewrite docs_rows. cbn [bind].
  assert (C4 : build_dict (kind_dict_options k) [docs_row k] = Ok (docs_made k)) by (destruct k; vm_compute; reflexivity). rewrite C4. cbn [bind]. rewrite !W. cbn [bind].
  rewrite Y. cbn [ok_or bind]. rewrite !W. cbn [bind]. rewrite U. cbn [bind].
  assert (C5 : build_matrix (lit "0 1 0" ++ [10%N]) = Ok [0; 0; 1; 0]%N) by (vm_compute; reflexivity). rewrite C5. cbn [bind].
  rewrite W, U. reflexivity.
Qed.

Theorem docs_loads : be_compress be = false -> exists files, build_dictionary be k dir = Ok files /\
  forall out, files_at e out files -> load_dictionary e out = Ok (docs_dictionary k).
Proof.
  intros C. destruct (docs_files_built C) as (da & (_ & E) & B). eexists. split; [exact B|]. intros out F. unfold load_dictionary.
  assert (G : forall name bytes, In (name, bytes) [(lit "char_def.bin", enc_chardef docs_chars); (lit "unk.bin", enc_unknown (UnknownDictionary [[]] []));
    (lit "dict.words", f_words (docs_made k)); (lit "dict.wordsidx", f_words_idx (docs_made k)); (lit "dict.da", da); (lit "dict.vals", f_vals (docs_made k));
    (lit "matrix.mtx", [0; 0; 1; 0]%N)] -> read_file e (join_path out name) = Ok bytes).
  { intros name bytes I. unfold read_file. rewrite (F name bytes I). reflexivity. }
  rewrite (G (lit "dict.da") da), (G (lit "dict.vals") (f_vals (docs_made k))), (G (lit "matrix.mtx") [0; 0; 1; 0]%N), (G (lit "char_def.bin") (enc_chardef docs_chars)),
    (G (lit "unk.bin") (enc_unknown (UnknownDictionary [[]] []))), (G (lit "dict.wordsidx") (f_words_idx (docs_made k))), (G (lit "dict.words") (f_words (docs_made k))) by (cbn [In]; auto 12).
  cbn [bind]. assert (L1 : cm_load [0; 0; 1; 0]%N = Ok docs_matrix) by (vm_compute; reflexivity).
  assert (L2 : load_chardef (enc_chardef docs_chars) = Ok docs_chars) by (vm_compute; reflexivity).
  assert (L3 : load_unknown (enc_unknown (UnknownDictionary [[]] [])) = Ok (UnknownDictionary [[]] [])) by (vm_compute; reflexivity).
  rewrite L1, L2, L3. cbn [bind]. rewrite E. reflexivity.
Qed.
End Build.

(* the dictionary in the program, compressed or not *)
Definition reading (e : env) (f : str -> option (list N)) : env :=
  Env (e_parse e) (e_pretty e) (e_regex e) (e_graphemes e) (e_form e) (e_lower e) (e_upper e) (e_kana e) (e_block e) (e_embedded e) f (e_da e) (e_csv e).
Definition bytes_short (b : list N) : bool := forallb (fun x => x <? 256)%N b && (N.of_nat (List.length b) <? 10000)%N.
Lemma bytes_short_fine b : bytes_short b = true -> Forall is_byte b /\ short b.
Proof.
  unfold bytes_short. intros H. apply andb_true_iff in H as [H1 H2]. rewrite forallb_forall in H1. split.
  - apply Forall_forall. intros x I. apply N.ltb_lt. auto.
  - unfold short. apply N.ltb_lt in H2. eapply N.lt_trans; [exact H2|reflexivity].
Qed.
Lemma join_path_same out a b : join_path out a = join_path out b -> a = b.
Proof.
  unfold join_path. destruct (is_nil out || ends_with_char out 47%N); intros H; [apply app_inv_head in H; exact H|]. apply app_inv_head in H. injection H as H. exact H.
Qed.
Lemma find_file out (files : list (str * list N)) name bytes : NoDup (map fst files) -> In (name, bytes) files ->
  option_map snd (List.find (fun f => str_eqb (join_path out (fst f)) (join_path out name)) files) = Some bytes.
Proof.
  induction files as [|[n b] files IH]; intros ND I; [destruct I|]. cbn [map fst] in ND. inversion ND as [|? ? NI ND']; subst.
  cbn [List.find fst]. destruct (str_eqb (join_path out n) (join_path out name)) eqn:E.
  - apply str_eqb_spec, join_path_same in E. subst. destruct I as [I|I]; [injection I as <-; reflexivity|]. exfalso. apply NI. apply in_map_iff. exists (name, bytes). auto.
  - destruct I as [I|I]; [injection I as -> ->; rewrite (proj2 (str_eqb_spec _ _) eq_refl) in E; discriminate E|]. exact (IH ND' I).
Qed.
Theorem docs_embeds be e euc k dir feature files : docs_ready be e euc k dir -> codecs_inverse (be_codecs be) -> codecs_bytes (be_codecs be) -> yada_bytes be ->
  build_dictionary (with_compress feature be) k dir = Ok files ->
  forall get, contents get files -> embedded_dictionary e (be_codecs be) feature get = Ok (docs_dictionary k).
Proof.
  intros R CI CB YB B get G. destruct (embedded_same be feature k dir files CI CB B) as (plain & P & H).
  set (found name := option_map snd (List.find (fun f => str_eqb (join_path (lit "o") (fst f)) name) plain)).
  assert (R' : docs_ready (with_compress false be) (reading e found) euc k dir) by (destruct R; split; assumption).
  destruct (docs_files_built _ _ _ _ _ R' eq_refl) as (da & (Y & _) & P'). rewrite P in P'. injection P' as P'.
  destruct (docs_loads _ _ _ _ _ R' eq_refl) as (files' & P2 & L). rewrite P in P2. injection P2 as <-.
  assert (ND : NoDup (map fst plain)).
  { rewrite P'. cbn [map fst]. apply (NoDup_count_occ' (list_eq_dec N.eq_dec)). intros x I. cbn [In] in I.
    repeat (destruct I as [<-|I]; [vm_compute; reflexivity|]). destruct I. }
  assert (F : files_at (reading e found) (lit "o") plain) by (intros name bytes I; exact (find_file (lit "o") plain name bytes ND I)).
  change (embedded_dictionary e (be_codecs be) feature get) with (embedded_dictionary (reading e found) (be_codecs be) feature get).
  rewrite (H) with (out := lit "o"); [exact (L _ F)| |exact F|exact G]. destruct (YB _ _ Y) as [Y1 Y2]. rewrite P'. unfold byte_files.
  constructor; [apply bytes_short_fine; vm_compute; reflexivity|]. constructor; [apply bytes_short_fine; vm_compute; reflexivity|].
  constructor; [apply bytes_short_fine; destruct k; vm_compute; reflexivity|]. constructor; [apply bytes_short_fine; destruct k; vm_compute; reflexivity|].
  constructor; [auto|]. constructor; [apply bytes_short_fine; destruct k; vm_compute; reflexivity|]. constructor; [apply bytes_short_fine; vm_compute; reflexivity|constructor].
Qed.
