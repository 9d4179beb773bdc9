(** Properties C83 and C84: tokenization with any dictionary data, and when it panics. *)
From Coq Require Import String.
From Coq Require Import List NArith ZArith Bool Lia ZifyBool ZifyNat ZifyN.
From Verif Require Import MBase MUtf8 MText MCodec MDict MCharDef MUnk MLattice MTokenizer MBuild STok SPanic LUtf8 LDict LAny LPanic MConfig MBuilders SBuild SMatrix SBuilders SData LBuilders XSample XBuild XData XConfig XBuilders XMore.
Import ListNotations.
Local Open Scope string_scope.
Local Open Scope list_scope.

Theorem C83_ends : forall t text, exists r, tokenize t text = Some r /\ forall k, r <> Err k.
Proof. exact tokenize_any. Qed.
Print Assumptions C83_ends.

Theorem C83_pieces : forall t text ss ts, sentences text ss -> tokenize t text = Some (Ok ts) ->
  exists tss, ts = concat tss /\ Forall2 (fun s l => l = [] \/ concat (map tk_text l) = s) ss tss /\
    tiles (concat (map tk_text ts)) ts.
Proof. exact tokenize_any_tokens. Qed.
Print Assumptions C83_pieces.

(* a trie value that points behind the entries, a key that ends inside a character, no entry for the only category *)
Definition broken (da : double_array) (unk : list N) : tokenizer :=
  Tokenizer (Dictionary (PrefixDict da (we_serialize (sample_entry 0 true 1)) true) (ConnMatrix (i16_bytes 3) 1) sample_chars
               (UnknownDictionary [unk] [sample_unk]) [] []) None Normal.
Example C83_ex :
  tokenize (broken [(utf8 (lit "a"), 33%N)] [0%N]) (lit "a") = Some Panic /\
  tokenize (broken [([0xE3%N], 1%N)] [0%N]) [0x3042%N] = Some Panic /\
  option_map (fun r => match r with Ok ts => map (fun k => (tk_text k, tk_start k, tk_end k)) ts | _ => [] end)
    (tokenize (broken [(utf8 (lit "a"), 1%N); ([10%N], 1%N)] []) ([98%N; 10%N; 97%N; 97%N; 10%N])) =
    Some [(lit "a", 0, 1); (lit "a", 1, 2); ([10%N], 2, 3)].
Proof. vm_compute. auto. Qed.

Theorem C84_panics : forall t A text ss, means_words t A -> valid_str text -> sentences text ss ->
  (tokenize t text = Some Panic <-> exists s, In s ss /\ off_table A (t_mode t) (d_matrix (t_dictionary t)) s).
Proof. exact panic_iff. Qed.
Print Assumptions C84_panics.

Theorem C84_answer : forall t A text ss, means_words t A -> valid_str text -> sentences text ss ->
  (forall s, In s ss -> ~ off_table A (t_mode t) (d_matrix (t_dictionary t)) s) ->
  exists ts wss, tokenize t text = Some (Ok ts) /\ tokens_of_words ts (concat wss) /\ Forall2 (exact_answer A (t_mode t)) ss wss /\
    tiles (concat (map (fun wl => concat (map fst wl)) wss)) ts.
Proof. exact fine_answer. Qed.
Print Assumptions C84_answer.

(* a matrix of one cell and a user word x with the right context id r *)
Definition stray_matrix : conn_matrix := ConnMatrix (i16_bytes 3) 1.
Definition stray_entry (r : N) : word_entry := WordEntry (WordId 0 false) 1000 0 r.
Definition stray (r : N) : tokenizer :=
  Tokenizer (Dictionary small_dict stray_matrix sample_chars (UnknownDictionary [[0%N]] [sample_unk]) [] [])
    (Some (UserDictionary (PrefixDict [(utf8 (lit "x"), 1%N)] (we_serialize (stray_entry r)) false) [] [])) Normal.
Definition stray_meaning (r : N) : adict :=
  ADict [(lit "abc", [sample_entry 0 true 1])] [(lit "x", [stray_entry r])] (fun _ => [0%nat]) (fun _ => false) (fun _ => true) (fun _ => [sample_unk])
    (table_cost stray_matrix) 65536 65536.

Lemma stray_means : means_words (stray 7) (stray_meaning 7).
Proof.
  constructor.
  - apply dict_means_table. unfold da_of. repeat constructor; try (cbn; unfold valid_char; lia).
  - cbn [stray t_user stray_meaning a_usr]. apply dict_means_table. unfold da_of. repeat constructor; try (cbn; unfold valid_char; lia).
  - intros c V. unfold lookup_categories, lt_eval, lt_eval_with, binary_search.
    cbn [stray t_dictionary d_chardef sample_chars cds_mapping lt_boundaries lt_values binary_search_from].
    destruct (0 =? c)%N; [reflexivity|]. destruct (c <? 0)%N eqn:E; [lia|]. reflexivity.
  - intros c k V [<-|[]]. exists 0%N. reflexivity.
  - intros c k V [<-|[]]. eexists. split; reflexivity.
  - reflexivity.
  - split; reflexivity.
  - intros k e I. cbn [stray_meaning a_sys entries_of] in I. destruct (str_eqb _ k); [|destruct I]; destruct I as [<-|[]]; unfold entry_ok; cbn; unfold is_i16; lia.
  - intros k e I. cbn [stray_meaning a_usr entries_of] in I.
    destruct (str_eqb _ k); [|destruct I]; destruct I as [<-|[]]; unfold entry_ok; cbn; unfold is_i16; lia.
  - intros c k e V [<-|[]] [<-|[]]. unfold entry_ok. cbn. unfold is_i16. lia.
Qed.

(* the text with the word panics, and the one without it does not; a pair of ids can also lead to the cell of another pair *)
Example C84_ex : means_words (stray 7) (stray_meaning 7) /\
  tokenize (stray 7) (lit "abcx") = Some Panic /\ (exists ss s, sentences (lit "abcx") ss /\ In s ss /\ off_table (stray_meaning 7) Normal stray_matrix s) /\
  option_map (fun r => match r with Ok ts => map tk_text ts | _ => [] end) (tokenize (stray 7) (lit "abcd")) = Some [lit "abc"; lit "d"] /\
  let two := ConnMatrix (flat_map i16_bytes [1; 2; -3; 4]%Z) 2 in
    table_cost two 0 2 = (-3)%Z /\ table_cost two 1 0 = (-3)%Z /\ cm_cost two 0 2 = Ok (-3)%Z /\ outside two 2 0 /\ cm_cost two 2 0 = Panic.
Proof.
  pose proof stray_means as M. split; [exact M|]. assert (T : tokenize (stray 7) (lit "abcx") = Some Panic) by (vm_compute; reflexivity).
  split; [exact T|]. split.
  - assert (O : sentences (lit "abcx") [lit "abcx"]).
    { apply sent_open. split; [discriminate|]. repeat (apply Forall_cons; [intros H; vm_compute in H; intuition discriminate|]). apply Forall_nil. }
    destruct (proj1 (C84_panics _ _ _ _ M (ascii_valid "abcx") O) T) as (s & I & H). exists [lit "abcx"], s. auto.
  - vm_compute. auto 10.
Qed.

Theorem C84_user : forall be e k dir S C urows ud, has_sources be k dir S -> readable k S C ->
  yada_works be e (system_words k (s_rows S)) -> be_compress be = false ->
  build_user (kind_user_options k) urows = Ok ud -> user_room (kind_user_options k) urows ->
  exists files, build_dictionary be k dir = Ok files /\
    forall out, files_at e out files -> exists d A tbl, load_dictionary e out = Ok d /\ says k S C d A /\
      (forall s, found_of (user_found (kind_user_options k) ud) (user_rows_for s urows) (entries_of tbl s)) /\
      (forall f b, (f < c_fsize C)%N -> (b < c_bsize C)%N -> table_cost (d_matrix d) f b = matrix_cost (c_entries C) f b) /\
      forall m text ss, valid_str text -> sentences text ss ->
        (tokenize (Tokenizer d (Some ud) m) text = Some Panic <->
         exists s, In s ss /\ off_table (with_any_user A tbl (d_matrix d)) m (d_matrix d) s).
Proof. exact user_off_table. Qed.
Print Assumptions C84_user.

(* a user row with a context id that the matrix does not have is built without complaint, and makes every text with the word panic *)
Definition far_user : list row :=
  [ [lit "sky"; lit "1"; lit "60000"; lit "-77"; lit "1"; lit "2"; lit "3"; lit "4"; lit "5"; lit "6"; lit "7"; lit "8"; lit "9"] ].
Lemma far_user_room : user_room (kind_user_options IPADIC) far_user.
Proof.
  split; [discriminate|..].
  - constructor; [|constructor]. split; [|split; [discriminate|apply no_nulb_spec; vm_compute; reflexivity]].
    assert (G : Forall (Forall valid_str) far_user) by (apply rows_valid; vm_compute; reflexivity).
    inversion G as [|? ? G1 _]; subst. inversion G1; assumption.
  - constructor; [|constructor]. intros ds E. vm_compute in E. injection E as <-.
    match goal with |- Forall valid_str ?l => assert (G : Forall (Forall valid_str) [l]) by (apply rows_valid; vm_compute; reflexivity); inversion G; assumption end.
  - unfold is_i16, is_u16. cbn. lia.
  - vm_compute. reflexivity.
  - vm_compute. reflexivity.
Qed.
Example C84_user_ex : let be := src_env false src_files in let e := file_env (put (lit "out") (src_built false)) in
  has_sources be IPADIC (lit "in") src /\ readable IPADIC src src_content /\
  yada_works be e (system_words IPADIC (s_rows src)) /\ files_at e (lit "out") (src_built false) /\
  user_room (kind_user_options IPADIC) far_user /\
  exists ud d, build_user (kind_user_options IPADIC) far_user = Ok ud /\ load_dictionary e (lit "out") = Ok d /\
    tokenize (Tokenizer d (Some ud) Normal) (lit "asky") = Some Panic /\
    option_map (fun r => match r with Ok ts => map tk_text ts | _ => [] end) (tokenize (Tokenizer d (Some ud) Normal) (lit "abd")) = Some [lit "ab"; lit "d"].
Proof.
  cbv zeta. split; [apply src_sources|]. split; [exact src_readable|].
  split; [apply sample_yada_works; vm_compute; reflexivity|]. split; [apply put_files_at, src_built_names|].
  split; [exact far_user_room|].
  eexists _, _. split; [vm_compute; reflexivity|]. split; [vm_compute; reflexivity|]. split; vm_compute; reflexivity.
Qed.
