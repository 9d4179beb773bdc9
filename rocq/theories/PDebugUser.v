(** C99 for a built dictionary together with a user dictionary. *)
From Coq Require Import String.
From Coq Require Import List NArith ZArith Bool Lia.
From Verif Require Import MBase MUtf8 MText MCodec MDict MCharDef MUnk MBincode MLattice MTokenizer MDetails MLattice32 MDebug MBuild MConfig MBuilders.
From Verif Require Import STok SWork SCast SDebug SBuild SMatrix SCharDef SUnk SData SConfig SBuilders LUtf8 LTok LCast LDebugUser XSample XCast XBuild XData XConfig XBuilders.
Import ListNotations.
Local Open Scope string_scope.
Local Open Scope list_scope.

(** C99: also with a user dictionary, debug builds, release builds and the model with unbounded numbers give the same tokens if the costs fit. *)
Theorem C99_built_user : forall be e k dir S C urows ud,
  has_sources be k dir S -> readable k S C -> yada_works be e (system_words k (s_rows S)) -> be_compress be = false ->
  build_user (kind_user_options k) urows = Ok ud -> user_room (kind_user_options k) urows -> user_ids_fit k urows C ->
  exists files, build_dictionary be k dir = Ok files /\ forall out, files_at e out files -> exists d A tbl, load_dictionary e out = Ok d /\ says k S C d A /\
    (forall s, found_of (user_found (kind_user_options k) ud) (user_rows_for s urows) (entries_of tbl s)) /\
    forall m text ss, valid_str text -> sentences text ss -> Forall (fits_i32 m) ss -> Forall (fits_u32 (with_user A tbl)) ss ->
      tokenize_debug (Tokenizer d (Some ud) m) text = tokenize (Tokenizer d (Some ud) m) text /\
      tokenize32 (Tokenizer d (Some ud) m) text = tokenize (Tokenizer d (Some ud) m) text.
Proof. exact built_user_agrees. Qed.
Print Assumptions C99_built_user.

Example C99_built_user_ex : let be := src_env false src_files in let e := file_env (put (lit "out") (src_built false)) in
  has_sources be IPADIC (lit "in") src /\ readable IPADIC src src_content /\
  yada_works be e (system_words IPADIC (s_rows src)) /\ files_at e (lit "out") (src_built false) /\
  user_room (kind_user_options IPADIC) small_user /\ user_ids_fit IPADIC small_user src_content /\
  sentences (lit "abskyd") [lit "abskyd"] /\ fits_i32 Normal (lit "abskyd") /\
  exists ud d, build_user (kind_user_options IPADIC) small_user = Ok ud /\ load_dictionary e (lit "out") = Ok d /\
    option_map (fun r => match r with Ok ts => map tk_text ts | _ => [] end) (tokenize_debug (Tokenizer d (Some ud) Normal) (lit "abskyd")) =
      Some [lit "ab"; lit "sky"; lit "d"].
Proof.
  cbv zeta. split; [apply src_sources|]. split; [exact src_readable|].
  split; [apply sample_yada_works; vm_compute; reflexivity|]. split; [apply put_files_at, src_built_names|].
  split; [exact small_user_room|]. split; [exact small_user_fits|]. split; [exact (split_sentences (lit "abskyd"))|]. split; [vm_compute; reflexivity|].
  eexists _, _. split; [vm_compute; reflexivity|]. split; [vm_compute; reflexivity|]. vm_compute. reflexivity.
Qed.
