(** C100: dictionaries whose context ids and connection matrix need not go together. *)
From Coq Require Import String.
From Coq Require Import List NArith ZArith Bool.
From Verif Require Import MBase MUtf8 MText MCodec MDict MCharDef MUnk MBincode MLattice MTokenizer MDetails MBuild MConfig MBuilders
  STok SBuild SMatrix SCharDef SUnk SBuilders SPanic SLoose LLoose XBuild XConfig XBuilders XLoose.
Import ListNotations.
Local Open Scope list_scope.

(** Sources that follow their formats are built and load whatever the context ids are.  Tokenization panics exactly for the
    texts with a sentence whose search reads a cell behind the end of the matrix, and answers all others exactly. *)
Theorem C100_built : forall be e k dir S C, has_sources be k dir S -> loose k S C -> yada_works be e (system_words k (s_rows S)) ->
  be_compress be = false ->
  exists files, build_dictionary be k dir = Ok files /\
  forall out, files_at e out files -> exists d A, load_dictionary e out = Ok d /\ says k S C d A /\
    (forall f b, outside (d_matrix d) f b <-> (c_fsize C * c_bsize C <= (b + f * c_bsize C) mod 4294967296)%N) /\
    (forall f b, (f < c_fsize C)%N -> (b < c_bsize C)%N -> table_cost (d_matrix d) f b = matrix_cost (c_entries C) f b) /\
    forall m text ss, valid_str text -> sentences text ss ->
      (tokenize (Tokenizer d None m) text = Some Panic <->
       exists s, In s ss /\ off_table (with_any_user A [] (d_matrix d)) m (d_matrix d) s) /\
      ((forall s, In s ss -> ~ off_table (with_any_user A [] (d_matrix d)) m (d_matrix d) s) ->
       exists ts wss, tokenize (Tokenizer d None m) text = Some (Ok ts) /\ tokens_of_words ts (concat wss) /\
         Forall2 (exact_answer (with_any_user A [] (d_matrix d)) m) ss wss).
Proof. exact loose_outcome. Qed.
Print Assumptions C100_built.
(* a matrix of one cell, and words with the context id 1: ab makes the search panic, the unknown word x does not *)
Definition tight_built : list (str * list N) :=
  match build_dictionary (src_env false tight_files) IPADIC (lit "in") with Ok f => f | _ => [] end.
Example C100_built_ex : has_sources (src_env false tight_files) IPADIC (lit "in") tight_src /\ loose IPADIC tight_src tight_content /\
  yada_works (src_env false tight_files) (file_env (put (lit "out") tight_built)) (system_words IPADIC (s_rows tight_src)) /\
  exists d ts, load_dictionary (file_env (put (lit "out") tight_built)) (lit "out") = Ok d /\
    tokenize (Tokenizer d None Normal) (lit "ab") = Some Panic /\
    tokenize (Tokenizer d None Normal) (lit "x") = Some (Ok ts) /\ List.length ts = 1%nat.
Proof.
  split; [apply tight_sources|]. split; [exact tight_loose|]. split; [apply sample_yada_works; vm_compute; reflexivity|].
  eexists. eexists. split; [vm_compute; reflexivity|]. split; [vm_compute; reflexivity|]. split; [vm_compute; reflexivity|reflexivity].
Qed.

(** The same with a user dictionary. *)
Theorem C100_user : forall be e k dir S C, has_sources be k dir S -> loose k S C -> yada_works be e (system_words k (s_rows S)) ->
  be_compress be = false -> forall urows ud, build_user (kind_user_options k) urows = Ok ud -> user_room (kind_user_options k) urows ->
  exists files, build_dictionary be k dir = Ok files /\
  forall out, files_at e out files -> exists d A tbl, load_dictionary e out = Ok d /\ says k S C d A /\
    (forall s, found_of (user_found (kind_user_options k) ud) (user_rows_for s urows) (entries_of tbl s)) /\
    (forall f b, outside (d_matrix d) f b <-> (c_fsize C * c_bsize C <= (b + f * c_bsize C) mod 4294967296)%N) /\
    (forall f b, (f < c_fsize C)%N -> (b < c_bsize C)%N -> table_cost (d_matrix d) f b = matrix_cost (c_entries C) f b) /\
    forall m text ss, valid_str text -> sentences text ss ->
      (tokenize (Tokenizer d (Some ud) m) text = Some Panic <->
       exists s, In s ss /\ off_table (with_any_user A tbl (d_matrix d)) m (d_matrix d) s) /\
      ((forall s, In s ss -> ~ off_table (with_any_user A tbl (d_matrix d)) m (d_matrix d) s) ->
       exists ts wss, tokenize (Tokenizer d (Some ud) m) text = Some (Ok ts) /\ tokens_of_words ts (concat wss) /\
         Forall2 (exact_answer (with_any_user A tbl (d_matrix d)) m) ss wss).
Proof. exact loose_user. Qed.
Print Assumptions C100_user.
(* the user word sky has the left context id 1 *)
Example C100_user_ex : exists d ud ts, load_dictionary (file_env (put (lit "out") tight_built)) (lit "out") = Ok d /\
  build_user (kind_user_options IPADIC) small_user = Ok ud /\ tokenize (Tokenizer d (Some ud) Normal) (lit "sky") = Some Panic /\
  tokenize (Tokenizer d (Some ud) Normal) (lit "x") = Some (Ok ts).
Proof.
  eexists. eexists. eexists. split; [vm_compute; reflexivity|]. split; [vm_compute; reflexivity|]. split; [vm_compute; reflexivity|].
  vm_compute; reflexivity.
Qed.
