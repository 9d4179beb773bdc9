(** Property C63: a built dictionary together with a user dictionary. *)
From Coq Require Import String.
From Coq Require Import List NArith ZArith Bool Lia.
From Verif Require Import MBase MUtf8 MText MCodec MDict MCharDef MUnk MBincode MLattice MTokenizer MDetails MBuild MConfig MBuilders
  STok SBuild SMatrix SCharDef SUnk SData SConfig SBuilders LWhole XSample XBuild XData XConfig XBuilders.
Import ListNotations.
Local Open Scope string_scope.
Local Open Scope list_scope.

(** * C63: tokens come from the sources *)

Theorem C63_meaning : forall be e k dir S C urows ud, has_sources be k dir S -> readable k S C ->
  yada_works be e (system_words k (s_rows S)) -> be_compress be = false ->
  build_user (kind_user_options k) urows = Ok ud -> user_room (kind_user_options k) urows -> user_ids_fit k urows C ->
  exists files, build_dictionary be k dir = Ok files /\
    forall out, files_at e out files -> exists d A tbl, load_dictionary e out = Ok d /\ says k S C d A /\
      (forall s, found_of (user_found (kind_user_options k) ud) (user_rows_for s urows) (entries_of tbl s)) /\
      forall m, represents (Tokenizer d (Some ud) m) (with_user A tbl).
Proof. exact user_meaning. Qed.
Print Assumptions C63_meaning.

Theorem C63_tokens : forall be e k dir S C urows ud, has_sources be k dir S -> readable k S C -> complete C ->
  yada_works be e (system_words k (s_rows S)) -> be_compress be = false ->
  build_user (kind_user_options k) urows = Ok ud -> user_room (kind_user_options k) urows -> user_ids_fit k urows C ->
  exists files, build_dictionary be k dir = Ok files /\
    forall out, files_at e out files -> exists d, load_dictionary e out = Ok d /\
      forall m text, valid_str text -> exists ts, tokenize (Tokenizer d (Some ud) m) text = Some (Ok ts) /\ tiles text ts /\
        forall tok, In tok ts -> exists ds, get_details d (Some ud) (tk_word tok) None = Ok (Some ds, Some ds) /\
          comes_from k S C urows (tk_text tok) ds.
Proof. exact tokens_come_from. Qed.
Print Assumptions C63_tokens.

Example C63_ex : let be := src_env false src_files in let e := file_env (put (lit "out") (src_built false)) in
  has_sources be IPADIC (lit "in") src /\ readable IPADIC src src_content /\ complete src_content /\
  yada_works be e (system_words IPADIC (s_rows src)) /\ files_at e (lit "out") (src_built false) /\
  user_room (kind_user_options IPADIC) small_user /\ user_ids_fit IPADIC small_user src_content /\
  exists ud d, build_user (kind_user_options IPADIC) small_user = Ok ud /\ load_dictionary e (lit "out") = Ok d /\
    option_map (fun r => match r with
      | Ok ts => map (fun t => (tk_text t, match get_details d (Some ud) (tk_word t) None with Ok (Some ds, _) => hd [] ds | _ => [] end)) ts
      | _ => [] end) (tokenize (Tokenizer d (Some ud) Normal) (lit "abskyd")) =
      Some [(lit "ab", lit "noun"); (lit "sky", lit "1"); (lit "d", lit "UNK")].
Proof.
  cbv zeta. split; [apply src_sources|]. split; [exact src_readable|]. split; [exact src_complete|].
  split; [apply sample_yada_works; vm_compute; reflexivity|]. split; [apply put_files_at, src_built_names|].
  split; [exact small_user_room|]. split; [exact small_user_fits|].
  eexists _, _. split; [vm_compute; reflexivity|]. split; [vm_compute; reflexivity|]. vm_compute. reflexivity.
Qed.
