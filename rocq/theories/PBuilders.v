(** Properties C56-C62: whole dictionary builds. *)
From Coq Require Import String.
From Coq Require Import List NArith ZArith Bool.
From Verif Require Import MBase MUtf8 MText MCodec MDict MCharDef MUnk MBincode MLattice MTokenizer MDetails MBuild MConfig MBuilders
  STok SBuild SMatrix SCharDef SUnk SData SConfig SBuilders SFault LBuild LBuilders LUserFile LEmbedded LFault XSample XBuild XData XConfig XBuilders.
Import ListNotations.
Local Open Scope string_scope.
Local Open Scope list_scope.

(** * C56: a built dictionary means what its sources say *)

Theorem C56_meaning : forall be e k dir S C,
  has_sources be k dir S -> readable k S C -> yada_works be e (system_words k (s_rows S)) -> be_compress be = false ->
  exists files, build_dictionary be k dir = Ok files /\
    forall out, files_at e out files ->
      exists d A, load_dictionary e out = Ok d /\ says k S C d A /\ forall m, represents (Tokenizer d None m) A.
Proof. exact built_dictionary. Qed.
Print Assumptions C56_meaning.

Theorem C56_tokenizes : forall be e k dir S C,
  has_sources be k dir S -> readable k S C -> yada_works be e (system_words k (s_rows S)) -> be_compress be = false -> complete C ->
  exists files, build_dictionary be k dir = Ok files /\
    forall out, files_at e out files -> exists d, load_dictionary e out = Ok d /\
      forall m text, valid_str text -> exists ts, tokenize (Tokenizer d None m) text = Some (Ok ts) /\ tiles text ts.
Proof. exact built_tokenizer. Qed.
Print Assumptions C56_tokenizes.

Example C56_ex : let be := src_env false src_files in let e := file_env (put (lit "out") (src_built false)) in
  has_sources be IPADIC (lit "in") src /\ readable IPADIC src src_content /\ yada_works be e (system_words IPADIC (s_rows src)) /\
  complete src_content /\ build_dictionary be IPADIC (lit "in") = Ok (src_built false) /\ files_at e (lit "out") (src_built false) /\
  exists d, load_dictionary e (lit "out") = Ok d /\
    option_map (fun r => match r with Ok ts => map (fun t => (tk_start t, tk_end t)) ts | _ => [] end) (tokenize (Tokenizer d None Normal) (lit "abbab")) =
      Some [(0, 2); (2, 3); (3, 5)].
Proof.
  cbv zeta. split; [apply src_sources|]. split; [exact src_readable|]. split; [apply sample_yada_works; vm_compute; reflexivity|].
  split; [exact src_complete|]. split; [vm_compute; reflexivity|]. split; [apply put_files_at, src_built_names|].
  eexists. split; [vm_compute; reflexivity|]. vm_compute. reflexivity.
Qed.

(** * C57: a compiled user dictionary is the one in the CSV file *)

Theorem C57_same : forall be e k path rows, user_readable (be_env be) k path rows -> yada_works be e (user_words rows) -> yada_bytes be ->
  exists d file, build_user (kind_user_options k) rows = Ok d /\ load_user_dictionary_from_csv (be_env be) k path = Ok d /\
    build_user_file be k path = Ok file /\
    forall p, e_read e p = Some file -> load_user_dictionary_from_bin e p = Ok d.
Proof. exact user_file_loads. Qed.
Print Assumptions C57_same.

Example C57_ex : let be := src_env false src_files in
  user_readable (be_env be) IPADIC (lit "my/user.csv") user_sample /\ yada_bytes be /\
  exists file, build_user_file be IPADIC (lit "my/user.csv") = Ok file /\
    let e := file_env [(lit "u.bin", file)] in yada_works be e (user_words user_sample) /\
    load_user_dictionary_from_bin e (lit "u.bin") = load_user_dictionary_from_csv (be_env be) IPADIC (lit "my/user.csv").
Proof.
  cbv zeta. split; [apply user_sample_readable; reflexivity|]. split; [apply sample_yada_bytes|]. eexists. split; [vm_compute; reflexivity|].
  split; [apply sample_yada_works; vm_compute; reflexivity|]. vm_compute. reflexivity.
Qed.

(** * C58: an embedded dictionary, compressed or not, is the one loaded from files *)

Theorem C58_embedded : forall be feature k dir files, codecs_inverse (be_codecs be) -> codecs_bytes (be_codecs be) ->
  build_dictionary (with_compress feature be) k dir = Ok files ->
  exists plain, build_dictionary (with_compress false be) k dir = Ok plain /\
    (byte_files plain -> forall e out get, files_at e out plain -> contents get files ->
      embedded_dictionary e (be_codecs be) feature get = load_dictionary e out).
Proof. exact embedded_same. Qed.
Print Assumptions C58_embedded.

(* files built with compression cannot be loaded from a directory *)
Theorem C58_by_path_refuted : forall be k dir files e out, be_compress be = true ->
  (forall data z, k_encode (be_codecs be) Deflate data = Some z -> z <> []) ->
  build_dictionary be k dir = Ok files ->
  (forall bytes, In (lit "char_def.bin", bytes) files -> (N.of_nat (List.length bytes) < 4294967296)%N) ->
  files_at e out files -> load_dictionary e out = Err EDeserialize.
Proof. exact compressed_by_path. Qed.
Print Assumptions C58_by_path_refuted.

Definition get_file (files : list (str * list N)) (name : str) : list N :=
  match find (fun f => str_eqb (fst f) name) files with Some f => snd f | None => [] end.
Example C58_ex : let be := src_env true src_files in let e := file_env (put (lit "out") (src_built false)) in
  codecs_inverse (be_codecs be) /\ codecs_bytes (be_codecs be) /\
  build_dictionary be IPADIC (lit "in") = Ok (src_built true) /\ byte_files (src_built false) /\
  files_at e (lit "out") (src_built false) /\
  (exists d, embedded_dictionary e (be_codecs be) true (get_file (src_built true)) = Ok d) /\
  load_dictionary (file_env (put (lit "out") (src_built true))) (lit "out") = Err EDeserialize.
Proof.
  cbv zeta. split; [exact codecs_sample_inverse|]. split; [exact codecs_sample_bytes|]. split; [vm_compute; reflexivity|].
  split; [|split; [apply put_files_at, src_built_names|split; [eexists; vm_compute; reflexivity|vm_compute; reflexivity]]].
  assert (H : forallb (fun f => forallb (fun b => b <? 256)%N (snd f) && (N.of_nat (List.length (snd f)) <? 10000)%N) (src_built false) = true) by (vm_compute; reflexivity).
  rewrite forallb_forall in H. apply Forall_forall. intros [n b] I1. specialize (H _ I1). cbn [snd] in H. apply andb_true_iff in H. destruct H as [H1 H2]. split.
  - rewrite forallb_forall in H1. apply Forall_forall. intros x I2. apply N.ltb_lt. auto.
  - unfold short. apply N.ltb_lt in H2. eapply N.lt_trans; [exact H2|reflexivity].
Qed.

(** * C59: faulty sources *)

Theorem C59_reported_partial : forall be k dir er, reports_errors k -> be_compress be = false -> build_fault be k dir er ->
  build_dictionary be k dir = Err er.
Proof. exact faults_reported. Qed.
Print Assumptions C59_reported_partial.

Theorem C59_panic_refuted : forall be k dir er, k = KoDic \/ k = CcCedict -> be_compress be = false -> build_fault be k dir er ->
  build_dictionary be k dir = Panic.
Proof. exact faults_panic. Qed.
Print Assumptions C59_panic_refuted.

Example C59_ex :
  build_fault (src_env false []) IPADIC (lit "in") EIo /\ build_dictionary (src_env false []) IPADIC (lit "in") = Err EIo /\
  build_fault (src_env false []) KoDic (lit "in") EIo /\ build_dictionary (src_env false []) KoDic (lit "in") = Panic /\
  let be := src_env false [(lit "in/char.def", lit "DEFAULT 0 1"%string)] in
  build_fault be IPADIC (lit "in") EContent /\ build_dictionary be IPADIC (lit "in") = Err EContent.
Proof.
  split; [apply fault_no_char; reflexivity|]. split; [vm_compute; reflexivity|]. split; [apply fault_no_char; reflexivity|]. split; [vm_compute; reflexivity|].
  cbv zeta. split; [|vm_compute; reflexivity]. eapply fault_bad_char; [eexists; split; vm_compute; reflexivity|]. vm_compute. reflexivity.
Qed.
Example C59_ex_no_matrix : let be := src_env false (filter (fun f => negb (str_eqb (fst f) (lit "in/matrix.def"))) src_files) in
  build_fault be IPADIC (lit "in") EIo /\ build_dictionary be IPADIC (lit "in") = Err EIo.
Proof.
  cbv zeta. split; [|vm_compute; reflexivity]. apply (fault_no_matrix _ _ _ [lit "words.csv"] [src_rows]).
  - exists src_char. eexists. split; [eexists; split; vm_compute; reflexivity|vm_compute; reflexivity].
  - exists src_unk, (c_unk src_content). split; [eexists; split; vm_compute; reflexivity|exact src_unk_lines].
  - reflexivity.
  - constructor; [|constructor]. exists [1%N]. split; [vm_compute; reflexivity|]. split; [reflexivity|]. right. exists 5. repeat constructor.
  - cbn [concat app]. exact (limits_room _ _ src_limits).
  - right. repeat constructor; vm_compute; discriminate.
  - exists (file_env []). apply sample_yada_works. vm_compute. reflexivity.
  - vm_compute. reflexivity.
Qed.

(** * C60: the build command compiles user dictionaries *)

Theorem C60_cli_user : forall be e k dir name dest rows,
  dir = [] \/ (exists d, dir = d ++ [47%N]) -> name <> [] -> ~ In 47%N name ->
  let src := dir ++ name ++ lit ".csv" in let out := join_path dest (name ++ lit ".bin") in
  user_readable (be_env be) k src rows -> yada_works be e (user_words rows) -> yada_bytes be ->
  exists d file, cli_build be true k src dest = Ok [(out, file)] /\
    load_user_dictionary_from_config (be_env be) (UserDictionaryConfig src (Some k)) = Ok d /\
    (e_read e out = Some file -> forall k', load_user_dictionary_from_config e (UserDictionaryConfig out k') = Ok d).
Proof. exact cli_user_build. Qed.
Print Assumptions C60_cli_user.

(* the name of the file for any source path *)
Theorem C60_output : forall be k src dest,
  (forall name, last_name src name -> exists new, renamed name (lit "bin") new) /\
  (forall name new, last_name src name -> renamed name (lit "bin") new ->
     cli_build be true k src dest = do bytes <- build_user_file be k src; Ok [(join_path dest new, bytes)]) /\
  ((forall name, ~ last_name src name) -> cli_build be true k src dest = Err EIo).
Proof. exact cli_user_output. Qed.
Print Assumptions C60_output.

Example C60_ex_output : last_name (lit "my/.words/.") (lit ".words") /\ renamed (lit ".words") (lit "bin") (lit ".words.bin") /\
  renamed (lit "a.b.csv") (lit "bin") (lit "a.b.bin") /\ renamed (lit "words") (lit "bin") (lit "words.bin") /\ forall name, ~ last_name (lit "my/..") name.
Proof.
  split; [apply file_name_parts; vm_compute; reflexivity|]. split; [apply renamed_iff; vm_compute; reflexivity|]. split; [apply renamed_iff; vm_compute; reflexivity|].
  split; [apply renamed_iff; vm_compute; reflexivity|]. intros name H. apply file_name_parts in H. vm_compute in H. discriminate.
Qed.

Example C60_ex : let be := src_env false src_files in
  user_readable (be_env be) IPADIC (lit "my/" ++ lit "user" ++ lit ".csv") user_sample /\
  exists file, cli_build be true IPADIC (lit "my/user.csv") (lit "out") = Ok [(lit "out/user.bin", file)] /\
    exists d, load_user_dictionary_from_config (file_env [(lit "out/user.bin", file)]) (UserDictionaryConfig (lit "out/user.bin") None) = Ok d.
Proof.
  cbv zeta. split; [apply (user_sample_readable IPADIC); reflexivity|]. eexists. split; [vm_compute; reflexivity|]. eexists. vm_compute. reflexivity.
Qed.

(** * C61: a dictionary is loaded from seven files *)

Theorem C61_local : forall e e' out out',
  (forall name, In name dictionary_files -> e_read e (join_path out name) = e_read e' (join_path out' name)) ->
  (forall b, e_da e b = e_da e' b) -> load_dictionary e out = load_dictionary e' out'.
Proof. exact load_local. Qed.
Print Assumptions C61_local.

Theorem C61_missing_partial : forall e out name, In name dictionary_files -> e_read e (join_path out name) = None ->
  (forall b, e_read e (join_path out (lit "matrix.mtx")) = Some b -> (4 <= List.length b)%nat) -> exists er, load_dictionary e out = Err er.
Proof. exact missing_file. Qed.
Print Assumptions C61_missing_partial.

Theorem C61_short_matrix_refuted : forall e out da vals b,
  e_read e (join_path out (lit "dict.da")) = Some da -> e_read e (join_path out (lit "dict.vals")) = Some vals ->
  e_read e (join_path out (lit "matrix.mtx")) = Some b -> (List.length b < 4)%nat -> load_dictionary e out = Panic.
Proof. exact short_matrix. Qed.
Print Assumptions C61_short_matrix_refuted.

Example C61_ex : let files := src_built false in
  List.length files = 7 /\ (exists d, load_dictionary (file_env (put (lit "out") files)) (lit "out") = Ok d) /\
  forallb (fun name => match load_dictionary (file_env (put (lit "out") (filter (fun f => negb (str_eqb (fst f) name)) files))) (lit "out") with
                       | Err EIo => true | _ => false end) dictionary_files = true /\
  load_dictionary (file_env [(lit "out/dict.da", []); (lit "out/dict.vals", []); (lit "out/matrix.mtx", [0%N; 0%N])]) (lit "out") = Panic.
Proof. cbv zeta. split; [vm_compute; reflexivity|]. split; [eexists; vm_compute; reflexivity|]. split; vm_compute; reflexivity. Qed.

(** * C62: user rows of different lengths *)

Theorem C62_mixed_refuted : forall e k path bytes rows, e_read e path = Some bytes -> e_csv e bytes = Ok rows ->
  ~ (exists n, Forall (fun r : row => List.length r = n) rows) ->
  k = UniDic \/ k = KoDic \/ k = CcCedict -> load_user_dictionary_from_csv e k path = Err EDictionaryBuild.
Proof. exact mixed_user_rows. Qed.
Print Assumptions C62_mixed_refuted.

Theorem C62_ipadic_partial : forall e k path bytes rows d, k = IPADIC \/ k = IPADICNEologd ->
  e_read e path = Some bytes -> e_csv e bytes = Ok rows -> build_user (kind_user_options k) rows = Ok d ->
  load_user_dictionary_from_csv e k path = Ok d.
Proof. exact mixed_ipadic_rows. Qed.
Print Assumptions C62_ipadic_partial.

Example C62_ex : let e := file_env [(lit "u", [2%N])] in
  e_csv e [2%N] = Ok user_sample /\ ~ (exists n, Forall (fun r : row => List.length r = n) user_sample) /\
  (exists d, build_user (kind_user_options IPADIC) user_sample = Ok d /\ load_user_dictionary_from_csv e IPADIC (lit "u") = Ok d) /\
  load_user_dictionary_from_csv e UniDic (lit "u") = Err EDictionaryBuild.
Proof.
  cbv zeta. split; [reflexivity|]. split; [|split; [eexists; split; vm_compute; reflexivity|vm_compute; reflexivity]].
  intros (n & F). inversion F as [|? ? H1 F']; subst. inversion F' as [|? ? H2 F'']; subst. discriminate H2.
Qed.
