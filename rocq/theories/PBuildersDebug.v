(** C110 for whole builds. *)
From Coq Require Import String.
From Coq Require Import List NArith ZArith Bool Lia.
From Verif Require Import MBase MUtf8 MText MCodec MDict MCharDef MUnk MBincode MLattice MTokenizer MDetails MBuild MConfig MBuilders MLattice32 MDebug MBuildDebug MBuildersDebug
  STok SBuild SMatrix SCharDef SUnk SData SConfig SBuilders SFault SWork SCast SDebug SBuildDebug LBuild LBuilders LDebug LBuildersDebug XSample XBuild XData XConfig XBuilders.
Import ListNotations.
Local Open Scope string_scope.
Local Open Scope list_scope.

(** C110: a whole build in a debug build panics or writes what a release build writes; the same for a user dictionary *)
Theorem C110_build_agrees : forall be k,
  (forall dir, build_dictionary_debug be k dir = Panic \/ build_dictionary_debug be k dir = build_dictionary be k dir) /\
  (forall path, build_user_file_debug be k path = Panic \/ build_user_file_debug be k path = build_user_file be k path).
Proof. intros be k. split; [exact (build_sop be k)|exact (user_file_sop be k)]. Qed.
Print Assumptions C110_build_agrees.

(* whether the build succeeds or not *)
Theorem C110_build : forall be k dir S fsize bsize entries, has_sources be k dir S -> matrix_def (s_matrix S) fsize bsize entries ->
  (cells_fit fsize bsize entries -> (N.of_nat (List.length (s_rows S)) < 4294967296)%N -> build_dictionary_debug be k dir = build_dictionary be k dir) /\
  (~ cells_fit fsize bsize entries -> forall files, build_dictionary_debug be k dir <> Ok files).
Proof.
  intros be k dir S fsize bsize entries HS M. split; [intros F L; exact (build_same be k dir S fsize bsize entries HS M F L)|intros F; exact (build_panics be k dir S fsize bsize entries HS M F)].
Qed.
Print Assumptions C110_build.

(* sources as in C56 *)
Theorem C110_build_readable : forall be e k dir S C, has_sources be k dir S -> readable k S C -> yada_works be e (system_words k (s_rows S)) -> be_compress be = false ->
  exists files, build_dictionary_debug be k dir = Ok files /\ build_dictionary be k dir = Ok files.
Proof. exact build_readable. Qed.
Print Assumptions C110_build_readable.

Theorem C110_user : forall be k path,
  (forall b rows, e_read (be_env be) path = Some b -> e_csv (be_env be) b = Ok rows -> (N.of_nat (List.length rows) < 4294967296)%N) ->
  build_user_file_debug be k path = build_user_file be k path.
Proof. exact user_file_same. Qed.
Print Assumptions C110_user.

(* a debug build of the builder and of the tokenizer, one after the other *)
Theorem C110_from_sources : forall be e k dir S C, has_sources be k dir S -> readable k S C -> yada_works be e (system_words k (s_rows S)) -> be_compress be = false ->
  exists files, build_dictionary_debug be k dir = Ok files /\ build_dictionary be k dir = Ok files /\
    forall out, files_at e out files -> exists d A, load_dictionary e out = Ok d /\ says k S C d A /\
      forall m text ss, valid_str text -> sentences text ss -> Forall (fits_i32 m) ss -> Forall (fits_u32 A) ss ->
        tokenize_debug (Tokenizer d None m) text = tokenize (Tokenizer d None m) text.
Proof.
  intros be e k dir S C HS R Y NC. destruct (build_readable be e k dir S C HS R Y NC) as (files & D & B). exists files. split; [exact D|]. split; [exact B|].
  destruct (built_agrees be e k dir S C HS R Y NC) as (files' & B' & H). rewrite B in B'. injection B' as <-. exact H.
Qed.
Print Assumptions C110_from_sources.

Example C110_build_ex : let be := src_env false src_files in let e := file_env (put (lit "out") (src_built false)) in
  has_sources be IPADIC (lit "in") src /\ readable IPADIC src src_content /\ yada_works be e (system_words IPADIC (s_rows src)) /\
  build_dictionary_debug be IPADIC (lit "in") = Ok (src_built false).
Proof.
  cbv zeta. split; [apply src_sources|]. split; [exact src_readable|]. split; [apply sample_yada_works; vm_compute; reflexivity|]. vm_compute. reflexivity.
Qed.
Example C110_build_fails_ex : build_dictionary_debug (src_env false []) IPADIC (lit "in") = Err EIo /\ build_dictionary_debug (src_env false []) KoDic (lit "in") = Panic.
Proof. split; vm_compute; reflexivity. Qed.
Example C110_user_ex : let be := src_env false src_files in
  (forall b rows, e_read (be_env be) (lit "my/user.csv") = Some b -> e_csv (be_env be) b = Ok rows -> (N.of_nat (List.length rows) < 4294967296)%N) /\
  exists file, build_user_file_debug be IPADIC (lit "my/user.csv") = Ok file.
Proof.
  cbv zeta. split; [|eexists; vm_compute; reflexivity]. destruct (user_sample_readable IPADIC eq_refl) as [(b0 & E1 & E2 & _) _ _ _].
  intros b rows H1 H2. rewrite E1 in H1. injection H1 as <-. rewrite E2 in H2. injection H2 as <-. vm_compute. reflexivity.
Qed.
