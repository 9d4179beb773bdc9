(** Property C86: what a build leaves in the output directory. *)
From Coq Require Import String.
From Coq Require Import List NArith ZArith Bool.
From Verif Require Import MBase MUtf8 MText MCodec MDict MCharDef MUnk MBincode MLattice MTokenizer MBuild MConfig MBuilders MDisk
  STok SBuild SMatrix SCharDef SUnk SData SConfig SBuilders LBuilders LDisk XSample XBuild XData XConfig XBuilders.
Import ListNotations.
Local Open Scope string_scope.
Local Open Scope list_scope.

(** * C86: after success everything is new; after a failure no loadable dictionary appears where none was *)

Theorem C86_result : forall be k dir d,
  snd (write_dictionary be k dir d) = match build_dictionary be k dir with Ok _ => Ok tt | Err er => Err er | Panic => Panic end.
Proof. exact write_result. Qed.
Print Assumptions C86_result.

Theorem C86_success : forall be k dir d files, build_dictionary be k dir = Ok files ->
  map fst files = map lit ["char_def.bin"; "unk.bin"; "dict.words"; "dict.wordsidx"; "dict.da"; "dict.vals"; "matrix.mtx"] /\
  forall name bytes, In (name, bytes) files -> content_of (fst (write_dictionary be k dir d)) name = Some bytes.
Proof. intros be k dir d files B. split; [exact (built_names be k dir files B)|exact (write_success be k dir d files B)]. Qed.
Print Assumptions C86_success.

Theorem C86_elsewhere : forall be k dir d name, ~ In name dictionary_files ->
  content_of (fst (write_dictionary be k dir d)) name = content_of d name.
Proof. exact write_elsewhere. Qed.
Print Assumptions C86_elsewhere.

Theorem C86_fresh : forall be k dir d, (forall files, build_dictionary be k dir <> Ok files) -> content_of d (lit "matrix.mtx") = None ->
  forall e out, (forall name, In name dictionary_files -> e_read e (join_path out name) = content_of (fst (write_dictionary be k dir d)) name) ->
  forall x, load_dictionary e out <> Ok x.
Proof. exact failed_fresh. Qed.
Print Assumptions C86_fresh.

(* over an older dictionary a failure can leave a mixture that loads *)
Theorem C86_mixture : forall be k dir d e old text cd text' u er, be_compress be = false ->
  read_text be (kind_encoding k) (join_path dir (lit "char.def")) = Ok text -> char_def_of text = Ok cd -> chardef_in_range cd ->
  read_text be (kind_encoding k) (join_path dir (lit "unk.def")) = Ok text' -> parse_unk (categories cd) text' (unk_fields k) = Ok u -> unknown_in_range u ->
  system_rows be k dir = Err er ->
  forall out, (forall name, In name dictionary_files -> e_read e (join_path out name) = content_of d name) -> load_dictionary e out = Ok old ->
  forall e' out', (forall name, In name dictionary_files -> e_read e' (join_path out' name) = content_of (fst (write_dictionary be k dir d)) name) ->
  (forall b, e_da e' b = e_da e b) ->
  load_dictionary e' out' = Ok (Dictionary (d_dict old) (d_matrix old) cd u (d_words_idx old) (d_words old)).
Proof. exact failed_over. Qed.
Print Assumptions C86_mixture.

(* the same directory with new categories, and rows that cannot be read *)
Definition new_char : str := text ["DEFAULT 1 0 0"; "ALPHA 0 0 2"; "0x61..0x63 ALPHA"].
Definition new_files : list (str * list N) :=
  [(lit "in/char.def", new_char); (lit "in/unk.def", src_unk); (lit "in/matrix.def", src_matrix); (lit "in/words.csv", [9%N])].
Definition new_env : build_env := src_env false new_files.
Definition after : directory := fst (write_dictionary new_env IPADIC (lit "in") (src_built false)).
Definition loaded (d : directory) : res dictionary := load_dictionary (file_env (put (lit "out") d)) (lit "out").

Lemma read_put d name : e_read (file_env (put (lit "out") d)) (join_path (lit "out") name) = content_of d name.
Proof.
  cbn [file_env e_read]. unfold content_of, put. induction d as [|[n b] d IH]; [reflexivity|]. cbn [map find fst snd].
  destruct (str_eqb n name) eqn:E.
  - apply LCharDef.str_eqb_true in E. subst n. rewrite LUtf8.str_eqb_refl. reflexivity.
  - destruct (str_eqb (join_path (lit "out") n) (join_path (lit "out") name)) eqn:E1; [|exact IH].
    apply LCharDef.str_eqb_true, join_path_inj in E1. subst n. rewrite LUtf8.str_eqb_refl in E. discriminate.
Qed.

Theorem C86_atomic_refuted :
  ~ (forall be k dir d er e e' out old new,
      snd (write_dictionary be k dir d) = Err er ->
      (forall name, In name dictionary_files -> e_read e (join_path out name) = content_of d name) -> load_dictionary e out = Ok old ->
      (forall name, In name dictionary_files -> e_read e' (join_path out name) = content_of (fst (write_dictionary be k dir d)) name) ->
      (forall b, e_da e' b = e_da e b) -> load_dictionary e' out = Ok new -> new = old).
Proof.
  intros H.
  destruct (loaded (src_built false)) as [old|er|] eqn:LO; [|exfalso; revert LO; vm_compute; discriminate..].
  destruct (loaded after) as [new|er|] eqn:LN; [|exfalso; revert LN; vm_compute; discriminate..].
  assert (D : d_chardef new = d_chardef old).
  { f_equal. apply (H new_env IPADIC (lit "in") (src_built false) EParse (file_env (put (lit "out") (src_built false))) (file_env (put (lit "out") after)) (lit "out")).
    - vm_compute. reflexivity.
    - intros name _. apply read_put.
    - exact LO.
    - intros name _. apply read_put.
    - reflexivity.
    - exact LN. }
  assert (DO : option_map (fun d => cds_definitions (d_chardef d)) (match loaded (src_built false) with Ok d => Some d | _ => None end) =
    Some [CategoryData false true 0; CategoryData true true 0]) by (vm_compute; reflexivity).
  assert (DN : option_map (fun d => cds_definitions (d_chardef d)) (match loaded after with Ok d => Some d | _ => None end) =
    Some [CategoryData true false 0; CategoryData false false 2]) by (vm_compute; reflexivity).
  rewrite LO in DO. rewrite LN in DN. cbn [option_map] in DO, DN. rewrite D in DN. congruence.
Qed.
Print Assumptions C86_atomic_refuted.

Theorem C86_user : forall be k path name d,
  ((forall bytes, build_user_file be k path <> Ok bytes) -> fst (write_user be k path name d) = d) /\
  (forall bytes, build_user_file be k path = Ok bytes ->
     snd (write_user be k path name d) = Ok tt /\ content_of (fst (write_user be k path name d)) name = Some bytes /\
     forall other, other <> name -> content_of (fst (write_user be k path name d)) other = content_of d other).
Proof. intros be k path name d. split; [apply user_unchanged|exact (user_written be k path name d)]. Qed.
Print Assumptions C86_user.

Lemma over_readable : exists text cd text' u old, read_text new_env (kind_encoding IPADIC) (join_path (lit "in") (lit "char.def")) = Ok text /\ char_def_of text = Ok cd /\
  chardef_in_range cd /\ read_text new_env (kind_encoding IPADIC) (join_path (lit "in") (lit "unk.def")) = Ok text' /\
  parse_unk (categories cd) text' (unk_fields IPADIC) = Ok u /\ unknown_in_range u /\ system_rows new_env IPADIC (lit "in") = Err EParse /\
  loaded (src_built false) = Ok old.
Proof.
  exists new_char. eexists. exists src_unk. eexists _, _. split; [vm_compute; reflexivity|]. split; [vm_compute; reflexivity|]. split.
  - eapply (chardef_built_in_range new_char [DCategory (lit "DEFAULT") (CategoryData true false 0); DCategory (lit "ALPHA") (CategoryData false false 2); DRange 0x61 0x63 [lit "ALPHA"]]).
    + vm_compute. reflexivity.
    + vm_compute. reflexivity.
    + exact (rd_names _ _ _ src_readable).
    + vm_compute. reflexivity.
  - split; [vm_compute; reflexivity|]. split; [vm_compute; reflexivity|]. split; [|split; vm_compute; reflexivity].
    eapply (unk_built_in_range (map lit ["DEFAULT"; "ALPHA"]) src_unk 11 _ _ src_unk_lines); vm_compute; reflexivity.
Qed.

Example C86_ex : let be := src_env false src_files in
  (* a build over another dictionary *)
  (forall name, In name dictionary_files -> content_of (fst (write_dictionary be IPADIC (lit "in") after)) name = content_of (src_built false) name) /\
  (* a failed build in an empty directory: two files, and nothing that loads *)
  snd (write_dictionary new_env IPADIC (lit "in") []) = Err EParse /\
  nodup (list_eq_dec N.eq_dec) (map fst (fst (write_dictionary new_env IPADIC (lit "in") []))) = [lit "unk.bin"; lit "char_def.bin"] /\
  loaded (fst (write_dictionary new_env IPADIC (lit "in") [])) = Err EIo /\
  (* the hypotheses of C86_mixture *)
  (exists text cd text' u old, read_text new_env (kind_encoding IPADIC) (join_path (lit "in") (lit "char.def")) = Ok text /\ char_def_of text = Ok cd /\
     chardef_in_range cd /\ read_text new_env (kind_encoding IPADIC) (join_path (lit "in") (lit "unk.def")) = Ok text' /\
     parse_unk (categories cd) text' (unk_fields IPADIC) = Ok u /\ unknown_in_range u /\ system_rows new_env IPADIC (lit "in") = Err EParse /\
     loaded (src_built false) = Ok old) /\
  (* the user dictionary *)
  fst (write_user be IPADIC (lit "my/none.csv") (lit "user.bin") [(lit "user.bin", [7%N])]) = [(lit "user.bin", [7%N])] /\
  content_of (fst (write_user be IPADIC (lit "my/user.csv") (lit "user.bin") [(lit "user.bin", [7%N])])) (lit "user.bin") <> Some [7%N].
Proof.
  cbv zeta. split; [|split; [vm_compute; reflexivity|split; [vm_compute; reflexivity|split; [vm_compute; reflexivity|split; [|split; [vm_compute; reflexivity|vm_compute; discriminate]]]]]].
  - intros name I. unfold dictionary_files in I. cbn [map In] in I. decompose [or] I; try contradiction; subst name; vm_compute; reflexivity.
  - exact over_readable.
Qed.
