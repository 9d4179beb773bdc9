(** Property C97: what a successful build guarantees when creating and writing files can fail. *)
From Coq Require Import String.
From Coq Require Import List NArith ZArith Bool.
From Verif Require Import MBase MUtf8 MText MCodec MDict MCharDef MUnk MBincode MLattice MTokenizer MBuild MConfig MBuilders MDisk MWrite
  STok SBuild SMatrix SCharDef SUnk SData SConfig SBuilders SWrite LBuilders LDisk LWrite LPrefix XSample XBuild XData XConfig XBuilders PDisk.
Import ListNotations.
Local Open Scope string_scope.
Local Open Scope list_scope.

(** * C97: after success every file is complete, except that the end of dict.da may be missing *)

Theorem C97_success : forall dk be k dir d d', whole_pieces dk -> put_run (put_dictionary dk be k dir) d = (d', Ok tt) ->
  exists files, build_dictionary be k dir = Ok files /\
    forall name bytes, In (name, bytes) files ->
      (name <> lit "dict.da" -> content_of d' name = Some bytes) /\
      (name = lit "dict.da" -> exists kept, content_of d' name = Some kept /\ almost dk bytes kept /\
         (be_compress be = false -> (dk_capacity dk <= N.of_nat (List.length bytes))%N -> kept = bytes)).
Proof. exact put_success. Qed.
Print Assumptions C97_success.

(* a missing end is not noticed when the dictionary is loaded *)
Theorem C97_loads : forall dk be k dir d d' files, whole_pieces dk -> put_run (put_dictionary dk be k dir) d = (d', Ok tt) -> build_dictionary be k dir = Ok files ->
  forall e0 out0 x, (forall name bytes, In (name, bytes) files -> e_read e0 (join_path out0 name) = Some bytes) -> load_dictionary e0 out0 = Ok x ->
  forall e out, (forall name, In name dictionary_files -> e_read e (join_path out name) = content_of d' name) ->
  exists kept, content_of d' (lit "dict.da") = Some kept /\
    load_dictionary e out = Ok (Dictionary (PrefixDict (e_da e kept) (pd_vals (d_dict x)) true) (d_matrix x) (d_chardef x) (d_unknown x) (d_words_idx x) (d_words x)).
Proof. exact put_loads. Qed.
Print Assumptions C97_loads.

Theorem C97_outcome : forall dk be k dir d, let r := snd (put_run (put_dictionary dk be k dir) d) in
  r = match build_dictionary be k dir with Ok _ => Ok tt | Err er => Err er | Panic => Panic end \/
  r = Err EIo \/ (k = KoDic \/ k = CcCedict) /\ r = Panic.
Proof. intros dk be k dir d r. pose proof (put_outcome dk be k dir d) as H. rewrite write_result in H. exact H. Qed.
Print Assumptions C97_outcome.

Theorem C97_elsewhere : forall dk be k dir d name, ~ In name dictionary_files ->
  content_of (fst (put_run (put_dictionary dk be k dir) d)) name = content_of d name.
Proof. exact put_elsewhere. Qed.
Print Assumptions C97_elsewhere.

(* however the build ends: a file is as it was, or has the beginning of what the same build writes when nothing fails *)
Theorem C97_prefix : forall dk be k dir d name, whole_pieces dk ->
  content_of (fst (put_run (put_dictionary dk be k dir) d)) name = content_of d name \/
  exists kept rest, content_of (fst (put_run (put_dictionary dk be k dir) d)) name = Some kept /\
    content_of (fst (write_dictionary be k dir d)) name = Some (kept ++ rest).
Proof. exact put_prefix. Qed.
Print Assumptions C97_prefix.

Theorem C97_user_prefix : forall dk be k path name d other, whole_pieces dk ->
  content_of (fst (put_run (put_user dk be k path name) d)) other = content_of d other \/
  exists kept rest, content_of (fst (put_run (put_user dk be k path name) d)) other = Some kept /\
    content_of (fst (write_user be k path name d)) other = Some (kept ++ rest).
Proof. exact put_user_prefix. Qed.
Print Assumptions C97_user_prefix.

(* without failures: what C86 is about *)
Theorem C97_faultless : forall dk be k dir d, whole_pieces dk -> faultless dk ->
  snd (put_run (put_dictionary dk be k dir) d) = snd (write_dictionary be k dir d) /\
  forall name, content_of (fst (put_run (put_dictionary dk be k dir) d)) name = content_of (fst (write_dictionary be k dir d)) name.
Proof. exact put_faultless. Qed.
Print Assumptions C97_faultless.

Theorem C97_user : forall dk be k path name d, whole_pieces dk ->
  let d' := fst (put_run (put_user dk be k path name) d) in
  let r := snd (put_run (put_user dk be k path name) d) in
  (r = Ok tt -> exists bytes, build_user_file be k path = Ok bytes /\ content_of d' name = Some bytes) /\
  (r = snd (write_user be k path name d) \/ r = Err EIo \/ r = Err ESerialize) /\
  (forall other, other <> name -> content_of d' other = content_of d other) /\
  (faultless dk -> r = snd (write_user be k path name d) /\ forall other, content_of d' other = content_of (fst (write_user be k path name d)) other).
Proof.
  intros dk be k path name d WP d' r. split; [|split; [exact (put_user_outcome dk be k path name d)|split; [intros other; exact (put_user_elsewhere dk be k path name d other)|]]].
  - intros E. apply (put_user_success dk be k path name d d' WP). rewrite <- E. apply surjective_pairing.
  - exact (put_user_faultless dk be k path name d WP).
Qed.
Print Assumptions C97_user.

(* a disk with a limit for each file, std's buffers, and bytes handed over one by one *)
Definition limited (limit : str -> nat) : disk :=
  Disk true (fun _ _ => true) (fun d name bytes => limit name - List.length (bytes_of d name)) 8192 (map (fun b => [b])).
Lemma limited_whole limit : whole_pieces (limited limit).
Proof. intros bytes. cbn [limited dk_pieces]. induction bytes as [|b bytes IH]; [reflexivity|]. cbn [map concat app]. rewrite IH. reflexivity. Qed.
Definition limit_of (n : string) (size : nat) (name : str) : nat := if str_eqb name (lit n) then size else 1000.
Definition build_on (c : bool) (n : string) (size : nat) : directory * res unit :=
  put_run (put_dictionary (limited (limit_of n size)) (src_env c src_files) IPADIC (lit "in")) [].

Theorem C97_complete_refuted :
  ~ (forall dk be k dir d d' files name bytes, whole_pieces dk -> build_dictionary be k dir = Ok files ->
      put_run (put_dictionary dk be k dir) d = (d', Ok tt) -> In (name, bytes) files -> content_of d' name = Some bytes).
Proof.
  intros H. specialize (H (limited (limit_of "dict.da" 3)) (src_env false src_files) IPADIC (lit "in") []).
  destruct (build_dictionary (src_env false src_files) IPADIC (lit "in")) as [files|er|] eqn:B; [|exfalso; revert B; vm_compute; discriminate..].
  assert (E : option_map (@List.length N) (content_of (fst (build_on false "dict.da" 3)) (lit "dict.da")) = Some 3) by (vm_compute; reflexivity).
  assert (I : option_map (@List.length N) (content_of files (lit "dict.da")) = Some 13).
  { transitivity (option_map (@List.length N) (content_of (match build_dictionary (src_env false src_files) IPADIC (lit "in") with Ok f => f | _ => [] end) (lit "dict.da"))).
    - rewrite B. reflexivity.
    - vm_compute. reflexivity. }
  destruct (content_of files (lit "dict.da")) as [bytes|] eqn:C; [|discriminate].
  unfold content_of in C. destruct (find _ files) as [[n b]|] eqn:F; [|discriminate]. injection C as ->. apply find_some in F. destruct F as [F N].
  cbn [fst] in N. apply LCharDef.str_eqb_true in N. subst n.
  specialize (H (fst (build_on false "dict.da" 3)) files (lit "dict.da") bytes (limited_whole _) eq_refl).
  rewrite H in E; [congruence| |exact F]. vm_compute. reflexivity.
Qed.
Print Assumptions C97_complete_refuted.

(* unlike C86_fresh: half a matrix is left and loads *)
Theorem C97_fresh_refuted :
  ~ (forall dk be k dir d' er, whole_pieces dk -> put_run (put_dictionary dk be k dir) [] = (d', Err er) ->
      forall e out, (forall name, In name dictionary_files -> e_read e (join_path out name) = content_of d' name) ->
      forall x, load_dictionary e out <> Ok x).
Proof.
  intros H. destruct (loaded (fst (build_on false "matrix.mtx" 6))) as [x|er|] eqn:L; [|exfalso; revert L; vm_compute; discriminate..].
  refine (H (limited (limit_of "matrix.mtx" 6)) (src_env false src_files) IPADIC (lit "in") (fst (build_on false "matrix.mtx" 6)) EIo (limited_whole _) _
    (file_env (put (lit "out") (fst (build_on false "matrix.mtx" 6)))) (lit "out") _ x L).
  - vm_compute. reflexivity.
  - intros name _. apply read_put.
Qed.
Print Assumptions C97_fresh_refuted.

Example C97_ex :
  (* nothing fails *)
  snd (build_on false "none" 0) = Ok tt /\ snd (build_on true "none" 0) = Ok tt /\
  (forall name, In name dictionary_files -> content_of (fst (build_on false "none" 0)) name = content_of (src_built false) name) /\
  (* no room for the trie: the build succeeds and the dictionary loads, without its words *)
  snd (build_on false "dict.da" 0) = Ok tt /\ content_of (fst (build_on false "dict.da" 0)) (lit "dict.da") = Some [] /\
  match loaded (fst (build_on false "dict.da" 0)), loaded (src_built false) with
  | Ok x, Ok y => pd_da (d_dict x) = [] /\ pd_da (d_dict y) <> [] /\ d_matrix x = d_matrix y | _, _ => False end /\
  snd (build_on true "dict.da" 1) = Ok tt /\
  (* no room for any other file *)
  map (fun n => snd (build_on false n 0)) ["char_def.bin"; "unk.bin"; "dict.words"; "dict.wordsidx"; "dict.vals"; "matrix.mtx"] = repeat (Err EIo) 6 /\
  snd (put_run (put_dictionary (limited (fun _ => 0)) (src_env false src_files) KoDic (lit "in")) []) = Panic /\
  (* a buffer smaller than the trie *)
  let tiny := Disk true (fun _ _ => true) (fun d name bytes => limit_of "dict.da" 5 name - List.length (bytes_of d name)) 4 (map (fun b => [b])) in
  snd (put_run (put_dictionary tiny (src_env false src_files) IPADIC (lit "in")) []) = Err EIo /\
  (* the user dictionary *)
  snd (put_run (put_user (limited (limit_of "u" 9)) (src_env false src_files) IPADIC (lit "my/user.csv") (lit "u")) []) = Err EIo /\
  option_map (@List.length N) (content_of (fst (put_run (put_user (limited (limit_of "u" 9)) (src_env false src_files) IPADIC (lit "my/user.csv") (lit "u")) [])) (lit "u")) = Some 9.
Proof.
  cbv zeta.
  split; [vm_compute; reflexivity|]. split; [vm_compute; reflexivity|]. split.
  { intros name I. unfold dictionary_files in I. cbn [map In] in I. decompose [or] I; try contradiction; subst name; vm_compute; reflexivity. }
  split; [vm_compute; reflexivity|]. split; [vm_compute; reflexivity|]. split; [vm_compute; repeat split; discriminate|].
  split; [vm_compute; reflexivity|]. split; [vm_compute; reflexivity|]. split; [vm_compute; reflexivity|]. split; [vm_compute; reflexivity|].
  split; vm_compute; reflexivity.
Qed.

Example C97_prefix_ex :
  snd (build_on false "matrix.mtx" 6) = Err EIo /\
  (* the matrix is cut, the other files are whole *)
  content_of (fst (build_on false "matrix.mtx" 6)) (lit "matrix.mtx") = option_map (firstn 6) (content_of (src_built false) (lit "matrix.mtx")) /\
  content_of (fst (build_on false "matrix.mtx" 6)) (lit "dict.words") = content_of (src_built false) (lit "dict.words") /\
  (* the words cannot be written: the trie was created, the matrix is as it was *)
  let '(d, r) := put_run (put_dictionary (limited (limit_of "dict.words" 2)) (src_env false src_files) IPADIC (lit "in")) [(lit "matrix.mtx", [7%N])] in
  r = Err EIo /\ content_of d (lit "dict.da") = Some [] /\ content_of d (lit "matrix.mtx") = Some [7%N] /\
  content_of d (lit "dict.words") = option_map (firstn 2) (content_of (src_built false) (lit "dict.words")).
Proof.
  split; [vm_compute; reflexivity|]. split; [vm_compute; reflexivity|]. split; [vm_compute; reflexivity|].
  destruct (put_run _ _) as [d r] eqn:E.
  assert (F : put_run (put_dictionary (limited (limit_of "dict.words" 2)) (src_env false src_files) IPADIC (lit "in")) [(lit "matrix.mtx", [7%N])] = (d, r)) by exact E.
  vm_compute in F. injection F as <- <-.
  split; [reflexivity|]. split; [vm_compute; reflexivity|]. split; [vm_compute; reflexivity|]. vm_compute. reflexivity.
Qed.
