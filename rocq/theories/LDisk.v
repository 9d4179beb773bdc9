(** Lemmas about what a build writes. *)
From Coq Require Import String.
From Coq Require Import List NArith ZArith Bool Lia.
From Verif Require Import MBase MUtf8 MText MCodec MDict MCharDef MUnk MBincode MTokenizer MBuild MConfig MBuilders MDisk.
From Verif Require Import STok SBuild SMatrix SCharDef SUnk SData SBuilders LBase LUtf8 LBincode LCharDef LEmbedded.
Import ListNotations.
Local Open Scope list_scope.

Definition as_unit {A} (r : res A) : res unit := match r with Ok _ => Ok tt | Err k => Err k | Panic => Panic end.

Lemma content_of_here name bytes d : content_of ((name, bytes) :: d) name = Some bytes.
Proof. unfold content_of. cbn [find fst]. rewrite str_eqb_refl. reflexivity. Qed.
Lemma content_of_other name n bytes d : n <> name -> content_of ((n, bytes) :: d) name = content_of d name.
Proof.
  intros H. unfold content_of. cbn [find fst]. destruct (str_eqb n name) eqn:E; [apply str_eqb_spec in E; contradiction|reflexivity].
Qed.
Lemma content_of_names new d name : ~ In name (map fst new) -> content_of (new ++ d) name = content_of d name.
Proof.
  induction new as [|[n b] new IH]; intros H; [reflexivity|]. cbn [app map fst] in *. rewrite content_of_other.
  - apply IH. intros I. apply H. right. exact I.
  - intros ->. apply H. left. reflexivity.
Qed.

(* what a step adds to the directory *)
Definition adds {A B} (w : writer A) (names : list str) (r : res B) (new : B -> directory) (val : B -> A) : Prop :=
  forall d, exists extra, incl (map fst extra) names /\
    match r with
    | Ok b => w d = (new b ++ d, Ok (val b)) /\ extra = new b
    | Err k => w d = (extra ++ d, Err k)
    | Panic => w d = (extra ++ d, Panic)
    end.

Ltac names := intros ? ?; cbn [map fst In] in *; tauto.
Ltac step := unfold next, quiet, create, save.

Lemma chardef_adds be k dir : adds (write_chardef be k dir) [lit "char_def.bin"] (build_chardef_file be k dir)
  (fun '(_, b) => [(lit "char_def.bin", b); (lit "char_def.bin", [])]) fst.
Proof.
  intros d. unfold write_chardef, build_chardef_file, save. unfold next, quiet, create.
  destruct (read_text be (kind_encoding k) (join_path dir (lit "char.def"))) as [text|er|]; cbn [bind]; [|exists []; split; [intros x []|reflexivity]..].
  destruct (char_def_of text) as [cd|er|]; cbn [bind]; [|exists []; split; [intros x []|reflexivity]..].
  destruct (written be (enc_chardef cd)) as [b|er|]; cbn [bind].
  - eexists. split; [|split; reflexivity]. names.
  - exists [(lit "char_def.bin", [])]. split; [names|reflexivity].
  - exists [(lit "char_def.bin", [])]. split; [names|reflexivity].
Qed.

Lemma unk_adds be k dir cd : adds (write_unk be k dir cd) [lit "unk.bin"] (build_unk_file be k dir cd)
  (fun b => [(lit "unk.bin", b); (lit "unk.bin", [])]) (fun _ => tt).
Proof.
  intros d. unfold write_unk, build_unk_file, save. unfold next, quiet, create.
  destruct (read_text be (kind_encoding k) (join_path dir (lit "unk.def"))) as [text|er|]; cbn [bind]; [|exists []; split; [intros x []|reflexivity]..].
  destruct (parse_unk (categories cd) text (unk_fields k)) as [u|er|]; cbn [bind]; [|exists []; split; [intros x []|reflexivity]..].
  destruct (written be (enc_unknown u)) as [b|er|]; cbn [bind].
  - eexists. split; [|split; reflexivity]. names.
  - exists [(lit "unk.bin", [])]. split; [names|reflexivity].
  - exists [(lit "unk.bin", [])]. split; [names|reflexivity].
Qed.

Lemma matrix_adds be k dir : adds (write_matrix be k dir) [lit "matrix.mtx"] (build_matrix_file be k dir)
  (fun b => [(lit "matrix.mtx", b); (lit "matrix.mtx", [])]) (fun _ => tt).
Proof.
  intros d. unfold write_matrix, build_matrix_file, save. unfold next, quiet, create.
  destruct (read_text be (kind_encoding k) (join_path dir (lit "matrix.def"))) as [text|er|]; cbn [bind]; [|exists []; split; [intros x []|reflexivity]..].
  destruct (build_matrix text) as [u|er|]; cbn [bind]; [|exists []; split; [intros x []|reflexivity]..].
  destruct (written be u) as [b|er|]; cbn [bind].
  - eexists. split; [|split; reflexivity]. names.
  - exists [(lit "matrix.mtx", [])]. split; [names|reflexivity].
  - exists [(lit "matrix.mtx", [])]. split; [names|reflexivity].
Qed.
(* the matrix of a step that fails *)
Lemma matrix_failed be k dir d d' r : write_matrix be k dir d = (d', r) -> r <> Ok tt ->
  content_of d' (lit "matrix.mtx") = content_of d (lit "matrix.mtx") \/ content_of d' (lit "matrix.mtx") = Some [].
Proof.
  unfold write_matrix, save. unfold next, quiet, create.
  destruct (read_text be (kind_encoding k) (join_path dir (lit "matrix.def"))) as [text|er|]; [|intros H; injection H as <- <-; auto..].
  destruct (build_matrix text) as [u|er|]; [|intros H; injection H as <- <-; auto..].
  destruct (written be u) as [b|er|]; intros H; injection H as <- <-; [congruence| |]; intros _; right; apply content_of_here.
Qed.

Definition dict_names : list str := map lit ["dict.da"; "dict.vals"; "dict.words"; "dict.wordsidx"]%string.
Lemma dict_adds be k dir : adds (write_dict be k dir) dict_names (build_dict_files be k dir)
  (fun files => rev files ++ map (fun name => (lit name, [])) ["dict.wordsidx"; "dict.words"; "dict.vals"; "dict.da"]%string) (fun _ => tt).
Proof.
  intros d. unfold write_dict, build_dict_files, build_dict, save. unfold next, quiet, create. unfold da_build. cbv zeta. unfold dict_names.
  destruct (system_rows be k dir) as [rows|er|]; cbn [bind]; [|exists []; split; [intros x []|reflexivity]..].
  destruct (mapM _ rows) as [keyed|er|]; cbn [bind]; [|exists []; split; [intros x []|reflexivity]..].
  set (sorted := map snd _).
  destruct (sys_entry_map (kind_dict_options k) sorted) as [m|er|]; cbn [bind];
    [|exists [(lit "dict.vals", []); (lit "dict.da", [])]; split; [names|reflexivity]..].
  destruct (foldM (add_sys_words (kind_dict_options k)) sorted ([], [])) as [[words index]|er|]; cbn [bind ok_or f_words f_words_idx f_da f_vals];
    [|exists [(lit "dict.wordsidx", []); (lit "dict.words", []); (lit "dict.vals", []); (lit "dict.da", [])]; split; [names|reflexivity]..].
  destruct (written be words) as [b1|er|]; cbn [bind];
    [|exists [(lit "dict.wordsidx", []); (lit "dict.words", []); (lit "dict.vals", []); (lit "dict.da", [])]; split; [names|reflexivity]..].
  destruct (written be index) as [b2|er|]; cbn [bind];
    [|exists [(lit "dict.words", b1); (lit "dict.wordsidx", []); (lit "dict.words", []); (lit "dict.vals", []); (lit "dict.da", [])]; split; [names|reflexivity]..].
  destruct (be_yada be (keyset_from 0 m)) as [da|]; cbn [bind ok_or];
    [|exists [(lit "dict.wordsidx", b2); (lit "dict.words", b1); (lit "dict.wordsidx", []); (lit "dict.words", []); (lit "dict.vals", []); (lit "dict.da", [])]; split; [names|reflexivity]].
  destruct (written be da) as [b3|er|]; cbn [bind];
    [|exists [(lit "dict.wordsidx", b2); (lit "dict.words", b1); (lit "dict.wordsidx", []); (lit "dict.words", []); (lit "dict.vals", []); (lit "dict.da", [])]; split; [names|reflexivity]..].
  destruct (written be (entry_values m)) as [b4|er|]; cbn [bind].
  - eexists. split; [|split; reflexivity]. cbn [map rev app fst]. names.
  - exists [(lit "dict.da", b3); (lit "dict.wordsidx", b2); (lit "dict.words", b1); (lit "dict.wordsidx", []); (lit "dict.words", []); (lit "dict.vals", []); (lit "dict.da", [])]; split; [names|reflexivity].
  - exists [(lit "dict.da", b3); (lit "dict.wordsidx", b2); (lit "dict.words", b1); (lit "dict.wordsidx", []); (lit "dict.words", []); (lit "dict.vals", []); (lit "dict.da", [])]; split; [names|reflexivity].
Qed.

Lemma unwrapping_adds {A B} k (w : writer A) names (r : res B) new val : adds w names r new val -> adds (unwrapping k w) names (unwrapped k r) new val.
Proof.
  intros H d. destruct (H d) as (extra & I & M). unfold unwrapping. destruct r as [b|er|].
  - destruct M as [M E]. exists extra. split; [exact I|]. replace (unwrapped k (Ok b)) with (Ok b) by (destruct k; reflexivity).
    split; [|exact E]. rewrite M. destruct k; reflexivity.
  - exists extra. split; [exact I|]. rewrite M. destruct k; reflexivity.
  - exists extra. split; [exact I|]. replace (unwrapped k (Panic : res B)) with (Panic : res B) by (destruct k; reflexivity). rewrite M. destruct k; reflexivity.
Qed.

Lemma dict_files_names be k dir files : build_dict_files be k dir = Ok files ->
  exists b1 b2 b3 b4, files = [(lit "dict.words", b1); (lit "dict.wordsidx", b2); (lit "dict.da", b3); (lit "dict.vals", b4)].
Proof.
  unfold build_dict_files. intros H.
  apply bind_ok in H. destruct H as (rows & _ & H). apply bind_ok in H. destruct H as (f & _ & H).
  apply bind_ok in H. destruct H as (b1 & _ & H). apply bind_ok in H. destruct H as (b2 & _ & H).
  apply bind_ok in H. destruct H as (da & _ & H). apply bind_ok in H. destruct H as (b3 & _ & H).
  apply bind_ok in H. destruct H as (b4 & _ & H). injection H as <-. eauto.
Qed.

Lemma unwrapped_ok {A} k (r : res A) a : unwrapped k r = Ok a <-> r = Ok a.
Proof. destruct k, r; cbn [unwrapped]; split; congruence. Qed.

Ltac part I := intros x X; cbn [map fst In] in *; apply I in X; cbn [map In dict_names] in X; unfold dictionary_files; cbn [map In]; tauto.

Lemma write_outcome be k dir d : exists extra, incl (map fst extra) dictionary_files /\
  match build_dictionary be k dir with
  | Ok files => write_dictionary be k dir d = (extra ++ d, Ok tt) /\ forall name bytes, In (name, bytes) files -> content_of (extra ++ d) name = Some bytes
  | Err er => write_dictionary be k dir d = (extra ++ d, Err er)
  | Panic => write_dictionary be k dir d = (extra ++ d, Panic)
  end /\
  ((forall files, build_dictionary be k dir <> Ok files) ->
   content_of (extra ++ d) (lit "matrix.mtx") = content_of d (lit "matrix.mtx") \/ content_of (extra ++ d) (lit "matrix.mtx") = Some []).
Proof.
  unfold write_dictionary, build_dictionary, next.
  destruct (unwrapping_adds k _ _ _ _ _ (chardef_adds be k dir) d) as (x1 & I1 & M1).
  destruct (unwrapped k (build_chardef_file be k dir)) as [[cd b1]|er|]; cbn [bind].
  2,3: exists x1; split; [part I1|]; rewrite M1; split; [reflexivity|]; intros _; left; apply content_of_names; intros X; apply I1 in X; cbn in X; decompose [or] X; try discriminate; try contradiction.
  destruct M1 as [M1 ->]. rewrite M1. cbn [fst].
  match goal with |- context [?l ++ d] => set (d1 := l ++ d) end.
  destruct (unwrapping_adds k _ _ _ _ _ (unk_adds be k dir cd) d1) as (x2 & I2 & M2).
  destruct (unwrapped k (build_unk_file be k dir cd)) as [b2|er|]; cbn [bind].
  2,3: exists (x2 ++ [(lit "char_def.bin", b1); (lit "char_def.bin", [])]); split;
    [rewrite map_app; apply incl_app; [part I2|part I1]|]; rewrite <- app_assoc; rewrite M2; split; [reflexivity|]; intros _; left;
    rewrite app_assoc; apply content_of_names; rewrite map_app; intros X; apply in_app_or in X; destruct X as [X|X]; [apply I2 in X|apply I1 in X]; cbn in X; decompose [or] X; try discriminate; try contradiction.
  destruct M2 as [M2 ->]. rewrite M2.
  match goal with |- context [?l ++ d1] => set (d2 := l ++ d1) end.
  destruct (unwrapping_adds k _ _ _ _ _ (dict_adds be k dir) d2) as (x3 & I3 & M3).
  destruct (unwrapped k (build_dict_files be k dir)) as [dict|er|] eqn:BD; cbn [bind].
  2,3: exists (x3 ++ [(lit "unk.bin", b2); (lit "unk.bin", [])] ++ [(lit "char_def.bin", b1); (lit "char_def.bin", [])]); split;
    [rewrite !map_app; apply incl_app; [part I3|apply incl_app; [part I2|part I1]]|]; rewrite <- !app_assoc; rewrite M3; split; [reflexivity|]; intros _; left;
    subst d1 d2; rewrite !app_assoc; apply content_of_names; rewrite !map_app; intros X; apply in_app_or in X; destruct X as [X|X]; [apply in_app_or in X; destruct X as [X|X]; [apply I3 in X|apply I2 in X]|apply I1 in X];
    cbn in X; decompose [or] X; try discriminate; try contradiction.
  destruct M3 as [M3 ->]. rewrite M3. apply unwrapped_ok in BD. destruct (dict_files_names _ _ _ _ BD) as (w1 & w2 & w3 & w4 & ->).
  match goal with |- context [?l ++ d2] => set (d3 := l ++ d2) end.
  destruct (unwrapping_adds k _ _ _ _ _ (matrix_adds be k dir) d3) as (x4 & I4 & M4).
  destruct (unwrapped k (build_matrix_file be k dir)) as [b4|er|] eqn:BM; cbn [bind].
  - destruct M4 as [M4 ->]. rewrite M4. eexists. split; [|split; [split; [subst d1 d2 d3; rewrite !app_assoc; reflexivity|]|intros NO; exfalso; exact (NO _ eq_refl)]].
    + cbn [rev app map fst]. unfold dictionary_files. intros x X. cbn [map In] in *. tauto.
    + intros name bytes I. cbn [app In] in I. decompose [or] I; try contradiction;
        match goal with E : (_, _) = (_, _) |- _ => injection E as <- <- end; reflexivity.
  - assert (MM : content_of (x4 ++ d3) (lit "matrix.mtx") = content_of d3 (lit "matrix.mtx") \/ content_of (x4 ++ d3) (lit "matrix.mtx") = Some []).
    { unfold unwrapping in M4. destruct (write_matrix be k dir d3) as [d4 r] eqn:W. injection M4 as -> M4. apply (matrix_failed _ _ _ _ _ _ W).
      intros ->. destruct k; discriminate. }
    match eval unfold d3, d2, d1 in d3 with ?l3 ++ ?l2 ++ ?l1 ++ d => exists (x4 ++ l3 ++ l2 ++ l1) end.
    assert (AA : forall a b c e : directory, (a ++ b ++ c ++ e) ++ d = a ++ b ++ c ++ e ++ d) by (intros; rewrite <- !app_assoc; reflexivity).
    rewrite AA. split; [|split; [exact M4|]].
    + rewrite !map_app. apply incl_app; [part I4|]. cbn [rev app map fst]. unfold dictionary_files. intros x X. cbn [map In] in *. tauto.
    + intros _. exact MM.
  - assert (MM : content_of (x4 ++ d3) (lit "matrix.mtx") = content_of d3 (lit "matrix.mtx") \/ content_of (x4 ++ d3) (lit "matrix.mtx") = Some []).
    { unfold unwrapping in M4. destruct (write_matrix be k dir d3) as [d4 r] eqn:W. injection M4 as -> M4. apply (matrix_failed _ _ _ _ _ _ W).
      intros ->. destruct k; discriminate. }
    match eval unfold d3, d2, d1 in d3 with ?l3 ++ ?l2 ++ ?l1 ++ d => exists (x4 ++ l3 ++ l2 ++ l1) end.
    assert (AA : forall a b c e : directory, (a ++ b ++ c ++ e) ++ d = a ++ b ++ c ++ e ++ d) by (intros; rewrite <- !app_assoc; reflexivity).
    rewrite AA. split; [|split; [exact M4|]].
    + rewrite !map_app. apply incl_app; [part I4|]. cbn [rev app map fst]. unfold dictionary_files. intros x X. cbn [map In] in *. tauto.
    + intros _. exact MM.
Qed.

Lemma write_result be k dir d : snd (write_dictionary be k dir d) = as_unit (build_dictionary be k dir).
Proof.
  destruct (write_outcome be k dir d) as (extra & _ & M & _). destruct (build_dictionary be k dir) as [files|er|]; [destruct M as [M _]|..]; rewrite M; reflexivity.
Qed.
Lemma write_elsewhere be k dir d name : ~ In name dictionary_files -> content_of (fst (write_dictionary be k dir d)) name = content_of d name.
Proof.
  intros N. destruct (write_outcome be k dir d) as (extra & I & M & _).
  assert (E : fst (write_dictionary be k dir d) = extra ++ d) by (destruct (build_dictionary be k dir) as [files|er|]; [destruct M as [M _]|..]; rewrite M; reflexivity).
  rewrite E. apply content_of_names. intros X. exact (N (I _ X)).
Qed.
Lemma write_success be k dir d files : build_dictionary be k dir = Ok files -> forall name bytes, In (name, bytes) files ->
  content_of (fst (write_dictionary be k dir d)) name = Some bytes.
Proof. intros B. destruct (write_outcome be k dir d) as (extra & _ & M & _). rewrite B in M. destruct M as [M H]. rewrite M. exact H. Qed.

Lemma failed_fresh be k dir d : (forall files, build_dictionary be k dir <> Ok files) -> content_of d (lit "matrix.mtx") = None ->
  forall e out, (forall name, In name dictionary_files -> e_read e (join_path out name) = content_of (fst (write_dictionary be k dir d)) name) ->
  forall x, load_dictionary e out <> Ok x.
Proof.
  intros NB NM e out R x L. destruct (write_outcome be k dir d) as (extra & _ & M & F). specialize (F NB).
  assert (E : fst (write_dictionary be k dir d) = extra ++ d) by (destruct (build_dictionary be k dir) as [files|er|]; [destruct M as [M _]|..]; rewrite M; reflexivity).
  rewrite E in R. unfold load_dictionary in L. apply bind_ok in L. destruct L as (da & _ & L). apply bind_ok in L. destruct L as (vals & _ & L).
  apply bind_ok in L. destruct L as (mb & RM & L). apply bind_ok in L. destruct L as (m & LM & _). unfold read_file in RM. rewrite R in RM by (unfold dictionary_files; cbn; auto 10).
  destruct F as [F|F]; rewrite F in RM; [rewrite NM in RM; discriminate|]. injection RM as <-. discriminate.
Qed.

(* the rows cannot be read: new categories and unknown words, old words and costs *)
Lemma failed_over be k dir d e old text cd text' u er : be_compress be = false ->
  read_text be (kind_encoding k) (join_path dir (lit "char.def")) = Ok text -> char_def_of text = Ok cd -> chardef_in_range cd ->
  read_text be (kind_encoding k) (join_path dir (lit "unk.def")) = Ok text' -> parse_unk (categories cd) text' (unk_fields k) = Ok u -> unknown_in_range u ->
  system_rows be k dir = Err er ->
  forall out, (forall name, In name dictionary_files -> e_read e (join_path out name) = content_of d name) -> load_dictionary e out = Ok old ->
  forall e' out', (forall name, In name dictionary_files -> e_read e' (join_path out' name) = content_of (fst (write_dictionary be k dir d)) name) ->
  (forall b, e_da e' b = e_da e b) ->
  load_dictionary e' out' = Ok (Dictionary (d_dict old) (d_matrix old) cd u (d_words_idx old) (d_words old)).
Proof.
  intros NC T1 CD CR T2 PU UR SR out R L e' out' R' DA.
  assert (W : fst (write_dictionary be k dir d) = [(lit "unk.bin", enc_unknown u); (lit "unk.bin", []); (lit "char_def.bin", enc_chardef cd); (lit "char_def.bin", [])] ++ d).
  { unfold write_dictionary, write_chardef, write_unk, write_dict, unwrapping, save. unfold next, quiet, create, written, compress_write.
    rewrite NC, T1, CD. destruct k; cbn [unwrapped]; rewrite T2, PU; cbn [unwrapped]; rewrite SR; reflexivity. }
  rewrite W in R'. unfold load_dictionary, read_file in L |- *.
  rewrite !R in L by (unfold dictionary_files; cbn; auto 10). rewrite !R' by (unfold dictionary_files; cbn; auto 10).
  assert (K : forall name, name <> lit "unk.bin" -> name <> lit "char_def.bin" ->
    content_of ([(lit "unk.bin", enc_unknown u); (lit "unk.bin", []); (lit "char_def.bin", enc_chardef cd); (lit "char_def.bin", [])] ++ d) name = content_of d name).
  { intros name N1 N2. apply content_of_names. cbn [map fst In]. intros H. decompose [or] H; congruence. }
  rewrite !(K (lit "dict.da")), !(K (lit "dict.vals")), !(K (lit "matrix.mtx")), !(K (lit "dict.wordsidx")), !(K (lit "dict.words")) by discriminate.
  apply bind_ok in L. destruct L as (da & E1 & L). rewrite E1. cbn [bind]. apply bind_ok in L. destruct L as (vals & E2 & L). rewrite E2. cbn [bind].
  apply bind_ok in L. destruct L as (mb & E3 & L). rewrite E3. cbn [bind]. apply bind_ok in L. destruct L as (m & E4 & L). rewrite E4. cbn [bind].
  apply bind_ok in L. destruct L as (cb & _ & L). apply bind_ok in L. destruct L as (c & _ & L). apply bind_ok in L. destruct L as (ub & _ & L).
  apply bind_ok in L. destruct L as (uu & _ & L). apply bind_ok in L. destruct L as (ib & E5 & L). apply bind_ok in L. destruct L as (wb & E6 & L).
  injection L as <-. cbn [d_dict d_matrix d_words_idx d_words].
  change (content_of ([(lit "unk.bin", enc_unknown u); (lit "unk.bin", []); (lit "char_def.bin", enc_chardef cd); (lit "char_def.bin", [])] ++ d) (lit "char_def.bin")) with (Some (enc_chardef cd)).
  change (content_of ([(lit "unk.bin", enc_unknown u); (lit "unk.bin", []); (lit "char_def.bin", enc_chardef cd); (lit "char_def.bin", [])] ++ d) (lit "unk.bin")) with (Some (enc_unknown u)).
  cbn [ok_or bind].
  assert (LC : load_chardef (enc_chardef cd) = Ok cd).
  { unfold load_chardef. pose proof (rt_chardef cd [] CR) as X. rewrite app_nil_r in X. rewrite X. reflexivity. }
  assert (LU : load_unknown (enc_unknown u) = Ok u).
  { unfold load_unknown. pose proof (rt_unknown u [] UR) as X. rewrite app_nil_r in X. rewrite X. reflexivity. }
  rewrite LC. cbn [bind]. rewrite LU. cbn [bind]. rewrite E5, E6. cbn [bind]. rewrite DA. reflexivity.
Qed.

Lemma user_unchanged be k path name d : (forall bytes, build_user_file be k path <> Ok bytes) -> fst (write_user be k path name d) = d.
Proof. intros H. unfold write_user, next, quiet. destruct (build_user_file be k path) as [b|er|]; [exfalso; exact (H b eq_refl)|reflexivity..]. Qed.
Lemma user_written be k path name d bytes : build_user_file be k path = Ok bytes ->
  snd (write_user be k path name d) = Ok tt /\ content_of (fst (write_user be k path name d)) name = Some bytes /\
  forall other, other <> name -> content_of (fst (write_user be k path name d)) other = content_of d other.
Proof.
  intros H. unfold write_user, next, quiet, create. rewrite H. cbn [fst snd]. split; [reflexivity|]. split; [apply content_of_here|].
  intros other N. rewrite !content_of_other by congruence. reflexivity.
Qed.

Lemma built_names be k dir files : build_dictionary be k dir = Ok files ->
  map fst files = map lit ["char_def.bin"; "unk.bin"; "dict.words"; "dict.wordsidx"; "dict.da"; "dict.vals"; "matrix.mtx"]%string.
Proof.
  unfold build_dictionary. intros H. apply bind_ok in H. destruct H as ([cd b1] & _ & H). apply bind_ok in H. destruct H as (b2 & _ & H).
  apply bind_ok in H. destruct H as (dict & B & H). apply bind_ok in H. destruct H as (b3 & _ & H). injection H as <-.
  apply unwrapped_ok in B. destruct (dict_files_names _ _ _ _ B) as (w1 & w2 & w3 & w4 & ->). reflexivity.
Qed.
