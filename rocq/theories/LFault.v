(** What can be wrong with a configuration. *)
From Coq Require Import String.
From Coq Require Import List NArith ZArith Bool Lia.
From Verif Require Import MBase MUtf8 MText MCodec MDict MCharDef MUnk MBincode MLattice MTokenizer MDetails MBuild MCharFilter MAnalyzer MTokenFilter MConfig MBuilders
  STok SBuild SData SCharFilter STokenFilter SConfig SBuilders SAccept SFault
  LBase LDict LCharDef LConfig LConfigMore LConfigRound LCli LKinds LUserDict LBuilders LUserFile LEmbedded LAccept.
Import ListNotations.
Local Open Scope list_scope.

(** * Extensions *)

Lemma split_join_any (c : char) (ps : list str) : ps <> [] -> Forall (fun p => ~ In c p) ps -> split_char c (join [c] ps) = ps.
Proof.
  induction ps as [|p ps IH]; intros N F; [congruence|]. inversion F as [|? ? H F']; subst. destruct ps as [|q ps].
  - cbn [join]. apply split_char_none, H.
  - change (join [c] (p :: q :: ps)) with (p ++ c :: join [c] (q :: ps)). rewrite split_char_app, (split_char_none c p H), IH by (discriminate || assumption). reflexivity.
Qed.
Lemma split_parts_none (c : char) s : Forall (fun p => ~ In c p) (split_char c s).
Proof.
  induction s as [|x s IH]; [constructor; [intros []|constructor]|]. unfold split_char in *. cbn [split_by]. destruct (N.eqb_spec c x) as [->|E].
  - constructor; [intros []|exact IH].
  - destruct (split_by (N.eqb c) s) as [|p ps]; [constructor; [intros [H|[]]; congruence|constructor]|].
    inversion IH; subst. constructor; [|assumption]. intros [H|H]; [congruence|contradiction].
Qed.

Lemma filter_last {A} (f : A -> bool) l x : last_error (filter f l) = Some x <-> exists pre post, l = pre ++ x :: post /\ f x = true /\ Forall (fun y => f y = false) post.
Proof.
  split.
  - intros H. induction l as [|y l IH] using rev_ind; [discriminate|]. rewrite filter_app in H. cbn [filter] in H. destruct (f y) eqn:E.
    + rewrite last_error_app in H. injection H as ->. exists l, []. auto.
    + rewrite app_nil_r in H. destruct (IH H) as (pre & post & -> & F & G). exists pre, (post ++ [y]). rewrite <- app_assoc. split; [reflexivity|]. split; [exact F|].
      apply Forall_app. split; [exact G|]. constructor; [exact E|constructor].
  - intros (pre & post & -> & F & G). rewrite filter_app. cbn [filter]. rewrite F.
    assert (N : filter f post = []) by (induction G as [|y post H G IH]; [reflexivity|]; cbn [filter]; rewrite H; exact IH). rewrite N. apply last_error_app.
Qed.

Lemma file_name_parts path n : file_name path = Some n <->
  exists pre post, path = join [47%N] (pre ++ n :: post) /\ Forall (fun p => ~ In 47%N p) pre /\ ~ In 47%N n /\ Forall (fun p => p = [] \/ p = [46%N]) post /\
    n <> [] /\ n <> [46%N] /\ n <> [46%N; 46%N].
Proof.
  assert (T : forall p : str, negb (is_nil p || str_eqb p [46%N]) = false <-> p = [] \/ p = [46%N]).
  { intros p. rewrite negb_false_iff, orb_true_iff, str_eqb_true. destruct p; cbn [is_nil]; intuition congruence. }
  unfold file_name. split.
  - destruct (last_error _) as [p|] eqn:L; [|discriminate]. destruct (str_eqb p [46%N; 46%N]) eqn:D; [discriminate|]. intros H. injection H as ->.
    apply filter_last in L. destruct L as (pre & post & E & F & G). pose proof (split_parts_none 47%N path) as S1. rewrite E in S1. apply Forall_app in S1. destruct S1 as [S1 S2]. pose proof (Forall_inv S2) as S3.
    exists pre, post. split; [transitivity (join [47%N] (split_char 47%N path)); [symmetry; apply join_split|rewrite E; reflexivity]|]. split; [exact S1|]. split; [exact S3|]. split; [eapply Forall_impl; [|exact G]; intros p; apply T|].
    assert (X : ~ (n = [] \/ n = [46%N])) by (intros X; apply T in X; congruence). split; [tauto|]. split; [tauto|]. intros ->. apply Bool.not_true_iff_false in D. apply D, str_eqb_true. reflexivity.
  - intros (pre & post & -> & S1 & S2 & G & N1 & N2 & N3). rewrite split_join_any.
    + rewrite (proj2 (filter_last _ _ n)).
      * destruct (str_eqb n [46%N; 46%N]) eqn:D; [|reflexivity]. apply str_eqb_true in D. contradiction.
      * exists pre, post. split; [reflexivity|]. split; [|eapply Forall_impl; [|exact G]; intros p; apply T].
        destruct (negb _) eqn:X; [reflexivity|]. apply T in X. tauto.
    + destruct pre; discriminate.
    + apply Forall_app. split; [exact S1|]. constructor; [exact S2|]. eapply Forall_impl; [|exact G]. intros p [->| ->]; [intros []|intros [H|[]]; discriminate].
Qed.

Lemma join_last (c : char) (l : list str) x : l <> [] -> join [c] (l ++ [x]) = join [c] l ++ c :: x.
Proof.
  induction l as [|a l IH]; intros N; [congruence|]. destruct l as [|b l]; [reflexivity|].
  change (join [c] ((a :: b :: l) ++ [x])) with (a ++ c :: join [c] ((b :: l) ++ [x])). rewrite IH by discriminate.
  change (join [c] (a :: b :: l)) with (a ++ c :: join [c] (b :: l)). rewrite <- app_assoc. reflexivity.
Qed.

Lemma extension_iff path ext : extension path = Some ext <-> path_extension path ext.
Proof.
  unfold extension, path_extension. split.
  - destruct (file_name path) as [n|] eqn:F; [|discriminate]. apply file_name_parts in F. destruct F as (pre & post & -> & S1 & S2 & G & N1 & N2 & N3).
    destruct (rev (split_char 46%N n)) as [|x [|p ps]] eqn:R; try discriminate. destruct (is_nil _) eqn:NI; [discriminate|]. intros H. injection H as ->.
    pose proof (split_parts_none 46%N n) as D. apply (f_equal (@rev str)) in R. rewrite rev_involutive in R. change (rev (ext :: p :: ps)) with (rev (p :: ps) ++ [ext]) in R.
    assert (E : n = join [46%N] (rev (p :: ps)) ++ [46%N] ++ ext).
    { rewrite <- (join_split 46%N n), R. apply join_last. cbn [rev]. intros H. apply app_eq_nil in H. destruct H. discriminate. }
    rewrite R in D. apply Forall_app in D. destruct D as [_ D]. pose proof (Forall_inv D) as D1.
    exists pre, (join [46%N] (rev (p :: ps))), post. split; [rewrite E; reflexivity|]. split; [exact S1|]. split; [exact G|].
    split; [intros H; rewrite H in NI; discriminate NI|]. rewrite E in S2. split; [intros H; apply S2, in_or_app; auto|]. split; [intros H; apply S2, in_or_app; right; right; exact H|].
    split; [exact D1|]. intros [H1 H2]. rewrite H1, H2 in E. apply N3. exact E.
  - intros (pre & name & post & -> & S1 & G & N1 & S2 & S3 & D & NN).
    assert (F : file_name (join [47%N] (pre ++ (name ++ [46%N] ++ ext) :: post)) = Some (name ++ [46%N] ++ ext)).
    { apply file_name_parts. exists pre, post. split; [reflexivity|]. split; [exact S1|]. split.
      - intros H. apply in_app_or in H. destruct H as [H|[H|H]]; [contradiction|discriminate|contradiction].
      - split; [exact G|]. split; [destruct name; discriminate|]. destruct name as [|a [|b name]]; [congruence| |].
        + split; [destruct ext; discriminate|]. intros H. injection H as -> ->. apply NN. auto.
        + split; [destruct name; discriminate|]. destruct name; discriminate. }
    rewrite F. change (name ++ [46%N] ++ ext) with (name ++ 46%N :: ext). rewrite split_char_app, (split_char_none 46%N ext D), rev_app_distr. cbn [rev app].
    destruct (rev (split_char 46%N name)) as [|p ps] eqn:R.
    + exfalso. apply (f_equal (@rev str)) in R. rewrite rev_involutive in R. pose proof (join_split 46%N name) as J. rewrite R in J. exact (N1 (eq_sym J)).
    + change (rev ps ++ [p]) with (rev (p :: ps)). rewrite <- R, rev_involutive, join_split. destruct name; [congruence|reflexivity].
Qed.

Lemma renamed_iff name ext new : renamed name ext new <-> new = with_extension name ext.
Proof.
  assert (D : forall stem old, stem <> [] -> ~ In 46%N old -> with_extension (stem ++ [46%N] ++ old) ext = stem ++ [46%N] ++ ext) by (intros; apply with_extension_of; assumption).
  assert (X : (exists stem old, name = stem ++ [46%N] ++ old /\ stem <> [] /\ ~ In 46%N old) \/
              (forall stem old, name = stem ++ [46%N] ++ old -> ~ In 46%N old -> stem = []) /\ with_extension name ext = name ++ [46%N] ++ ext).
  { unfold with_extension, file_stem. pose proof (split_parts_none 46%N name) as P. pose proof (join_split 46%N name) as J.
    destruct (rev (split_char 46%N name)) as [|x [|p ps]] eqn:R; apply (f_equal (@rev str)) in R; rewrite rev_involutive in R.
    - right. split; [|reflexivity]. intros stem old E _. rewrite R in J. cbn [rev join] in J. rewrite <- J in E. destruct stem; discriminate.
    - right. split; [|reflexivity]. intros stem old E _. exfalso. rewrite R in P. cbn [rev app] in P. apply Forall_inv in P. rewrite R in J. cbn [rev app join] in J. subst x. apply P. rewrite E.
      apply in_or_app. right. left. reflexivity.
    - change (rev (x :: p :: ps)) with (rev (p :: ps) ++ [x]) in R. rewrite R in P, J. apply Forall_app in P. destruct P as [_ P]. apply Forall_inv in P.
      rewrite join_last in J by (cbn [rev]; intros H; apply app_eq_nil in H; destruct H; discriminate).
      destruct (is_nil (join [46%N] (rev (p :: ps)))) eqn:N.
      + right. split; [|reflexivity]. destruct (join [46%N] (rev (p :: ps))) eqn:JN; [|discriminate N]. assert (J2 : 46%N :: x = name) by exact (eq_trans (f_equal (fun l => l ++ 46%N :: x) (eq_sym JN)) J). intros [|c stem] old E NO; [reflexivity|].
        exfalso. rewrite <- J2 in E. cbn [app] in E. injection E as E1 E2. apply P. rewrite E2. apply in_or_app. right. left. reflexivity.
      + left. exists (join [46%N] (rev (p :: ps))), x. split; [symmetry; exact J|]. split; [|exact P]. intros H. rewrite H in N. discriminate. }
  split.
  - intros [(stem & old & -> & N & O & ->)|[H ->]]; [symmetry; apply D; assumption|].
    destruct X as [(stem & old & E & N & O)|[_ X]]; [exfalso; exact (N (H _ _ E O))|]. rewrite X. reflexivity.
  - intros ->. destruct X as [(stem & old & E & N & O)|[H X]]; [left; exists stem, old; subst name; repeat split; auto|right; auto].
Qed.

Lemma cli_user_output be k src dest :
  (forall name, last_name src name -> exists new, renamed name (lit "bin") new) /\
  (forall name new, last_name src name -> renamed name (lit "bin") new ->
     cli_build be true k src dest = do bytes <- build_user_file be k src; Ok [(join_path dest new, bytes)]) /\
  ((forall name, ~ last_name src name) -> cli_build be true k src dest = Err EIo).
Proof.
  split; [|split].
  - intros name _. exists (with_extension name (lit "bin")). apply renamed_iff. reflexivity.
  - intros name new L R. apply renamed_iff in R. subst new. apply file_name_parts in L. unfold cli_build. rewrite L. reflexivity.
  - intros H. unfold cli_build. destruct (file_name src) as [n|] eqn:F; [|reflexivity]. exfalso. apply file_name_parts in F. exact (H n F).
Qed.

(** * Dictionaries *)

Lemma in_files name : In name dictionary_files -> exists n, name = lit n /\ In n ["dict.da"; "dict.vals"; "matrix.mtx"; "char_def.bin"; "unk.bin"; "dict.wordsidx"; "dict.words"]%string.
Proof. unfold dictionary_files. intros H. apply in_map_iff in H. destruct H as (n & <- & H). eauto. Qed.

Ltac file_missing name := eapply (fault_missing _ _ (lit name)); [unfold dictionary_files; apply in_map; cbn [In]; tauto|assumption].

Lemma dictionary_outcome e c :
  match load_dictionary_from_config e c with
  | Ok _ => (forall er, ~ dictionary_fault e c er) /\ ~ dictionary_panic e c
  | Err er => dictionary_fault e c er
  | Panic => dictionary_panic e c
  end.
Proof.
  destruct c as [[k|] p]; unfold load_dictionary_from_config, dictionary_panic; cbn [dc_kind dc_path].
  - unfold load_dictionary_from_kind. destruct (e_embedded e k) as [[d|er|]|] eqn:E; [|eapply fault_embedded; exact E|reflexivity|apply fault_not_included; exact E].
    split; [|discriminate]. intros er F. inversion F; congruence.
  - destruct p as [dir|]; [|constructor]. unfold load_dictionary, read_file.
    destruct (e_read e (join_path dir (lit "dict.da"))) as [b1|] eqn:E1; [cbn [ok_or bind]|cbn [ok_or bind]; file_missing "dict.da"%string].
    destruct (e_read e (join_path dir (lit "dict.vals"))) as [b2|] eqn:E2; [cbn [ok_or bind]|cbn [ok_or bind]; file_missing "dict.vals"%string].
    destruct (e_read e (join_path dir (lit "matrix.mtx"))) as [b3|] eqn:E3; [cbn [ok_or bind]|cbn [ok_or bind]; file_missing "matrix.mtx"%string].
    destruct (Nat.ltb_spec (List.length b3) 4) as [L|L]; [rewrite (cm_load_short _ L); cbn [bind]; exists b3; auto|].
    assert (M : exists m, cm_load b3 = Ok m).
    { destruct b3 as [|a [|b [|c [|d mb]]]]; cbn [List.length] in L; try lia. eexists. reflexivity. }
    destruct M as (m & ->). cbn [bind].
    destruct (e_read e (join_path dir (lit "char_def.bin"))) as [b4|] eqn:E4; [cbn [ok_or bind]|cbn [ok_or bind]; file_missing "char_def.bin"%string].
    unfold load_chardef. destruct (dec_chardef b4) as [[cd ?]|] eqn:D1; cbn [bind]; [|eapply fault_categories; eassumption].
    destruct (e_read e (join_path dir (lit "unk.bin"))) as [b5|] eqn:E5; [cbn [ok_or bind]|cbn [ok_or bind]; file_missing "unk.bin"%string].
    unfold load_unknown. destruct (dec_unknown b5) as [[u ?]|] eqn:D2; cbn [bind]; [|eapply fault_unknown; eassumption].
    destruct (e_read e (join_path dir (lit "dict.wordsidx"))) as [b6|] eqn:E6; [cbn [ok_or bind]|cbn [ok_or bind]; file_missing "dict.wordsidx"%string].
    destruct (e_read e (join_path dir (lit "dict.words"))) as [b7|] eqn:E7; [cbn [ok_or bind]|cbn [ok_or bind]; file_missing "dict.words"%string].
    split; [|intros (b & H1 & H2); assert (b = b3) by congruence; subst b; lia].
    intros er F. inversion F as [| | |? name I M| |]; subst; try congruence. apply in_files in I. destruct I as (n & -> & I). cbn [In] in I.
    repeat (destruct I as [<-|I]; [congruence|]). exact I.
Qed.

Lemma user_outcome e u :
  match load_user_dictionary_from_config e u with
  | Ok _ => (forall er, ~ user_fault e u er) /\ ~ user_panic e u
  | Err er => user_fault e u er
  | Panic => user_panic e u
  end.
Proof.
  destruct u as [path k]. unfold load_user_dictionary_from_config, user_panic. cbn [udc_path udc_kind].
  assert (NX : forall ext, (forall x, extension path = Some x -> x <> ext) -> ~ path_extension path ext).
  { intros ext H X. apply extension_iff in X. exact (H _ X eq_refl). }
  assert (UX : forall ext ext', path_extension path ext -> path_extension path ext' -> ext = ext').
  { intros ext ext' H1 H2. apply extension_iff in H1, H2. congruence. }
  destruct (extension path) as [ext|] eqn:X.
  2: { apply fault_extension; apply NX; discriminate. }
  destruct (str_eqb ext (lit "csv")) eqn:C; [|destruct (str_eqb ext (lit "bin")) eqn:B].
  - apply str_eqb_true in C. subst ext. apply extension_iff in X. destruct k as [k|]; [|apply fault_no_kind; exact X].
    unfold load_user_dictionary_from_csv, build_user_dict, read_file.
    destruct (e_read e path) as [b|] eqn:E; cbn [ok_or bind].
    2: { apply fault_csv; [exact X|]. unfold bad_user_csv. rewrite E. exact I. }
    unfold csv_rows. destruct (e_csv e b) as [rows|er|] eqn:CS; cbn [bind].
    + destruct (kind_user_flexible k || same_lengths rows) eqn:SL; cbn [bind].
      * destruct (build_user (kind_user_options k) rows) as [d|er|] eqn:BU.
        -- assert (A : Forall (accepted_user_row k) rows) by (apply build_user_accepts; eauto).
           split.
           ++ intros er F. inversion F as [? ? N1 N2|? N1|? ? N1 N2|? ? N1 N2|? ? ? N1 N2 N3]; subst; try (apply UX with (1 := X) in N1; discriminate N1); [exact (N1 X)|].
              unfold bad_user_csv in N2. rewrite E, CS in N2. destruct N2 as [(K1 & K2 & N2)|N2]; [|exact (N2 A)]. apply orb_true_iff in SL.
              destruct SL as [SL|SL]; [destruct k; try discriminate SL; congruence|]. apply N2, same_lengths_spec, SL.
           ++ intros (_ & k' & b' & K1 & K2 & K3). injection K1 as <-. assert (b' = b) by congruence. subst b'. destruct K3 as [K3|(rows' & K3 & K4)]; [congruence|]. assert (rows' = rows) by congruence. subst rows'.
              apply Exists_exists in K4. destruct K4 as (r & I1 & I2). rewrite Forall_forall in A. destruct (A r I1) as (_ & [L|L]); [lia|]. destruct k; cbn in L; lia.
        -- apply fault_csv; [exact X|]. unfold bad_user_csv. rewrite E, CS. right. intros A. apply build_user_accepts in A. destruct A as (d & D). congruence.
        -- split; [exact X|]. exists k, b. split; [reflexivity|]. split; [first [exact E|reflexivity]|]. right. exists rows. split; [first [exact CS|reflexivity]|].
           destruct (Exists_dec (fun r : row => List.length r < 3) rows (fun r => lt_dec _ _)) as [L|L]; [exact L|]. exfalso.
           assert (F : Forall (fun r : row => List.length r = 3 \/ 4 <= List.length r) rows).
           { apply Forall_forall. intros r I1. destruct (le_lt_dec 3 (List.length r)) as [L1|L1]; [lia|]. exfalso. apply L, Exists_exists. exists r. auto. }
           destruct (kind_build_outcome k rows F) as (K1 & _ & K2).
           assert (AD : forall r, {row_acceptable (kind_user_options k) r} + {~ row_acceptable (kind_user_options k) r}).
           { intros r. unfold row_acceptable. destruct (user_numbers (kind_user_options k) r), (user_row_details (kind_user_options k) r);
               [left; split; discriminate|right; intros [_ H]; congruence|right; intros [H _]; congruence|right; intros [H _]; congruence]. }
           destruct (Forall_Exists_dec _ AD rows) as [D|D]; [destruct (K1 D); congruence|destruct (K2 D); congruence].
      * apply fault_csv; [exact X|]. unfold bad_user_csv. rewrite E, CS. left. apply orb_false_iff in SL. destruct SL as [S1 S2]. split; [intros ->; discriminate|]. split; [intros ->; discriminate|].
        intros H. apply same_lengths_spec in H. congruence.
    + apply fault_csv; [exact X|]. unfold bad_user_csv. rewrite E, CS. exact I.
    + split; [exact X|]. exists k, b. auto.
  - apply str_eqb_true in B. subst ext. apply extension_iff in X. unfold load_user_dictionary_from_bin, read_file.
    destruct (e_read e path) as [b|] eqn:E; cbn [ok_or bind]; [|apply fault_bin_missing; assumption].
    unfold load_user. destruct (dec_user b) as [[u ?]|] eqn:D; cbn [bind]; [|eapply fault_bin; eassumption]. split.
    + intros er F. inversion F as [? ? N1 N2|? N1|? ? N1 N2|? ? N1 N2|? ? ? N1 N2 N3]; subst; try (apply UX with (1 := X) in N1; discriminate N1); congruence.
    + intros (H & _). apply UX with (1 := X) in H. discriminate H.
  - apply fault_extension; apply NX; intros x H; injection H as <-; intros ->; apply Bool.not_true_iff_false in B; apply Bool.not_true_iff_false in C.
    + apply C, str_eqb_true. reflexivity.
    + apply B, str_eqb_true. reflexivity.
Qed.

(** * Filters *)

Lemma load_filters_outcome {A} (load : str -> value -> res A) l : Forall distinct l ->
  match load_filters load (Some l) with
  | Ok _ => forall s name a, In s l -> setting_kind s name -> setting_args s a -> exists f, load name a = Ok f
  | Err er => exists s name a, In s l /\ setting_kind s name /\ setting_args s a /\ load name a = Err er
  | Panic => exists s name a, In s l /\ setting_kind s name /\ setting_args s a /\ load name a = Panic
  end.
Proof.
  intros D. cbn [load_filters].
  assert (G : forall acc, match foldM (fun acc s =>
      match as_str (index s (lit "kind")) with
      | Some name => do f <- load name (index s (lit "args")); Ok (acc ++ [f])
      | None => Ok acc
      end) l acc with
    | Ok _ => forall s name a, In s l -> setting_kind s name -> setting_args s a -> exists f, load name a = Ok f
    | Err er => exists s name a, In s l /\ setting_kind s name /\ setting_args s a /\ load name a = Err er
    | Panic => exists s name a, In s l /\ setting_kind s name /\ setting_args s a /\ load name a = Panic
    end).
  { induction D as [|s l Ds D IH]; intros acc; cbn [foldM]; [intros s name a []|].
    destruct (as_str (index s (lit "kind"))) as [name|] eqn:K.
    - assert (SK : setting_kind s name) by (apply str_kind_iff; assumption).
      assert (SA : setting_args s (index s (lit "args"))) by (destruct SK as (os & -> & _); apply args_exist, (Ds os eq_refl)).
      destruct (load name (index s (lit "args"))) as [f|er|] eqn:L; cbn [bind].
      + specialize (IH (acc ++ [f])). destruct (foldM _ l _) as [x|er|].
        * intros s' name' a [<-|I] K' A'; [|eapply IH; eassumption]. apply str_kind_iff in K'; [|exact Ds]. rewrite (args_iff s a Ds A') in L. rewrite K in K'. injection K' as <-. eauto.
        * destruct IH as (s' & n & a & I & H). exists s', n, a. split; [right; exact I|exact H].
        * destruct IH as (s' & n & a & I & H). exists s', n, a. split; [right; exact I|exact H].
      + exists s, name, (index s (lit "args")). split; [left; reflexivity|auto].
      + exists s, name, (index s (lit "args")). split; [left; reflexivity|auto].
    - cbn [bind]. specialize (IH acc). destruct (foldM _ l _) as [x|er|].
      + intros s' name' a [<-|I] K' A'; [|eapply IH; eassumption]. apply str_kind_iff in K'; [|exact Ds]. congruence.
      + destruct IH as (s' & n & a & I & H). exists s', n, a. split; [right; exact I|exact H].
      + destruct IH as (s' & n & a & I & H). exists s', n, a. split; [right; exact I|exact H]. }
  specialize (G []). destruct (foldM _ l []) as [x|er|]; exact G.
Qed.

Lemma top_outcome {A} (load : str -> value -> res A) top key : distinct_settings top ->
  match load_filters load (as_array (index (VObj top) (lit key))) with
  | Ok _ => forall l s name a, has top key (VArr l) -> In s l -> setting_kind s name -> setting_args s a -> exists f, load name a = Ok f
  | Err er => filter_fault load top key er
  | Panic => exists l s name a, has top key (VArr l) /\ In s l /\ setting_kind s name /\ setting_args s a /\ load name a = Panic
  end.
Proof.
  intros [ND D]. unfold filter_fault, index, get, has.
  destruct (lookup (lit key) top) as [v|] eqn:E.
  - apply lookup_has in E; [|exact ND].
    assert (U : forall w, In (lit key, w) top -> w = v).
    { intros w H. apply lookup_has in E; [|exact ND]. apply lookup_has in H; [congruence | exact ND]. }
    destruct v as [| | | | |l|]; cbn [as_array]; try (cbn [load_filters]; intros l' s' name a H; apply U in H; discriminate H).
    pose proof (load_filters_outcome load l (proj2 (D (lit key) (VArr l) E) l eq_refl)) as G. destruct (load_filters load (Some l)) as [x|er|].
    + intros l' s name a H. apply U in H. injection H as ->. apply G.
    + exists l. destruct G as (s & name & a & G). exists s, name, a. auto.
    + exists l. destruct G as (s & name & a & G). exists s, name, a. auto.
  - apply lookup_lacks in E. cbn [as_array load_filters]. intros l s name a H. exfalso. apply E. change (lit key) with (fst (lit key, VArr l)). apply in_map. exact H.
Qed.

(** * The tokenizer *)

Lemma fine_i32 v : fine (de_i32 v).
Proof. destruct v; cbn; auto. destruct (_ && _); cbn; auto. Qed.
Lemma fine_tokenizer_config fs : fine (de_tokenizer_config fs).
Proof.
  unfold de_tokenizer_config. apply fine_bind.
  - generalize (@None dictionary_config, @None user_dictionary_config, @None mode). induction fs as [|[key v] fs IH]; intros st; cbn [foldM]; [exact I|].
    apply fine_bind; [|intros; apply IH]. destruct st as [[d u] m]. unfold tokenizer_field.
    destruct (str_eqb key (lit "dictionary")).
    { apply fine_bind; [|intros; exact I]. apply fine_struct2. intros a b. apply fine_bind; [apply fine_optional, fine_enum|]. intros x _. apply fine_bind; [apply fine_optional, fine_string|]. intros; exact I. }
    destruct (str_eqb key (lit "user_dictionary")).
    { apply fine_bind; [|intros; exact I]. apply fine_struct2. intros a b. apply fine_bind; [apply fine_required, fine_string|]. intros x _. apply fine_bind; [apply fine_optional, fine_enum|]. intros; exact I. }
    destruct (str_eqb key (lit "mode")); [|exact eq_refl].
    apply fine_bind; [|intros; exact I]. destruct v as [| | | |s|l|os]; try exact eq_refl; cbn [de_mode].
    + destruct (str_eqb s (lit "normal")); [exact I|exact eq_refl].
    + destruct os as [|[s x] [|o os]]; try exact eq_refl. destruct (str_eqb s (lit "normal")); [destruct x; first [exact I|exact eq_refl]|].
      destruct (str_eqb s (lit "decompose")); [|exact eq_refl]. apply fine_bind; [|intros; exact I]. unfold de_penalty. apply fine_bind; [apply fine_struct|].
      intros l _. destruct l as [|x1 [|x2 [|x3 [|x4 [|x5 l]]]]]; try exact eq_refl.
      apply fine_bind; [apply fine_required, fine_usize|]. intros ? _. apply fine_bind; [apply fine_required, fine_i32|]. intros ? _.
      apply fine_bind; [apply fine_required, fine_usize|]. intros ? _. apply fine_bind; [apply fine_required, fine_i32|]. intros; exact I.
  - intros [[d u] m] _. apply fine_bind; [apply fine_ok_or|]. intros; exact I.
Qed.

Theorem config_outcome e top : distinct_settings top -> (forall fs, has top "tokenizer" (VObj fs) -> object_structs fs) ->
  match analyzer_from_config e (VObj top) with
  | Ok _ => (forall er, ~ config_fault e top er) /\ ~ config_panic e top
  | Err er => config_fault e top er
  | Panic => config_panic e top
  end.
Proof.
  intros D OS. unfold analyzer_from_config.
  pose proof (top_outcome (load_char_filter e) top "character_filters" D) as C.
  destruct (load_filters (load_char_filter e) _) as [cfs|er|]; cbn [bind].
  2: { apply fault_char_filter, C. }
  2: { destruct C as (l & s & name & a & _ & _ & _ & _ & L). pose proof (load_char_filter_errors e name a) as F. rewrite L in F. destruct F. }
  assert (U : forall v w, has top "tokenizer" v -> has top "tokenizer" w -> v = w).
  { intros v w H1 H2. apply lookup_has in H1, H2; try apply D. congruence. }
  destruct (as_object (index (VObj top) (lit "tokenizer"))) as [fs|] eqn:T; cbn [ok_or bind].
  2: { apply fault_no_tokenizer. intros fs H. unfold index, get in T. apply lookup_has in H; [|apply D]. rewrite H in T. discriminate T. }
  assert (HT : has top "tokenizer" (VObj fs)).
  { unfold index, get in T. destruct (lookup (lit "tokenizer") top) as [v|] eqn:E; [|discriminate]. apply lookup_in in E. destruct v; try discriminate. injection T as ->. exact E. }
  specialize (OS fs HT). pose proof (fine_tokenizer_config fs) as F. destruct (de_tokenizer_config fs) as [tc|er|] eqn:TC; cbn [bind]; [|cbn [fine] in F; subst er|destruct F].
  2: { eapply fault_tokenizer; [exact HT|]. intros tc H. apply de_tokenizer_config_iff in H; [|exact OS]. congruence. }
  assert (TD : tokenizer_described fs tc) by (apply de_tokenizer_config_iff; assumption).
  assert (UT : forall fs' tc', has top "tokenizer" (VObj fs') -> tokenizer_described fs' tc' -> tc' = tc).
  { intros fs' tc' H1 H2. apply U with (1 := HT) in H1. injection H1 as <-. apply de_tokenizer_config_iff in H2; [|exact OS]. congruence. }
  unfold tokenizer_from_config. pose proof (dictionary_outcome e (tc_dictionary tc)) as DO.
  destruct (load_dictionary_from_config e (tc_dictionary tc)) as [d|er|]; cbn [bind]; [|eapply fault_dictionary; eassumption|eapply panic_dictionary; eassumption].
  assert (UO : match (match tc_user tc with Some uc => do u <- load_user_dictionary_from_config e uc; Ok (Some u) | None => Ok None end) with
    | Ok _ => forall u, tc_user tc = Some u -> (forall er, ~ user_fault e u er) /\ ~ user_panic e u
    | Err er => exists u, tc_user tc = Some u /\ user_fault e u er
    | Panic => exists u, tc_user tc = Some u /\ user_panic e u
    end).
  { destruct (tc_user tc) as [uc|]; [|discriminate]. pose proof (user_outcome e uc) as X. destruct (load_user_dictionary_from_config e uc); cbn [bind]; [intros u H; injection H as <-; exact X|eauto|eauto]. }
  destruct (match tc_user tc with Some uc => _ | None => _ end) as [u|er|]; cbn [bind].
  2: { destruct UO as (u & H1 & H2). eapply fault_user; eassumption. }
  2: { destruct UO as (u & H1 & H2). eapply panic_user; eassumption. }
  pose proof (top_outcome load_token_filter top "token_filters" D) as K.
  destruct (load_filters load_token_filter _) as [tfs|er|]; cbn [bind]; [|apply fault_token_filter, K|apply panic_filter, K].
  split.
  - intros er X. destruct X as [er (l & s & name & a & H1 & H2 & H3 & H4 & H5)|X|fs' X1 X2|fs' tc' er X1 X2 X3|fs' tc' u' er X1 X2 X3 X4|er (l & s & name & a & H1 & H2 & H3 & H4 & H5)].
    + destruct (C l s name a H1 H2 H3 H4). congruence.
    + exact (X fs HT).
    + apply U with (1 := HT) in X1. injection X1 as <-. exact (X2 tc TD).
    + rewrite (UT fs' tc' X1 X2) in X3. exact (proj1 DO er X3).
    + rewrite (UT fs' tc' X1 X2) in X3. exact (proj1 (UO u' X3) er X4).
    + destruct (K l s name a H1 H2 H3 H4). congruence.
  - intros X. destruct X as [fs' tc' X1 X2 X3|fs' tc' u' X1 X2 X3 X4|(l & s & name & a & H1 & H2 & H3 & H4 & H5)].
    + rewrite (UT fs' tc' X1 X2) in X3. exact (proj2 DO X3).
    + rewrite (UT fs' tc' X1 X2) in X3. exact (proj2 (UO u' X3) X4).
    + destruct (K l s name a H1 H2 H3 H4). congruence.
Qed.

Lemma config_no_object e v : (forall top, v <> VObj top) -> analyzer_from_config e v = Err EDeserialize.
Proof. intros H. destruct v as [| | | | | |top]; try reflexivity. destruct (H top eq_refl). Qed.

(** * Which fault is reported *)

Theorem config_order e top : distinct_settings top -> (forall fs, has top "tokenizer" (VObj fs) -> object_structs fs) ->
  let result := analyzer_from_config e (VObj top) in
  let good_chars := forall er, ~ filter_fault (load_char_filter e) top "character_filters" er in
  (forall er, filter_fault (load_char_filter e) top "character_filters" er ->
     exists er', result = Err er' /\ filter_fault (load_char_filter e) top "character_filters" er') /\
  (good_chars -> (forall fs tc, has top "tokenizer" (VObj fs) -> ~ tokenizer_described fs tc) -> result = Err EDeserialize) /\
  (good_chars -> forall fs tc, has top "tokenizer" (VObj fs) -> tokenizer_described fs tc ->
     (((exists er, dictionary_fault e (tc_dictionary tc) er) \/ dictionary_panic e (tc_dictionary tc)) ->
        (exists er, result = Err er /\ dictionary_fault e (tc_dictionary tc) er) \/ (result = Panic /\ dictionary_panic e (tc_dictionary tc))) /\
     ((forall er, ~ dictionary_fault e (tc_dictionary tc) er) -> ~ dictionary_panic e (tc_dictionary tc) ->
        forall u, tc_user tc = Some u -> ((exists er, user_fault e u er) \/ user_panic e u) ->
        (exists er, result = Err er /\ user_fault e u er) \/ (result = Panic /\ user_panic e u))).
Proof.
  intros D OS. cbv zeta. unfold analyzer_from_config.
  pose proof (top_outcome (load_char_filter e) top "character_filters" D) as C.
  destruct (load_filters (load_char_filter e) _) as [cfs|er|]; cbn [bind].
  2: { split; [intros er' _; eauto|]. split; [intros G; destruct (G er C)|]. intros G; destruct (G er C). }
  2: { destruct C as (l & s & name & a & _ & _ & _ & _ & L). pose proof (load_char_filter_errors e name a) as F. rewrite L in F. destruct F. }
  split. { intros er (l & s & name & a & H1 & H2 & H3 & H4 & H5). destruct (C l s name a H1 H2 H3 H4). congruence. }
  assert (U : forall fs, has top "tokenizer" (VObj fs) -> as_object (index (VObj top) (lit "tokenizer")) = Some fs).
  { intros fs H. apply lookup_has in H; [|apply D]. unfold index, get. rewrite H. reflexivity. }
  split.
  - intros _ N. destruct (as_object (index (VObj top) (lit "tokenizer"))) as [fs|] eqn:T; cbn [ok_or bind]; [|reflexivity].
    assert (HT : has top "tokenizer" (VObj fs)).
    { unfold index, get in T. destruct (lookup (lit "tokenizer") top) as [v|] eqn:E; [|discriminate]. apply lookup_in in E. destruct v; try discriminate. injection T as ->. exact E. }
    pose proof (fine_tokenizer_config fs) as F. destruct (de_tokenizer_config fs) as [tc|er|] eqn:TC; cbn [bind]; [|cbn [fine] in F; subst er; reflexivity|destruct F].
    destruct (N fs tc HT). apply de_tokenizer_config_iff; [exact (OS fs HT)|exact TC].
  - intros _ fs tc HT TD. rewrite (U fs HT). cbn [ok_or bind]. apply de_tokenizer_config_iff in TD; [|exact (OS fs HT)]. rewrite TD. cbn [bind].
    unfold tokenizer_from_config. pose proof (dictionary_outcome e (tc_dictionary tc)) as DO.
    destruct (load_dictionary_from_config e (tc_dictionary tc)) as [d|er|]; cbn [bind].
    2: { split; [intros _; left; eauto|]. intros G. destruct (G er DO). }
    2: { split; [intros _; right; auto|]. intros _ G. destruct (G DO). }
    split. { intros [(er & X)|X]; [destruct (proj1 DO er X)|destruct (proj2 DO X)]. }
    intros _ _ u E X. rewrite E. pose proof (user_outcome e u) as UO. destruct (load_user_dictionary_from_config e u) as [ud|er|]; cbn [bind].
    + destruct UO as [U1 U2]. destruct X as [(er & X)|X]; [destruct (U1 er X)|destruct (U2 X)].
    + left; eauto.
    + right; auto.
Qed.
