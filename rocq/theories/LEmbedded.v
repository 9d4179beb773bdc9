(** Proofs about compressed, embedded and damaged dictionaries. *)
From Coq Require Import String.
From Coq Require Import List NArith ZArith Bool Lia ZifyBool ZifyNat ZifyN Permutation.
From Verif Require Import MBase MUtf8 MText MCodec MDict MCharDef MUnk MBincode MLattice MTokenizer MDetails MBuild MConfig MBuilders
  STok SBuild SMatrix SCharDef SUnk SData SConfig SBuilders LBase LUtf8 LCodec LBuild LSysDict LCharDef LBincode LData LConfig LBuilders.
Import ListNotations.
Local Open Scope list_scope.

Lemma unwrapped_ok {A} k (r : res A) x : unwrapped k r = Ok x <-> r = Ok x.
Proof. destruct k, r; cbn; split; intros H; try discriminate; exact H. Qed.

Lemma written_plain be b : written (with_compress false be) b = Ok b.
Proof. reflexivity. Qed.

(* the seven files, compressed or not, from the same parts *)
Lemma build_parts be feature k dir files : build_dictionary (with_compress feature be) k dir = Ok files ->
  exists cd u w wi da v m, let parts := [enc_chardef cd; enc_unknown u; w; wi; da; v; m] in
    let names := map lit ["char_def.bin"; "unk.bin"; "dict.words"; "dict.wordsidx"; "dict.da"; "dict.vals"; "matrix.mtx"]%string in
    build_dictionary (with_compress false be) k dir = Ok (combine names parts) /\
    exists zs, files = combine names zs /\ Forall2 (fun b z => written (with_compress feature be) b = Ok z) parts zs.
Proof.
  unfold build_dictionary. intros H. apply bind_ok in H. destruct H as [[cd z1] [H1 H]]. apply unwrapped_ok in H1.
  apply bind_ok in H. destruct H as [z2 [H2 H]]. apply unwrapped_ok in H2.
  apply bind_ok in H. destruct H as [ds [H3 H]]. apply unwrapped_ok in H3.
  apply bind_ok in H. destruct H as [z7 [H4 H]]. apply unwrapped_ok in H4. injection H as <-.
  unfold build_chardef_file in H1. apply bind_ok in H1. destruct H1 as [t1 [R1 H1]]. apply bind_ok in H1. destruct H1 as [cd' [P1 H1]].
  apply bind_ok in H1. destruct H1 as [z1' [W1 H1]]. injection H1 as -> ->.
  unfold build_unk_file in H2. apply bind_ok in H2. destruct H2 as [t2 [R2 H2]]. apply bind_ok in H2. destruct H2 as [u [P2 W2]].
  unfold build_dict_files in H3. apply bind_ok in H3. destruct H3 as [rows [R3 H3]]. apply bind_ok in H3. destruct H3 as [f [P3 H3]].
  apply bind_ok in H3. destruct H3 as [z3 [W3 H3]]. apply bind_ok in H3. destruct H3 as [z4 [W4 H3]].
  apply bind_ok in H3. destruct H3 as [da [Y H3]]. apply bind_ok in H3. destruct H3 as [z5 [W5 H3]]. apply bind_ok in H3. destruct H3 as [z6 [W6 H3]]. injection H3 as <-.
  unfold build_matrix_file in H4. apply bind_ok in H4. destruct H4 as [t4 [R4 H4]]. apply bind_ok in H4. destruct H4 as [m [P4 W7]].
  exists cd, u, (f_words f), (f_words_idx f), da, (f_vals f), m. cbv zeta. split.
  - assert (UO : forall A (x : A), unwrapped k (Ok x) = Ok x) by (intros; destruct k; reflexivity).
    unfold build_chardef_file. change (read_text (with_compress false be)) with (read_text (with_compress feature be)). rewrite R1. cbn [bind]. rewrite P1. cbn [bind].
    rewrite written_plain. cbn [bind]. rewrite UO. cbn [bind].
    unfold build_unk_file. change (read_text (with_compress false be)) with (read_text (with_compress feature be)). rewrite R2. cbn [bind]. rewrite P2. cbn [bind].
    rewrite written_plain, UO. cbn [bind].
    unfold build_dict_files. change (system_rows (with_compress false be)) with (system_rows (with_compress feature be)). rewrite R3. cbn [bind]. rewrite P3. cbn [bind].
    rewrite !written_plain. cbn [bind]. change (be_yada (with_compress false be)) with (be_yada (with_compress feature be)). rewrite Y. cbn [bind]. rewrite written_plain. cbn [bind].
    rewrite UO. cbn [bind].
    unfold build_matrix_file. change (read_text (with_compress false be)) with (read_text (with_compress feature be)). rewrite R4. cbn [bind]. rewrite P4. cbn [bind].
    rewrite written_plain, UO. reflexivity.
  - exists [z1; z2; z3; z4; z5; z6; z7]. split; [reflexivity|]. repeat (constructor; [assumption|]). constructor.
Qed.

Theorem embedded_same be feature k dir files : codecs_inverse (be_codecs be) -> codecs_bytes (be_codecs be) ->
  build_dictionary (with_compress feature be) k dir = Ok files ->
  exists plain, build_dictionary (with_compress false be) k dir = Ok plain /\
    (byte_files plain -> forall e out get, files_at e out plain -> contents get files ->
      embedded_dictionary e (be_codecs be) feature get = load_dictionary e out).
Proof.
  intros CI CB H. destruct (build_parts _ _ _ _ _ H) as (cd & u & w & wi & da & v & m & P & zs & -> & F). eexists. split; [exact P|].
  intros BF e out get FA CO.
  repeat match goal with F : Forall2 _ (_ :: _) _ |- _ => inversion F; subst; clear F end. 
  match goal with F : Forall2 _ [] _ |- _ => inversion F; subst; clear F end.
  cbn [map combine] in BF, FA, CO.
  assert (ED : forall b z, written (with_compress feature be) b = Ok z -> Forall is_byte b /\ short b -> embedded_data (be_codecs be) feature z = Ok b).
  { intros b z W [B1 B2]. eapply embedded_written; eauto. }
  unfold byte_files in BF.
  repeat match goal with F : Forall _ (_ :: _) |- _ => inversion F; subst; clear F end.
  unfold embedded_dictionary, load_dictionary, read_file.
  rewrite (FA (lit "dict.da") da) by (cbn [In]; tauto). cbn [ok_or bind].
  rewrite (FA (lit "dict.vals") v) by (cbn [In]; tauto). cbn [ok_or bind].
  rewrite (FA (lit "matrix.mtx") m) by (cbn [In]; tauto). cbn [ok_or bind].
  rewrite (FA (lit "char_def.bin") (enc_chardef cd)) by (cbn [In]; tauto). cbn [ok_or bind].
  rewrite (FA (lit "unk.bin") (enc_unknown u)) by (cbn [In]; tauto). cbn [ok_or bind].
  rewrite (FA (lit "dict.wordsidx") wi) by (cbn [In]; tauto). cbn [ok_or bind].
  rewrite (FA (lit "dict.words") w) by (cbn [In]; tauto). cbn [ok_or bind].
  Local Ltac one CO ED name := 
    match goal with |- context [embedded_data _ _ (_ (lit name))] => idtac end;
    erewrite (CO (lit name)) by (cbn [In]; eauto 10 using in_eq); erewrite ED by eassumption; cbn [bind].
  one CO ED "dict.da"%string. one CO ED "dict.vals"%string. one CO ED "matrix.mtx"%string.
  destruct (cm_load m); cbn [bind]; try reflexivity.
  one CO ED "char_def.bin"%string. destruct (load_chardef _); cbn [bind]; try reflexivity.
  one CO ED "unk.bin"%string. destruct (load_unknown _); cbn [bind]; try reflexivity.
  one CO ED "dict.wordsidx"%string. one CO ED "dict.words"%string. reflexivity.
Qed.

(** * Compressed files read as plain ones *)

Lemma written_compressed be b z : be_compress be = true -> written be b = Ok z ->
  exists d, k_encode (be_codecs be) Deflate b = Some d /\ z = le_bytes 4 0 ++ le_bytes 8 (N.of_nat (List.length d)) ++ d.
Proof.
  intros C W. unfold written, compress_write in W. rewrite C in W. unfold compress in W.
  destruct (k_encode (be_codecs be) Deflate b) as [d|]; [|discriminate]. injection W as <-. exists d. split; [reflexivity|].
  unfold enc_compressed. cbn [cz_algorithm cz_data algorithm_index]. unfold enc_bytes, enc_vec, enc_uint. f_equal. f_equal.
  clear. induction d as [|x d IH]; cbn [flat_map]; [reflexivity|]. unfold enc_byte at 1. cbn [app]. f_equal. exact IH.
Qed.

Lemma compressed_chardef d : d <> [] -> (N.of_nat (List.length d) < 4294967296)%N ->
  load_chardef (le_bytes 4 0 ++ le_bytes 8 (N.of_nat (List.length d)) ++ d) = Err EDeserialize.
Proof.
  intros NE L. set (n := N.of_nat (List.length d)) in *. assert (P : (1 <= n)%N) by (destruct d; [congruence|cbn [List.length] in n; lia]).
  unfold load_chardef, dec_chardef, dec_map, dec_pair, dec_vec at 1, dec_uint at 1.
  assert (S : le_bytes 8 n = le_bytes 4 n ++ le_bytes 4 (n / 256 / 256 / 256 / 256)) by reflexivity. rewrite S.
  rewrite !app_length, !le_bytes_length. cbn [Nat.add Nat.ltb Nat.leb].
  change (le_bytes 4 0) with [0; 0; 0; 0]%N. rewrite <- (app_assoc (le_bytes 4 n)).
  assert (LB : List.length (le_bytes 4 n) = 4) by apply le_bytes_length.
  pose proof (le_value_small 4 n) as V. change (256 ^ N.of_nat 4)%N with 4294967296%N in V. specialize (V L).
  destruct (le_bytes 4 n) as [|b0 [|b1 [|b2 [|b3 [|? ?]]]]]; try discriminate LB. cbn [app firstn skipn].
  cbn [le_value] in V |- *.
  match goal with |- context [(N.of_nat (List.length ?r) <? ?x)%N] => assert (Q : (N.of_nat (List.length r) <? x)%N = true) end.
  { apply N.ltb_lt. rewrite app_length, le_bytes_length. lia. }
  rewrite Q. reflexivity.
Qed.

Lemma compressed_matrix d : exists m, cm_load (le_bytes 4 0 ++ le_bytes 8 (N.of_nat (List.length d)) ++ d) = Ok m.
Proof.
  change (le_bytes 4 0) with [0; 0; 0; 0]%N. cbn [app]. unfold cm_load, slice, slice_from. cbn [List.length Nat.leb Nat.ltb andb orb negb Nat.sub skipn firstn bind]. eexists. reflexivity.
Qed.

Theorem compressed_by_path be k dir files e out : be_compress be = true ->
  (forall data z, k_encode (be_codecs be) Deflate data = Some z -> z <> []) ->
  build_dictionary be k dir = Ok files ->
  (forall bytes, In (lit "char_def.bin", bytes) files -> (N.of_nat (List.length bytes) < 4294967296)%N) ->
  files_at e out files -> load_dictionary e out = Err EDeserialize.
Proof.
  intros C NE H SZ FA. assert (EQ : be = with_compress true be) by (destruct be; unfold with_compress; cbn in *; subst; reflexivity). rewrite EQ in H. clear EQ.
  destruct (build_parts _ _ _ _ _ H) as (cd & u & w & wi & da & v & m & P & zs & -> & F).
  repeat match goal with F : Forall2 _ (_ :: _) _ |- _ => inversion F; subst; clear F end. 
  match goal with F : Forall2 _ [] _ |- _ => inversion F; subst; clear F end.
  cbn [map combine] in SZ, FA.
  repeat match goal with W : written _ _ = Ok _ |- _ => apply (written_compressed (with_compress true be) _ _ eq_refl) in W; destruct W as (? & ? & ->) end.
  specialize (SZ _ (or_introl eq_refl)). cbn [with_compress be_codecs] in *.
  unfold load_dictionary, read_file.
  rewrite (FA (lit "dict.da") _) by (cbn [In]; eauto 10 using in_eq). cbn [ok_or bind].
  rewrite (FA (lit "dict.vals") _) by (cbn [In]; eauto 10 using in_eq). cbn [ok_or bind].
  erewrite (FA (lit "matrix.mtx") _) by (cbn [In]; eauto 10 using in_eq). cbn [ok_or bind].
  match goal with |- context [cm_load (_ ++ _ ++ ?d)] => destruct (compressed_matrix d) as (mm & ->) end. cbn [bind].
  erewrite (FA (lit "char_def.bin") _) by (cbn [In]; eauto 10 using in_eq). cbn [ok_or bind].
  rewrite compressed_chardef; [reflexivity|eapply NE; eassumption|]. rewrite !app_length, !le_bytes_length in SZ. lia.
Qed.

(** * Faulty sources *)

Lemma good_char_read be k dir : be_compress be = false -> good_char be k dir ->
  exists cd, unwrapped k (build_chardef_file be k dir) = Ok (cd, enc_chardef cd).
Proof.
  intros NC (t & ds & T & D). destruct (char_def_categories _ _ D) as (cd & CD & _). exists cd. apply unwrapped_ok.
  unfold build_chardef_file. rewrite (text_read _ _ _ _ _ T). cbn [bind]. rewrite CD. cbn [bind].
  unfold written, compress_write. rewrite NC. reflexivity.
Qed.

Lemma good_unk_read be k dir cd : be_compress be = false -> good_unk be k dir -> exists b, unwrapped k (build_unk_file be k dir cd) = Ok b.
Proof.
  intros NC (t & us & T & F). unfold build_unk_file. rewrite (text_read _ _ _ _ _ T). cbn [bind]. unfold parse_unk.
  assert (E : mapM (fun line => parse_dictionary_entry (split_char 44%N line) (unk_fields k)) (lines t) = Ok (map LUnkDef.entry_of us)).
  { rewrite kind_fields. induction F as [|l u ls us R F IH]; cbn [mapM map]; [reflexivity|]. rewrite (LUnkDef.reads_as_parse _ _ _ R). cbn [bind]. rewrite IH. reflexivity. }
  rewrite E. cbn [bind]. unfold written, compress_write. rewrite NC. eexists. apply unwrapped_ok. reflexivity.
Qed.

Lemma mapM_first_err {A B} (f : A -> res B) pre ys x post er : Forall2 (fun a b => f a = Ok b) pre ys -> f x = Err er -> mapM f (pre ++ x :: post) = Err er.
Proof. intros F E. induction F as [|a b pre ys H F IH]; cbn [app mapM]; [rewrite E; reflexivity|]. rewrite H. cbn [bind]. rewrite IH. reflexivity. Qed.

Definition row_reader (be : build_env) (k : dictionary_kind) (dir : str) (name : str) : res (list row) :=
  do bytes <- read_file (be_env be) (join_path dir name);
  csv_rows (be_env be) (kind_flexible k) (match kind_encoding k with EucJp => be_transcode be bytes | Utf8 => bytes end).

Lemma system_rows_reader be k dir : system_rows be k dir = do names <- be_glob be dir; do rss <- mapM (row_reader be k dir) names; Ok (concat rss).
Proof. reflexivity. Qed.

Lemma csv_file_read be k dir name rows : csv_file be k dir name rows -> row_reader be k dir name = Ok rows.
Proof.
  intros (b & E1 & E2 & E3). unfold row_reader, read_file. rewrite E1. cbn [ok_or bind]. unfold csv_rows.
  replace (match kind_encoding k with EucJp => be_transcode be b | Utf8 => b end) with (match k with IPADIC => be_transcode be b | _ => b end) by (destruct k; reflexivity).
  rewrite E2. cbn [bind]. destruct E3 as [->|E3]; [reflexivity|]. apply same_lengths_spec in E3. rewrite E3. destruct (kind_flexible k); reflexivity.
Qed.
Lemma csv_files_read be k dir names files : Forall2 (csv_file be k dir) names files -> Forall2 (fun a b => row_reader be k dir a = Ok b) names files.
Proof. apply Forall2_weaken. intros. apply csv_file_read. assumption. Qed.

Lemma rows_rejected o rows : Forall (fun r : row => (4 <= List.length r)%nat) rows -> o_skip_invalid o = false ->
  Exists (fun r => sys_numbers r = None) rows -> build_dict o rows = Err EParse.
Proof.
  intros L4 SK EX. set (srt := sorted_rows (sys_surface o) rows).
  assert (PM : Permutation rows srt) by apply sorted_rows_perm.
  assert (NE : Forall (fun r : row => r <> []) rows) by (eapply Forall_impl; [|exact L4]; intros [|? ?] H; [cbn in H; lia|discriminate]).
  assert (UN : build_dict o rows = do m <- foldM (sys_step o) (number_from 0 srt) [];
               do wi <- foldM (add_sys_words o) srt ([], []); Ok (DictFiles (keyset_from 0 m) (entry_values m) (fst wi) (snd wi))).
  { unfold build_dict. rewrite keyed_rows_ok by exact NE. cbn [bind]. fold (sorted_rows (sys_surface o) rows). fold srt. cbv zeta.
    unfold sys_entry_map. fold (sys_step o). destruct (foldM (sys_step o) (number_from 0 srt) []); cbn [bind]; try reflexivity.
    destruct (foldM (add_sys_words o) srt ([], [])) as [[w i]| |]; reflexivity. }
  assert (NF : forall (P : row -> Prop), Forall P rows -> Forall (fun ir : N * row => P (snd ir)) (number_from 0 srt)).
  { intros P F. rewrite <- Forall_map, number_from_snd. eapply Permutation_Forall; [exact PM|exact F]. }
  assert (US : forall r, sys_numbers r <> None <-> usable r = true) by (intros r; unfold usable; destruct (sys_numbers r); split; congruence).
  rewrite UN. edestruct (sys_fold_cases o (number_from 0 srt) []) as [_ A]; [exact (NF (fun r => (4 <= List.length r)%nat) L4)|].
  rewrite A; [reflexivity|exact SK|]. intros F. rewrite <- (Forall_map snd (fun r => usable r = true)), number_from_snd in F.
  apply Permutation_sym in PM. eapply Permutation_Forall in F; [|exact PM].
  apply Exists_exists in EX. destruct EX as (r & I & E). rewrite Forall_forall in F. specialize (F r I). apply US in F. congruence.
Qed.

Lemma fault_outcome be k dir er : be_compress be = false -> build_fault be k dir er ->
  build_dictionary be k dir = unwrapped k (Err er).
Proof.
  assert (U : forall A B e (g : A -> res B), bind (unwrapped k (Err e)) g = unwrapped k (Err e)) by (intros; destruct k; reflexivity).
  intros NC F. unfold build_dictionary.
  Local Ltac past_char NC G cd := let H := fresh in destruct (good_char_read _ _ _ NC G) as (cd & H); rewrite H; clear H; cbn [bind].
  Local Ltac past_unk NC G cd := let H := fresh in let b := fresh in destruct (good_unk_read _ _ _ cd NC G) as (b & H); rewrite H; clear H; cbn [bind].
  destruct F as [M|t er T D|G M|t pre us line post G T L F2 N|pre files name post G G2 GL F2 M|pre files name post bytes rows G G2 GL F2 R C K N
    |names files G G2 GL F2 L K X|names files G G2 GL F2 SL SN Y M].
  - unfold build_chardef_file, read_text, read_file. unfold missing in M. rewrite M. cbn [ok_or bind]. rewrite U. reflexivity.
  - unfold build_chardef_file. rewrite (text_read _ _ _ _ _ T). cbn [bind]. pose proof (char_def_fails t) as CF. rewrite D in CF. rewrite CF. cbn [bind]. rewrite U. reflexivity.
  - past_char NC G cd. unfold build_unk_file, read_text, read_file. unfold missing in M. rewrite M. cbn [ok_or bind]. rewrite U. reflexivity.
  - past_char NC G cd. unfold build_unk_file. rewrite (text_read _ _ _ _ _ T). cbn [bind]. unfold parse_unk. rewrite L.
    rewrite (mapM_first_err _ pre (map LUnkDef.entry_of us) line post EContent).
    + cbn [bind]. rewrite U. reflexivity.
    + rewrite kind_fields. apply Forall2_map_r. revert F2. apply Forall2_weaken. intros l u. apply LUnkDef.reads_as_parse.
    + unfold parse_dictionary_entry. rewrite kind_fields. apply Nat.eqb_neq in N. rewrite N. reflexivity.
  - past_char NC G cd. past_unk NC G2 cd. unfold build_dict_files. rewrite system_rows_reader, GL. cbn [bind].
    rewrite (mapM_first_err _ pre files name post EIo); [cbn [bind]; rewrite U; reflexivity|apply csv_files_read; exact F2|].
    unfold row_reader, read_file. unfold missing in M. rewrite M. reflexivity.
  - past_char NC G cd. past_unk NC G2 cd. unfold build_dict_files. rewrite system_rows_reader, GL. cbn [bind].
    rewrite (mapM_first_err _ pre files name post EContent); [cbn [bind]; rewrite U; reflexivity|apply csv_files_read; exact F2|].
    unfold row_reader, read_file. rewrite R. cbn [ok_or bind]. unfold csv_rows.
    replace (match kind_encoding k with EucJp => be_transcode be bytes | Utf8 => bytes end) with (match k with IPADIC => be_transcode be bytes | _ => bytes end) by (destruct k; reflexivity).
    rewrite C. cbn [bind]. assert (S : same_lengths rows = false) by (destruct (same_lengths rows) eqn:S; [exfalso; apply N, same_lengths_spec; exact S|reflexivity]).
    rewrite S. destruct k; [reflexivity|reflexivity|reflexivity|reflexivity|congruence].
  - past_char NC G cd. past_unk NC G2 cd. unfold build_dict_files. rewrite system_rows_reader, GL. cbn [bind].
    assert (E : mapM (row_reader be k dir) names = Ok files) by (apply mapM_ok, csv_files_read; exact F2). rewrite E. cbn [bind].
    rewrite kind_options.
    assert (S : o_skip_invalid (source_options k) = false) by (destruct k; [reflexivity|reflexivity|reflexivity|reflexivity|congruence]).
    assert (B : build_dict (source_options k) (concat files) = Err EParse).
    { apply rows_rejected; assumption. }
    rewrite B. cbn [bind]. rewrite U. reflexivity.
  - past_char NC G cd. past_unk NC G2 cd. unfold build_dict_files. rewrite system_rows_reader, GL. cbn [bind].
    assert (E : mapM (row_reader be k dir) names = Ok files) by (apply mapM_ok, csv_files_read; exact F2). rewrite E. cbn [bind].
    assert (B : exists f, build_dict (source_options k) (concat files) = Ok f /\ be_yada be (f_da f) <> None).
    { assert (BD : exists f, build_dict (source_options k) (concat files) = Ok f).
      { destruct (sys_build_outcome (source_options k) (concat files) (sr_bytes _ _ SL)) as [B _].
        - eapply Forall_impl; [|exact (sr_details _ _ SL)]. intros r H. cbn beta in H. destruct r; [cbn in H; lia|discriminate].
        - apply B.
          + eapply Forall_impl; [|exact (sr_details _ _ SL)]. intros r H. cbn beta in H. lia.
          + destruct SN as [->|H]; [left; reflexivity|right; exact H]. }
      destruct BD as (f & BD). exists f. split; [exact BD|].
      destruct (sys_built_any _ _ _ SL BD (ConnMatrix [] 0) cd (UnknownDictionary [] [])) as (tbl & _ & TI & _). destruct Y as (e & Y).
      destruct (Y _ TI (sys_keys _ _ _ BD)) as (b & Y1 & _). congruence. }
    destruct B as (f & B & Y').
    rewrite kind_options, B. cbn [bind]. unfold written, compress_write. rewrite NC. cbn [bind].
    destruct (be_yada be (f_da f)) as [da|]; [|contradiction Y'; reflexivity]. cbn [ok_or bind].
    match goal with |- context [unwrapped k (Ok ?x)] => replace (unwrapped k (Ok x)) with (Ok x) by (destruct k; reflexivity) end. cbn [bind].
    unfold build_matrix_file, read_text, read_file. unfold missing in M. rewrite M. cbn [ok_or bind]. rewrite U. reflexivity.
Qed.

Lemma faults_reported be k dir er : reports_errors k -> be_compress be = false -> build_fault be k dir er -> build_dictionary be k dir = Err er.
Proof. intros K NC F. rewrite (fault_outcome _ _ _ _ NC F). destruct K as [->|[->| ->]]; reflexivity. Qed.

Lemma faults_panic be k dir er : k = KoDic \/ k = CcCedict -> be_compress be = false -> build_fault be k dir er -> build_dictionary be k dir = Panic.
Proof. intros K NC F. rewrite (fault_outcome _ _ _ _ NC F). destruct K as [->| ->]; reflexivity. Qed.

(** * Which files a dictionary is loaded from *)

Lemma load_local e e' out out' :
  (forall name, In name dictionary_files -> e_read e (join_path out name) = e_read e' (join_path out' name)) ->
  (forall b, e_da e b = e_da e' b) -> load_dictionary e out = load_dictionary e' out'.
Proof.
  intros H D. unfold load_dictionary, read_file.
  rewrite !H by (unfold dictionary_files; cbn; auto 10).
  destruct (e_read e' (join_path out' (lit "dict.da"))); [|reflexivity]. cbn [ok_or bind]. rewrite D. reflexivity.
Qed.

Definition file_of (e : env) (out : str) (name : string) : option (list N) := e_read e (join_path out (lit name)).

Lemma cm_load_short b : (List.length b < 4)%nat -> cm_load b = Panic.
Proof. destruct b as [|? [|? [|? [|? ?]]]]; cbn [List.length]; intros; try reflexivity. lia. Qed.

Lemma load_outcome e out :
  (forall d, load_dictionary e out = Ok d -> forall name, In name dictionary_files -> e_read e (join_path out name) <> None) /\
  ((forall b, e_read e (join_path out (lit "matrix.mtx")) = Some b -> (4 <= List.length b)%nat) -> load_dictionary e out <> Panic).
Proof.
  split.
  - intros d H. unfold load_dictionary, read_file in H.
    repeat (let x := fresh "x" in let E := fresh "E" in apply bind_ok in H; destruct H as (x & E & H)).
    intros name I. unfold dictionary_files in I. cbn [map In] in I.
    repeat (destruct I as [<-|I]; [match goal with E : ok_or ?r _ = Ok _ |- ?r <> None => destruct r; [discriminate|discriminate E] end|]). contradiction.
  - intros H. unfold load_dictionary, read_file.
    destruct (e_read e (join_path out (lit "dict.da"))); [|discriminate]. cbn [ok_or bind].
    destruct (e_read e (join_path out (lit "dict.vals"))); [|discriminate]. cbn [ok_or bind].
    destruct (e_read e (join_path out (lit "matrix.mtx"))) as [mb|]; [|discriminate]. cbn [ok_or bind].
    specialize (H mb eq_refl).
    assert (M : exists m, cm_load mb = Ok m).
    { destruct mb as [|a [|b [|c [|d mb]]]]; cbn [List.length] in H; try lia. eexists. reflexivity. }
    destruct M as (m & ->). cbn [bind].
    destruct (e_read e (join_path out (lit "char_def.bin"))) as [cb|]; [|discriminate]. cbn [ok_or bind].
    unfold load_chardef. destruct (dec_chardef cb) as [[cd ?]|]; [|discriminate]. cbn [bind].
    destruct (e_read e (join_path out (lit "unk.bin"))) as [ub|]; [|discriminate]. cbn [ok_or bind].
    unfold load_unknown. destruct (dec_unknown ub) as [[u ?]|]; [|discriminate]. cbn [bind].
    destruct (e_read e (join_path out (lit "dict.wordsidx"))); [|discriminate]. cbn [ok_or bind].
    destruct (e_read e (join_path out (lit "dict.words"))); discriminate.
Qed.

Lemma missing_file e out name : In name dictionary_files -> e_read e (join_path out name) = None ->
  (forall b, e_read e (join_path out (lit "matrix.mtx")) = Some b -> (4 <= List.length b)%nat) -> exists er, load_dictionary e out = Err er.
Proof.
  intros I M L. destruct (load_outcome e out) as [A B]. specialize (B L). destruct (load_dictionary e out) as [d|er|] eqn:E; [|eauto|congruence].
  exfalso. exact (A d eq_refl name I M).
Qed.

Lemma short_matrix e out da vals b : e_read e (join_path out (lit "dict.da")) = Some da -> e_read e (join_path out (lit "dict.vals")) = Some vals ->
  e_read e (join_path out (lit "matrix.mtx")) = Some b -> (List.length b < 4)%nat -> load_dictionary e out = Panic.
Proof. intros E1 E2 E3 L. unfold load_dictionary, read_file. rewrite E1, E2, E3. cbn [ok_or bind]. rewrite (cm_load_short _ L). reflexivity. Qed.

(** * User dictionaries with records of different lengths *)

Lemma mixed_user_rows e k path bytes rows : e_read e path = Some bytes -> e_csv e bytes = Ok rows ->
  ~ (exists n, Forall (fun r : row => List.length r = n) rows) ->
  k = UniDic \/ k = KoDic \/ k = CcCedict -> load_user_dictionary_from_csv e k path = Err EDictionaryBuild.
Proof.
  intros E1 E2 N K. assert (S : same_lengths rows = false) by (destruct (same_lengths rows) eqn:S; [exfalso; apply N, same_lengths_spec; exact S|reflexivity]).
  unfold load_user_dictionary_from_csv, build_user_dict, read_file. rewrite E1. cbn [ok_or bind]. unfold csv_rows. rewrite E2. cbn [bind]. rewrite S.
  destruct K as [->|[->| ->]]; reflexivity.
Qed.

Lemma mixed_ipadic_rows e k path bytes rows d : k = IPADIC \/ k = IPADICNEologd ->
  e_read e path = Some bytes -> e_csv e bytes = Ok rows -> build_user (kind_user_options k) rows = Ok d ->
  load_user_dictionary_from_csv e k path = Ok d.
Proof.
  intros K E1 E2 B. unfold load_user_dictionary_from_csv, build_user_dict, read_file. rewrite E1. cbn [ok_or bind]. unfold csv_rows. rewrite E2. cbn [bind].
  replace (kind_user_flexible k) with true by (destruct K as [->| ->]; reflexivity). cbn [orb bind]. rewrite B. reflexivity.
Qed.
