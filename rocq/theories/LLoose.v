(** Dictionaries whose context ids and connection matrix need not go together. *)
From Coq Require Import String.
From Coq Require Import List NArith ZArith Bool Lia ZifyBool ZifyNat ZifyN Permutation.
From Verif Require Import MBase MUtf8 MText MCodec MDict MCharDef MUnk MBincode MLattice MTokenizer MDetails MBuild MConfig MBuilders MDocs
  STok SBuild SMatrix SCharDef SUnk SData SBuilders SPanic SLoose LBase LUtf8 LCodec LBuild LSysDict LUserDict LWhole LMatrix LCharDef LUnkDef LBincode LData LTok LBuilders LPanic.
Import ListNotations.
Local Open Scope list_scope.

Lemma sys_numbers_u16 r c l rr : sys_numbers r = Some (c, l, rr) -> is_u16 l /\ is_u16 rr.
Proof.
  unfold sys_numbers. intros H. destruct r as [|? [|f1 [|f2 [|f3 r]]]]; try discriminate.
  destruct (parse_i16 (trim f3)) as [c0|] eqn:P1; [|discriminate]. destruct (parse_u16 (trim f1)) eqn:P2; [|discriminate]. destruct (parse_u16 (trim f2)) eqn:P3; [|discriminate].
  injection H as _ <- <-. split; eapply parse_u16_range; eassumption.
Qed.

Lemma set_line_length bsize costs l costs' : set_matrix_line bsize costs l = Ok costs' -> length costs' = length costs.
Proof.
  unfold set_matrix_line. intros H. repeat (apply bind_ok in H as (? & _ & H)). apply set_cost_ok in H. subst. apply upd_length.
Qed.
Lemma set_lines_length bsize data : forall costs costs', foldM (set_matrix_line bsize) data costs = Ok costs' -> length costs' = length costs.
Proof.
  induction data as [|l data IH]; intros costs costs' H; cbn [foldM] in H; [congruence|].
  apply bind_ok in H as (c1 & H1 & H2). rewrite (IH _ _ H2). eapply set_line_length. exact H1.
Qed.

(* the cells of the table *)
Lemma matrix_length fsize bsize : (fsize <= 32767)%N -> (bsize <= 32767)%N -> forall content entries bytes m,
  matrix_def content fsize bsize entries -> build_matrix content = Ok bytes -> cm_load bytes = Ok m ->
  length (cm_data m) = 2 * N.to_nat (fsize * bsize).
Proof.
  intros HF HB content entries bytes m (header & data & LN & (rest & H0) & F) B L. unfold build_matrix in B. rewrite LN in B. cbn [mapM] in B.
  rewrite (line_numbers_parse _ _ H0) in B. cbn [bind] in B. apply bind_ok in B as (ls & B1 & B2). apply bind_ok in B1 as (zs & _ & B1). injection B1 as <-.
  unfold field_u32 in B2. cbn [idx nth_error bind] in B2.
  rewrite (wrap_u_id (Z.of_N fsize)), (wrap_u_id (Z.of_N bsize)) in B2 by (try change (2 ^ 32)%Z with 4294967296%Z; lia).
  rewrite !Z2N.id, wrap_u_id in B2 by (try change (2 ^ 32)%Z with 4294967296%Z; nia).
  apply bind_ok in B2 as (costs & B2 & B3). injection B3 as <-. apply set_lines_length in B2. cbn [length] in B2. rewrite repeat_length in B2.
  unfold cm_load in L. repeat (apply bind_ok in L as (? & ? & L)). injection L as <-. cbn [cm_data].
  match goal with H : slice_from _ 4 = Ok ?x |- _ => unfold slice_from in H; destruct (Nat.leb 4 _); [|discriminate]; assert (E : x = skipn 4 (flat_map i16_bytes costs)) by congruence; rewrite E end.
  rewrite skipn_length, (flat_map_const_length _ 2) by (intros z; apply le_bytes_length). rewrite B2. lia.
Qed.

Lemma loose_written be e k dir S C : has_sources be k dir S -> loose k S C -> yada_works be e (system_words k (s_rows S)) -> be_compress be = false ->
  exists cd u f da mb m,
    build_dictionary be k dir = Ok [(lit "char_def.bin", enc_chardef cd); (lit "unk.bin", enc_unknown u); (lit "dict.words", f_words f);
      (lit "dict.wordsidx", f_words_idx f); (lit "dict.da", da); (lit "dict.vals", f_vals f); (lit "matrix.mtx", mb)] /\
    char_def_of (s_char S) = Ok cd /\ chardef_in_range cd /\
    parse_unk (categories cd) (s_unk S) (unk_line_fields k) = Ok u /\ unknown_in_range u /\
    build_dict (source_options k) (s_rows S) = Ok f /\ e_da e da = f_da f /\
    build_matrix (s_matrix S) = Ok mb /\
    cm_load mb = Ok m /\ cm_backward m = c_bsize C /\ length (cm_data m) = 2 * N.to_nat (c_fsize C * c_bsize C) /\ forall x y, (x < c_fsize C)%N -> (y < c_bsize C)%N -> cm_cost m x y = Ok (matrix_cost (c_entries C) x y).
Proof.
  intros HS R Y NC. destruct (char_def_categories _ _ (ls_char _ _ _ R)) as (cd & CD & CN & _).
  assert (CR : chardef_in_range cd) by exact (chardef_built_in_range _ _ _ (ls_char _ _ _ R) CD (ls_names _ _ _ R) (ls_char_size _ _ _ R)).
  destruct (unk_entries (categories cd) (s_unk S) (unk_line_fields k) (c_unk C) (ls_unk _ _ _ R) (ls_unk_fits _ _ _ R)) as (u & U & _).
  assert (UR : unknown_in_range u).
  { eapply unk_built_in_range; [exact (ls_unk _ _ _ R)|exact U|exact (ls_unk_size _ _ _ R)|]. rewrite CN.
    pose proof (ls_char_size _ _ _ R) as SZ. pose proof (all_mentions_size (c_char C)). pose proof (nub_length (flat_map mentions (c_char C))).
    change (2 ^ 62)%N with 4611686018427387904%N in SZ. change (2 ^ 63)%N with 9223372036854775808%N. lia. }
  pose proof (ls_rows _ _ _ R) as LM.
  assert (BD : exists f, build_dict (source_options k) (s_rows S) = Ok f).
  { destruct (sys_build_outcome (source_options k) (s_rows S) (sr_bytes _ _ LM)) as [B _].
    - eapply Forall_impl; [|exact (sr_details _ _ LM)]. intros r H. cbn beta in H. destruct r; [cbn in H; lia|discriminate].
    - apply B.
      + eapply Forall_impl; [|exact (sr_details _ _ LM)]. intros r H. cbn beta in H. lia.
      + destruct (ls_numbers _ _ _ R) as [->|H]; [left; reflexivity|right; exact H]. }
  destruct BD as (f & BD). destruct (sys_built_any _ _ _ LM BD (ConnMatrix [] 0) cd u) as (tbl & _ & TI & _).
  destruct (Y _ TI (sys_keys _ _ _ BD)) as (da & Y1 & Y2).
  destruct (ls_sizes _ _ _ R) as [Z1 Z2].
  destruct (matrix_round_trip_backward _ _ Z1 Z2 _ _ (ls_matrix _ _ _ R) (ls_entries _ _ _ R)) as (mb & m & M1 & M2 & M3 & M4).
  exists cd, u, f, da, mb, m.
  assert (W : forall b, written be b = Ok b) by (intros b; unfold written, compress_write; rewrite NC; reflexivity).
  pose proof (matrix_length _ _ Z1 Z2 _ _ _ _ (ls_matrix _ _ _ R) M1 M2) as ML.
  split; [|auto 14].
  unfold build_dictionary, build_chardef_file, build_unk_file, build_dict_files, build_matrix_file.
  rewrite (text_read _ _ _ _ _ (hs_char _ _ _ _ HS)). cbn [bind]. rewrite CD. cbn [bind]. rewrite W. cbn [bind].
  replace (unwrapped k (Ok (cd, enc_chardef cd))) with (Ok (cd, enc_chardef cd)) by (destruct k; reflexivity). cbn [bind].
  rewrite (text_read _ _ _ _ _ (hs_unk _ _ _ _ HS)). cbn [bind]. rewrite kind_fields, U. cbn [bind]. rewrite W.
  replace (unwrapped k (Ok (enc_unknown u))) with (Ok (enc_unknown u)) by (destruct k; reflexivity). cbn [bind].
  rewrite (rows_read _ _ _ _ HS). cbn [bind]. rewrite kind_options, BD. cbn [bind]. rewrite !W. cbn [bind]. rewrite Y1. cbn [ok_or bind]. rewrite W. cbn [bind].
  match goal with |- context [unwrapped k (Ok ?x)] => replace (unwrapped k (Ok x)) with (Ok x) by (destruct k; reflexivity) end. cbn [bind].
  rewrite (text_read _ _ _ _ _ (hs_matrix _ _ _ _ HS)). cbn [bind]. rewrite M1. cbn [bind]. rewrite W.
  replace (unwrapped k (Ok mb)) with (Ok mb) by (destruct k; reflexivity). reflexivity.
Qed.

Theorem loose_dictionary be e k dir S C : has_sources be k dir S -> loose k S C -> yada_works be e (system_words k (s_rows S)) -> be_compress be = false ->
  exists files, build_dictionary be k dir = Ok files /\
    forall out, files_at e out files -> exists d A, load_dictionary e out = Ok d /\ says k S C d A /\ cm_backward (d_matrix d) = c_bsize C /\
      length (cm_data (d_matrix d)) = 2 * N.to_nat (c_fsize C * c_bsize C) /\
      (forall x y, (x < c_fsize C)%N -> (y < c_bsize C)%N -> table_cost (d_matrix d) x y = matrix_cost (c_entries C) x y) /\
      forall m, means_words (Tokenizer d None m) (with_any_user A [] (d_matrix d)).
Proof.
  intros HS R Y NC. destruct (loose_written be e k dir S C HS R Y NC) as (cd & u & f & da & mb & m & B & CD & CR & U & UR & BD & DA & _ & ML & MBW & MLN & MC).
  eexists. split; [exact B|]. intros out FA. pose proof (files_load e out cd u f da mb m FA CR UR DA ML) as LD.
  pose proof (ls_rows _ _ _ R) as LM. destruct (sys_built_any _ _ _ LM BD m cd u) as (tbl & DM & _ & _ & SF).
  destruct (char_def_definitions _ _ _ (ls_char _ _ _ R) (ls_defined _ _ _ R) CD) as (CN & DF).
  destruct (char_def_categories _ _ (ls_char _ _ _ R)) as (cd' & CD' & _ & LK). rewrite CD in CD'. injection CD' as <-.
  destruct (unk_entries (categories cd) (s_unk S) (unk_line_fields k) (c_unk C) (ls_unk _ _ _ R) (ls_unk_fits _ _ _ R)) as (u' & U' & UE).
  rewrite U in U'. injection U' as <-.
  set (defs := flat_map defines (c_char C)) in *.
  set (cats := fun c => match lookup_categories cd c with Ok l => l | _ => [] end).
  set (unk := fun id => match nth_error defs id with None => [] | Some _ =>
    match ud_lookup_word_ids u id with Ok ids => match mapM (ud_word_entry u) ids with Ok es => es | _ => [] end | _ => [] end end).
  set (data := fun id => match nth_error defs id with Some (_, x) => x | None => CategoryData false false 0 end).
  set (A := ADict tbl [] cats (fun id => cd_invoke (data id)) (fun id => cd_group (data id)) unk (matrix_cost (c_entries C)) (c_fsize C) (c_bsize C)).
  assert (CATS : forall c, lookup_categories cd c = Ok (cats c) /\
    Forall2 (fun id name => exists x, nth_error defs id = Some (name, x)) (cats c) (categories_of (c_char C) c)).
  { intros c. destruct (LK binary_search c binary_search_contract) as (ids & L1 & L2). change (lt_eval_with binary_search (cds_mapping cd) c) with (lookup_categories cd c) in L1.
    unfold cats. rewrite L1. split; [reflexivity|]. apply mapM_ok_inv in L2. eapply Forall2_impl; [exact L2|]. intros id name _ _ H.
    unfold category_name, idx in H. fold (categories cd) in H. rewrite CN, nth_error_map in H. destruct (nth_error defs id) as [[n x]|]; [|discriminate].
    cbn [option_map ok_or] in H. injection H as <-. eauto. }
  assert (UNK : forall id name x, nth_error defs id = Some (name, x) -> exists ids, ud_lookup_word_ids u id = Ok ids /\ mapM (ud_word_entry u) ids = Ok (unk id) /\
    Forall2 unk_gives (filter (fun u => str_eqb (ul_name u) name) (c_unk C)) (unk id)).
  { intros id name x E. destruct (UE id name) as (ids & es & U1 & U2 & U3).
    - fold (categories cd). rewrite CN, nth_error_map, E. reflexivity.
    - exists ids. unfold unk. rewrite E, U1, U2. auto. }
  exists (sys_dictionary f m cd u), A. split; [exact LD|]. split.
  - constructor.
    + exact SF.
    + reflexivity.
    + intros c _. exact (proj2 (CATS c)).
    + intros id name x E. destruct (UNK id name x E) as (ids & _ & _ & U3). unfold A, data. cbn [a_invoke a_group a_unk]. fold defs in E. rewrite E. auto.
    + intros id E. unfold A, unk. cbn [a_unk]. fold defs in E. rewrite E. reflexivity.
    + reflexivity.
    + split; reflexivity.
  - split; [exact MBW|]. split; [exact MLN|]. split.
    { intros x y Hx Hy. specialize (MC x y Hx Hy). cbn [sys_dictionary d_matrix]. destruct (cost_table m x y) as [T1 T2]. destruct (outside_dec m x y) as [O|O].
      - rewrite (T1 O) in MC. discriminate.
      - rewrite (T2 O) in MC. congruence. }
    intros md. constructor; cbn [with_any_user t_dictionary t_user A sys_dictionary d_dict d_chardef d_unknown d_matrix a_sys a_usr a_cats a_invoke a_group a_unk a_conn a_fsize a_bsize].
    + exact DM.
    + reflexivity.
    + intros c _. exact (proj1 (CATS c)).
    + intros c id _ I1. destruct (Forall2_in_l _ _ _ _ (proj2 (CATS c)) I1) as (name & _ & x & E).
      destruct (DF id name x E) as [_ D]. unfold data. rewrite E. exists (cd_length x). rewrite D. destruct x; reflexivity.
    + intros c id _ I1. destruct (Forall2_in_l _ _ _ _ (proj2 (CATS c)) I1) as (name & _ & x & E).
      destruct (UNK id name x E) as (ids & U1 & U2 & _). eauto.
    + reflexivity.
    + split; reflexivity.
    + intros s w I1. destruct (found_of_in _ _ _ _ (SF s) I1) as (r & I2 & (N & _)). destruct (sys_numbers_u16 _ _ _ _ N) as [U1 U2]. unfold is_u16 in U1, U2.
      unfold entry_ok. cbn [a_fsize a_bsize]. repeat split; try assumption; apply (sys_numbers_i16 _ _ _ _ N).
    + intros s w I1. cbn in I1. contradiction.
    + intros c id w _ I1 I2. destruct (Forall2_in_l _ _ _ _ (proj2 (CATS c)) I1) as (name & _ & x & E).
      destruct (UNK id name x E) as (ids & _ & _ & U3). destruct (Forall2_in_r _ _ _ _ U3 I2) as (l & I3 & G1 & G2 & G3 & _).
      apply filter_In in I3. pose proof (ls_unk_fits _ _ _ R) as RF. rewrite Forall_forall in RF. destruct (RF l (proj1 I3)) as (F1 & F2 & F3).
      unfold entry_ok. cbn [a_fsize a_bsize]. rewrite G1, G2, G3. unfold is_u16 in F1, F2. repeat split; try assumption; try lia; apply F3.
Qed.

Lemma outside_cells m fsize bsize : cm_backward m = bsize -> length (cm_data m) = 2 * N.to_nat (fsize * bsize) -> forall f b,
  outside m f b <-> (fsize * bsize <= (b + f * bsize) mod 4294967296)%N.
Proof. intros B L f b. unfold outside, pair_cell. rewrite B, L. lia. Qed.

Section Outcome.
Variables (be : build_env) (e : env) (k : dictionary_kind) (dir : str) (S : sources) (C : content).
Hypothesis HS : has_sources be k dir S.
Hypothesis R : loose k S C.
Hypothesis Y : yada_works be e (system_words k (s_rows S)).
Hypothesis NC : be_compress be = false.

Theorem loose_outcome : exists files, build_dictionary be k dir = Ok files /\
  forall out, files_at e out files -> exists d A, load_dictionary e out = Ok d /\ says k S C d A /\
    (forall f b, outside (d_matrix d) f b <-> (c_fsize C * c_bsize C <= (b + f * c_bsize C) mod 4294967296)%N) /\
    (forall f b, (f < c_fsize C)%N -> (b < c_bsize C)%N -> table_cost (d_matrix d) f b = matrix_cost (c_entries C) f b) /\
    forall m text ss, valid_str text -> sentences text ss ->
      (tokenize (Tokenizer d None m) text = Some Panic <->
       exists s, In s ss /\ off_table (with_any_user A [] (d_matrix d)) m (d_matrix d) s) /\
      ((forall s, In s ss -> ~ off_table (with_any_user A [] (d_matrix d)) m (d_matrix d) s) ->
       exists ts wss, tokenize (Tokenizer d None m) text = Some (Ok ts) /\ tokens_of_words ts (concat wss) /\
         Forall2 (exact_answer (with_any_user A [] (d_matrix d)) m) ss wss).
Proof.
  destruct (loose_dictionary be e k dir S C HS R Y NC) as (files & B & LO). exists files. split; [exact B|].
  intros out FA. destruct (LO out FA) as (d & A & LD & SY & BW & LN & TC & MW). exists d, A. split; [exact LD|]. split; [exact SY|].
  split; [exact (outside_cells _ _ _ BW LN)|]. split; [exact TC|]. intros m text ss V SE. split.
  - exact (panic_iff _ _ text ss (MW m) V SE).
  - intros NO. destruct (fine_answer _ _ text ss (MW m) V SE NO) as (ts & wss & T1 & T2 & T3 & _). eauto.
Qed.

Lemma more_user d A rows ud cm : (forall m, means_words (Tokenizer d None m) (with_any_user A [] cm)) ->
  build_user (kind_user_options k) rows = Ok ud -> user_room (kind_user_options k) rows ->
  exists tbl, (forall s, found_of (user_found (kind_user_options k) ud) (user_rows_for s rows) (entries_of tbl s)) /\
    forall m, means_words (Tokenizer d (Some ud) m) (with_any_user A tbl cm).
Proof.
  intros MW B L. destruct (user_built_any _ _ _ L B) as (tbl & DM & _ & _ & UF). exists tbl. split; [exact UF|]. intros m.
  destruct (MW m) as [R1 R2 R3 R4 R5 R6 R7 R8 R9 R10].
  constructor; cbn [t_dictionary t_user with_any_user a_sys a_usr a_cats a_invoke a_group a_unk a_conn a_fsize a_bsize] in *; try assumption; auto.
  intros s w I1. destruct (found_of_in _ _ _ _ (UF s) I1) as (r & I2 & (N & _)).
  destruct (user_numbers_u16 _ _ _ _ _ (proj2 (SBuild.ur_cost _ _ L)) N) as [U1 U2]. unfold is_u16 in U1, U2.
  unfold entry_ok. cbn [a_fsize a_bsize]. split; [exact U2|]. split; [exact U1|].
  eapply user_numbers_i16; [exact (proj1 (SBuild.ur_cost _ _ L))|exact N].
Qed.

Theorem loose_user urows ud : build_user (kind_user_options k) urows = Ok ud -> user_room (kind_user_options k) urows ->
  exists files, build_dictionary be k dir = Ok files /\
  forall out, files_at e out files -> exists d A tbl, load_dictionary e out = Ok d /\ says k S C d A /\
    (forall s, found_of (user_found (kind_user_options k) ud) (user_rows_for s urows) (entries_of tbl s)) /\
    (forall f b, outside (d_matrix d) f b <-> (c_fsize C * c_bsize C <= (b + f * c_bsize C) mod 4294967296)%N) /\
    (forall f b, (f < c_fsize C)%N -> (b < c_bsize C)%N -> table_cost (d_matrix d) f b = matrix_cost (c_entries C) f b) /\
    forall m text ss, valid_str text -> sentences text ss ->
      (tokenize (Tokenizer d (Some ud) m) text = Some Panic <->
       exists s, In s ss /\ off_table (with_any_user A tbl (d_matrix d)) m (d_matrix d) s) /\
      ((forall s, In s ss -> ~ off_table (with_any_user A tbl (d_matrix d)) m (d_matrix d) s) ->
       exists ts wss, tokenize (Tokenizer d (Some ud) m) text = Some (Ok ts) /\ tokens_of_words ts (concat wss) /\
         Forall2 (exact_answer (with_any_user A tbl (d_matrix d)) m) ss wss).
Proof.
  intros BU L. destruct (loose_dictionary be e k dir S C HS R Y NC) as (files & B & LO). exists files. split; [exact B|].
  intros out FA. destruct (LO out FA) as (d & A & LD & SY & BW & LN & TC & MW). destruct (more_user d A urows ud _ MW BU L) as (tbl & UF & MU).
  exists d, A, tbl. split; [exact LD|]. split; [exact SY|]. split; [exact UF|].
  split; [exact (outside_cells _ _ _ BW LN)|]. split; [exact TC|]. intros m text ss V SE. split.
  - exact (panic_iff _ _ text ss (MU m) V SE).
  - intros NO. destruct (fine_answer _ _ text ss (MU m) V SE NO) as (ts & wss & T1 & T2 & T3 & _). eauto.
Qed.
End Outcome.
