(** The sources that the builders accept. *)
From Coq Require Import String.
From Coq Require Import List NArith ZArith Bool Lia ZifyBool ZifyNat ZifyN Permutation.
From Verif Require Import MBase MUtf8 MText MCodec MDict MCharDef MUnk MBincode MTokenizer MBuild MConfig MBuilders
  STok SBuild SMatrix SCharDef SUnk SData SBuilders SText SSource SAccept
  LBase LUtf8 LCodec LBuild LMatrix LSysDict LUserDict LKinds LFirst LCharDef LUnkDef LBuilders LEmbedded LText LSource.
Import ListNotations.
Local Open Scope list_scope.

(** ** Rows *)

Theorem word_row_spec r c l rr : word_row r c l rr <-> sys_numbers r = Some (c, l, rr).
Proof.
  unfold sys_numbers. split.
  - intros H. inversion H as [s f1 f2 f3 ds t1 t2 t3 c' l' r' T1 T2 T3 N1 N2 N3]; subst. apply trim_spec in T1, T2, T3. rewrite T1, T2, T3.
    apply parse_u16_spec in N1, N2. apply parse_i16_spec in N3. rewrite N1, N2, N3. reflexivity.
  - destruct r as [|s [|f1 [|f2 [|f3 ds]]]]; try discriminate. destruct (parse_i16 (trim f3)) eqn:N3; [|discriminate]. destruct (parse_u16 (trim f1)) eqn:N1; [|discriminate].
    destruct (parse_u16 (trim f2)) eqn:N2; [|discriminate]. intros H. injection H as <- <- <-. apply parse_u16_spec in N1, N2. apply parse_i16_spec in N3.
    econstructor; try (apply trim_spec; reflexivity); assumption.
Qed.
Theorem user_row_spec k r c l rr : user_row r c l rr <-> user_numbers (kind_user_options k) r = Some (c, l, rr).
Proof.
  unfold user_numbers. cbn [kind_user_options uo_simple_fields uo_simple_cost uo_simple_context]. split.
  - intros H. inversion H as [s f1 f2|s f1 f2 f3 ds c' l' r' N1 N2 N3]; subst; [reflexivity|]. apply parse_u16_spec in N1, N2. apply parse_i16_spec in N3. cbn [List.length Nat.eqb].
    rewrite N1, N2, N3. reflexivity.
  - destruct r as [|s [|f1 [|f2 [|f3 ds]]]]; cbn [List.length Nat.eqb]; try discriminate.
    + intros H. injection H as <- <- <-. constructor.
    + destruct (parse_i16 f3) eqn:N3; [|discriminate]. destruct (parse_u16 f1) eqn:N1; [|discriminate].
      destruct (parse_u16 f2) eqn:N2; [|discriminate]. intros H. injection H as <- <- <-. apply parse_u16_spec in N1, N2. apply parse_i16_spec in N3. constructor; assumption.
Qed.

Lemma join_bytes ds : (N.of_nat (List.length (utf8 (join [0%N] ds))) <= u32_max)%N <-> (N.of_nat (total (fun f => (1 + blen f)%nat) ds) <= 4294967296)%N.
Proof.
  rewrite blen_utf8. assert (E : ds = [] \/ total (fun f => (1 + blen f)%nat) ds = S (blen (join [0%N] ds))).
  { induction ds as [|d ds IH]; [left; reflexivity|right]. destruct ds as [|e ds]; [cbn; lia|]. destruct IH as [IH|IH]; [discriminate|].
    change (join [0%N] (d :: e :: ds)) with (d ++ 0%N :: join [0%N] (e :: ds)). unfold total in *. cbn [fold_right] in *. rewrite blen_app.
    change (blen (0%N :: join [0%N] (e :: ds))) with (1 + blen (join [0%N] (e :: ds))). lia. }
  unfold u32_max. destruct E as [->|E]; [cbn; lia|]. rewrite E. lia.
Qed.

Lemma sys_words_size o rows : forall st st', foldM (add_sys_words o) rows st = Ok st' ->
  Forall (fun r => (N.of_nat (List.length (utf8 (join [0%N] (sys_row_details o r)))) <= u32_max)%N) rows.
Proof.
  induction rows as [|r rows IH]; intros [w i] st' H; [constructor|]. cbn [foldM] in H. apply bind_ok in H. destruct H as (st1 & H1 & H2). constructor; [|exact (IH _ _ H2)].
  unfold add_sys_words in H1. rewrite sys_details_unify in H1. match type of H1 with context [if ?b then _ else _] => destruct b eqn:B; [discriminate|] end. lia.
Qed.

Lemma sys_fold_ok o irs : forall m, (exists m', foldM (sys_step o) irs m = Ok m') <-> Forall (fun ir => ~ sys_row_bad o (snd ir)) irs.
Proof.
  assert (K : forall m ir, (exists m', sys_step o m ir = Ok m') <-> ~ sys_row_bad o (snd ir)).
  { intros m [i r]. unfold sys_step, sys_row_bad. cbn [snd]. rewrite sys_entry_cases. destruct (Nat.ltb_spec (List.length r) 4) as [L|L].
    - split; [intros (? & H); discriminate|]. intros H. exfalso. auto.
    - destruct (sys_numbers r) as [[[c l] rr]|]; [split; [intros _ [H|[_ H]]; [lia|discriminate]|intros _; eexists; reflexivity]|].
      destruct (o_skip_invalid o); [split; [intros _ [H|[H _]]; [lia|discriminate]|intros _; eexists; reflexivity]|].
      split; [intros (? & H); discriminate|]. intros H. exfalso. auto. }
  induction irs as [|ir irs IH]; intros m; cbn [foldM]; [split; [constructor|eauto]|]. split.
  - intros (m' & H). apply bind_ok in H. destruct H as (m1 & H1 & H2). constructor; [apply (K m); eauto|]. apply (IH m1). eauto.
  - intros F. inversion F as [|? ? F1 F2]; subst. apply (K m) in F1. destruct F1 as (m1 & ->). cbn [bind]. apply IH. exact F2.
Qed.

Lemma number_from_forall {A} (P : A -> Prop) l : forall i, Forall (fun ir : N * A => P (snd ir)) (number_from i l) <-> Forall P l.
Proof.
  induction l as [|x l IH]; intros i; cbn [number_from]; [split; constructor|]. split; intros F; inversion F as [|? ? F1 F2]; subst; constructor; auto; apply (IH (i + 1)%N); exact F2.
Qed.

Theorem build_dict_accepts k rows : (exists f, build_dict (source_options k) rows = Ok f) <-> Forall (accepted_row k) rows.
Proof.
  set (o := source_options k).
  assert (A : forall r, accepted_row k r <-> ~ sys_row_bad o r /\ (N.of_nat (List.length (utf8 (join [0%N] (sys_row_details o r)))) <= u32_max)%N).
  { intros r. unfold accepted_row. rewrite join_bytes. fold o. unfold sys_row_bad. split.
    - intros (L & N & B). split; [|exact B]. intros [H|[H1 H2]]; [lia|]. destruct N as [->|(c & l & rr & N)]; [discriminate|]. apply word_row_spec in N. congruence.
    - intros [NB B]. split; [lia|]. split; [|exact B]. destruct (sys_numbers r) as [[[c l] rr]|] eqn:E; [right; exists c, l, rr; apply word_row_spec, E|left].
      destruct k; try reflexivity; exfalso; apply NB; right; split; reflexivity. }
  assert (P := sorted_rows_perm (sys_surface o) rows). split.
  - intros (f & H). unfold build_dict in H. apply bind_ok in H. destruct H as (keyed & K & H).
    assert (NE : Forall (fun r => r <> []) rows).
    { apply mapM_ok_inv in K. clear - K. induction K as [|r y rows ys K1 K IH]; constructor; [intros ->; discriminate|exact IH]. }
    rewrite keyed_rows_ok in K by exact NE. injection K as <-. fold (sorted_rows (sys_surface o) rows) in H. cbv zeta in H.
    apply bind_ok in H. destruct H as (m & M & H). apply bind_ok in H. destruct H as ([w i] & W & _). apply sys_words_size in W.
    unfold sys_entry_map in M. fold (sys_step o) in M. assert (B : Forall (fun r => ~ sys_row_bad o r) (sorted_rows (sys_surface o) rows)).
    { apply (number_from_forall _ _ 0%N). apply (sys_fold_ok o _ []). eauto. }
    apply (Permutation_Forall (Permutation_sym P)) in W, B. rewrite Forall_forall in *. intros r I. apply A. auto.
  - intros F. assert (NE : Forall (fun r => r <> []) rows) by (revert F; apply Forall_impl; intros r (L & _) ->; cbn in L; lia).
    unfold build_dict. rewrite keyed_rows_ok by exact NE. cbn [bind]. fold (sorted_rows (sys_surface o) rows). cbv zeta.
    assert (F' : Forall (fun r => ~ sys_row_bad o r) (sorted_rows (sys_surface o) rows) /\ Forall (fun r => (N.of_nat (List.length (utf8 (join [0%N] (sys_row_details o r)))) <= u32_max)%N) (sorted_rows (sys_surface o) rows)).
    { split; apply (Permutation_Forall P); revert F; apply Forall_impl; intros r H; apply A in H; apply H. }
    destruct F' as [B W]. unfold sys_entry_map. fold (sys_step o). apply (number_from_forall _ _ 0%N), (sys_fold_ok o _ []) in B. destruct B as (m & ->). cbn [bind].
    destruct (sys_words_ok o _ ([], []) W) as ([w i] & ->). cbn [bind]. unfold da_build. cbn [ok_or bind]. eauto.
Qed.

Theorem build_user_accepts k rows : (exists d, build_user (kind_user_options k) rows = Ok d) <-> Forall (accepted_user_row k) rows.
Proof.
  set (o := kind_user_options k).
  assert (A : forall r, accepted_user_row k r <-> row_acceptable o r).
  { intros r. unfold accepted_user_row, row_acceptable. split.
    - intros [(c & l & rr & N) L]. apply (user_row_spec k) in N. fold o in N. split; [congruence|]. unfold user_row_details. cbn [o kind_user_options uo_simple_fields uo_handler uo_detailed_fields].
      destruct (Nat.eqb_spec (List.length r) 3) as [L3|L3].
      + destruct r as [|a [|b [|c' [|]]]]; try discriminate. destruct k; discriminate.
      + destruct L as [L|L]; [lia|]. rewrite LKinds.kind_fields. replace (Nat.leb (full_fields k) (List.length r)) with true by (symmetry; apply Nat.leb_le, L). discriminate.
    - intros [N D]. split.
      + destruct (user_numbers o r) as [[[c l] rr]|] eqn:E; [|congruence]. exists c, l, rr. apply (user_row_spec k), E.
      + destruct (Nat.eq_dec (List.length r) 3) as [L|L]; [left; exact L|right]. destruct (Nat.le_gt_cases (full_fields k) (List.length r)) as [G|G]; [exact G|].
        exfalso. apply D. apply kind_short_details; assumption. }
  split.
  - intros (d & H). assert (NE : Forall (fun r => r <> []) rows).
    { unfold build_user in H. apply bind_ok in H. destruct H as (keyed & K & _). apply mapM_ok_inv in K. clear - K. induction K as [|r y rows ys K1 K IH]; constructor; [intros ->; discriminate|exact IH]. }
    destruct (kind_build_exact k rows NE) as (E1 & E2 & E3 & E4). fold o in E1, E2, E3, E4.
    assert (NB : Forall (fun r => ~ user_numbers o r = None) rows).
    { apply Forall_forall. intros r I B. destruct E1 as (r0 & F); [apply Exists_exists; eauto|]. apply E2 in F. rewrite F in H. destruct (Nat.ltb (List.length r0) 4); discriminate. }
    apply Forall_forall. intros r I. apply A. split; [rewrite Forall_forall in NB; auto|]. intros D. rewrite E3 in H; [discriminate|exact NB|apply Exists_exists; eauto].
  - intros F. assert (NE : Forall (fun r => r <> []) rows) by (revert F; apply Forall_impl; intros r [(c & l & rr & N) _] ->; inversion N).
    apply (proj2 (proj2 (proj2 (kind_build_exact k rows NE)))). revert F. apply Forall_impl. intros r H. apply A, H.
Qed.

(** ** matrix.def *)

Lemma field_u32_ok zs i n : field_u32 zs i = Ok n <-> exists z, nth_error zs i = Some z /\ n = Z.to_N (z mod 2 ^ 32).
Proof.
  unfold field_u32, idx. destruct (nth_error zs i) as [z|]; cbn [bind]; split.
  - intros H. injection H as <-. exists z. split; [reflexivity|]. reflexivity.
  - intros (z' & E & ->). injection E as <-. reflexivity.
  - discriminate.
  - intros (z' & E & _). discriminate.
Qed.

Lemma parse_matrix_line_spec line zs : parse_matrix_line line = Ok zs <-> numbers_on line zs.
Proof.
  rewrite numbers_on_spec. unfold parse_matrix_line, line_numbers. generalize (split_whitespace line). intros fs. split.
  - intros H. apply mapM_ok_inv in H. revert H. apply Forall2_mono. intros f z E. destruct (parse_i32 f); [|discriminate]. injection E as ->. reflexivity.
  - induction 1 as [|f z fs zs E F IH]; [reflexivity|]. cbn [mapM]. rewrite E. cbn [ok_or bind]. rewrite IH. reflexivity.
Qed.

Lemma set_matrix_ok bsize zs costs : 
  (exists costs', set_matrix_line (Z.to_N (bsize mod 2 ^ 32)) costs zs = Ok costs') <->
  exists f b c rest, zs = f :: b :: c :: rest /\ (2 + (b + f * bsize) mod 2 ^ 32 < Z.of_nat (List.length costs))%Z.
Proof.
  assert (E : forall f b, wrap_u 32 (Z.of_N (Z.to_N (b mod 2 ^ 32)) + Z.of_N (Z.to_N (f mod 2 ^ 32)) * Z.of_N (Z.to_N (bsize mod 2 ^ 32))) = Z.to_N ((b + f * bsize) mod 2 ^ 32)).
  { intros f b. unfold wrap_u. f_equal. change (2 ^ Z.of_nat 32)%Z with (2 ^ 32)%Z. rewrite !Z2N.id by (apply Z.mod_pos_bound; lia).
    rewrite (Z.add_mod (b mod 2 ^ 32)), Z.mod_mod, <- Z.mul_mod, <- Z.add_mod by lia. reflexivity. }
  unfold set_matrix_line. split.
  - intros (costs' & H). apply bind_ok in H. destruct H as (f & F & H). apply bind_ok in H. destruct H as (b & B & H). apply bind_ok in H. destruct H as (c & C & H).
    apply field_u32_ok in F, B. destruct F as (zf & F & ->), B as (zb & B & ->). destruct zs as [|z0 [|z1 [|z2 rest]]]; try discriminate.
    cbn in F, B. injection F as ->. injection B as ->. exists zf, zb, z2, rest. split; [reflexivity|]. rewrite E in H. unfold set_cost in H.
    match type of H with context [if ?b then _ else _] => destruct b eqn:L; [|discriminate] end. assert (0 <= (zb + zf * bsize) mod 2 ^ 32)%Z by (apply Z.mod_pos_bound; lia). lia.
  - intros (f & b & c & rest & -> & L). unfold field_u32. cbn [idx nth_error bind].
    change (wrap_u 32 f) with (Z.to_N (f mod 2 ^ 32)). change (wrap_u 32 b) with (Z.to_N (b mod 2 ^ 32)). rewrite E. unfold set_cost.
    assert (0 <= (b + f * bsize) mod 2 ^ 32)%Z by (apply Z.mod_pos_bound; lia).
    match goal with |- context [if ?b then _ else _] => destruct b eqn:B; [eauto|] end. exfalso. lia.
Qed.

Lemma set_matrix_length bsize costs zs costs' : set_matrix_line bsize costs zs = Ok costs' -> List.length costs' = List.length costs.
Proof.
  unfold set_matrix_line. intros H. apply bind_ok in H. destruct H as (f & F & H). apply bind_ok in H. destruct H as (b & B & H). apply bind_ok in H. destruct H as (c & C & H).
  unfold set_cost in H. match type of H with context [if ?b then _ else _] => destruct b; [|discriminate] end. injection H as <-. apply upd_length.
Qed.

Lemma matrix_fold_ok bsize data : forall costs, (exists costs', foldM (set_matrix_line (Z.to_N (bsize mod 2 ^ 32))) data costs = Ok costs') <->
  Forall (fun zs => exists f b c rest, zs = f :: b :: c :: rest /\ (2 + (b + f * bsize) mod 2 ^ 32 < Z.of_nat (List.length costs))%Z) data.
Proof.
  induction data as [|zs data IH]; intros costs; cbn [foldM]; [split; [constructor|eauto]|]. split.
  - intros (costs' & H). apply bind_ok in H. destruct H as (c1 & H1 & H2). assert (L := set_matrix_length _ _ _ _ H1). constructor; [apply set_matrix_ok; eauto|].
    rewrite <- L. apply IH. eauto.
  - intros F. inversion F as [|? ? F1 F2]; subst. apply set_matrix_ok in F1. destruct F1 as (c1 & F1). rewrite F1. cbn [bind]. apply IH.
    rewrite (set_matrix_length _ _ _ _ F1). exact F2.
Qed.

Theorem build_matrix_accepts content : (exists bytes, build_matrix content = Ok bytes) <-> accepted_matrix content.
Proof.
  assert (CELLS : forall fs bs, Z.of_nat (List.length (wrap16 (Z.of_N (Z.to_N (fs mod 2 ^ 32))) :: wrap16 (Z.of_N (Z.to_N (bs mod 2 ^ 32))) ::
      repeat i16_max (N.to_nat (wrap_u 32 (Z.of_N (Z.to_N (fs mod 2 ^ 32)) * Z.of_N (Z.to_N (bs mod 2 ^ 32))))))) = (2 + (fs * bs) mod 2 ^ 32)%Z).
  { intros fs bs. cbn [List.length]. rewrite repeat_length. unfold wrap_u. change (2 ^ Z.of_nat 32)%Z with (2 ^ 32)%Z. rewrite !Z2N.id by (apply Z.mod_pos_bound; lia).
    rewrite <- Z.mul_mod by lia. assert (0 <= (fs * bs) mod 2 ^ 32)%Z by (apply Z.mod_pos_bound; lia). lia. }
  unfold accepted_matrix. split.
  - intros (bytes & H). unfold build_matrix in H. apply bind_ok in H. destruct H as (ls & LS & H). apply mapM_ok_inv in LS. destruct ls as [|hz dz]; [discriminate|].
    remember (lines content) as lc eqn:LC. symmetry in LC. destruct lc as [|header data]; [inversion LS|]. inversion LS as [|? ? ? ? L1 L2]; subst. apply parse_matrix_line_spec in L1.
    apply bind_ok in H. destruct H as (fs & F & H). apply bind_ok in H. destruct H as (bs & B & H). apply field_u32_ok in F, B. destruct F as (zf & F & ->), B as (zb & B & ->).
    destruct hz as [|z0 [|z1 rest]]; try discriminate. cbn in F, B. injection F as ->. injection B as ->. cbv zeta in H. apply bind_ok in H. destruct H as (costs' & C & _).
    exists header, data, zf, zb, rest. split; [apply lines_spec, LC|]. split; [exact L1|].
    assert (X : Forall (fun zs => exists f b c rest, zs = f :: b :: c :: rest /\ (2 + (b + f * zb) mod 2 ^ 32 < 2 + (zf * zb) mod 2 ^ 32)%Z) dz).
    { rewrite <- CELLS. apply matrix_fold_ok. eauto. }
    clear - X L2. induction L2 as [|l zs ls zss L L2 IH]; [constructor|]. inversion X as [|? ? (f & b & c & rest & -> & X1) X2]; subst. constructor; [|exact (IH X2)].
    exists f, b, c, rest. split; [apply parse_matrix_line_spec, L|lia].
  - intros (header & data & zf & zb & rest & L & H & D). apply lines_spec in L. unfold build_matrix. rewrite L. cbn [mapM].
    apply parse_matrix_line_spec in H. rewrite H. cbn [bind].
    assert (K : exists dz, mapM parse_matrix_line data = Ok dz /\ Forall (fun zs => exists f b c rest, zs = f :: b :: c :: rest /\ (2 + (b + f * zb) mod 2 ^ 32 < 2 + (zf * zb) mod 2 ^ 32)%Z) dz).
    { clear - D. induction D as [|l ls (f & b & c & rest & N & B) D (dz & E & F)]; [exists []; split; [reflexivity|constructor]|]. apply parse_matrix_line_spec in N.
      exists ((f :: b :: c :: rest) :: dz). cbn [mapM]. rewrite N. cbn [bind]. rewrite E. split; [reflexivity|]. constructor; [|exact F]. exists f, b, c, rest. split; [reflexivity|lia]. }
    destruct K as (dz & -> & F). cbn [bind]. unfold field_u32. cbn [idx nth_error bind]. cbv zeta.
    change (wrap_u 32 zf) with (Z.to_N (zf mod 2 ^ 32)). change (wrap_u 32 zb) with (Z.to_N (zb mod 2 ^ 32)). rewrite <- CELLS in F. apply matrix_fold_ok in F.
    destruct F as (costs' & ->). cbn [bind]. eauto.
Qed.

(** ** Whole builds *)

Lemma parse_unk_accepts cats content n : 4 <= n -> (exists d, parse_unk cats content n = Ok d) <-> exists us, unk_file n content us.
Proof.
  intros B. split.
  - intros (d & H). unfold parse_unk in H. apply bind_ok in H. destruct H as (es & E & _). apply mapM_ok_inv in E.
    exists (map (fun e => UnkLine (ue_surface e) (ue_left e) (ue_right e) (ue_cost e)) es). apply unk_file_spec. revert E. generalize (lines content). intros ls.
    induction 1 as [|l e ls es H E IH]; cbn [map]; constructor; [|exact IH]. unfold parse_dictionary_entry in H. destruct (Nat.eqb_spec (List.length (split_char 44%N l)) n) as [L|L]; [|discriminate].
    cbn [negb] in H. unfold reads_as. split; [exact L|]. destruct (split_char 44%N l) as [|a [|f1 [|f2 [|f3 rest]]]]; cbn [List.length] in L; try lia. cbn [idx nth_error bind] in H.
    destruct (parse_u32 f1) eqn:P1; [|discriminate]. destruct (parse_u32 f2) eqn:P2; [|discriminate]. destruct (parse_i32 f3) eqn:P3; [|discriminate]. cbn [ok_or bind] in H. injection H as <-.
    exists f1, f2, f3, rest. cbn. auto.
  - intros (us & U). apply unk_file_spec in U. unfold parse_unk.
    assert (E : mapM (fun line => parse_dictionary_entry (split_char 44%N line) n) (lines content) = Ok (map LUnkDef.entry_of us)).
    { induction U as [|l u ls us R F IH]; cbn [mapM map]; [reflexivity|]. rewrite (LUnkDef.reads_as_parse _ _ _ R). cbn [bind]. rewrite IH. reflexivity. }
    rewrite E. cbn [bind]. eauto.
Qed.

Lemma char_def_accepts content : (exists cd, char_def_of content = Ok cd) <-> exists ds, char_file content ds.
Proof.
  split.
  - intros (cd & H). pose proof (char_def_fails content) as F. destruct (directives content) as [ds| |] eqn:E; try congruence. exists ds. apply char_file_spec, E.
  - intros (ds & F). apply char_file_spec in F. destruct (char_def_categories _ _ F) as (cd & C & _). eauto.
Qed.

Lemma written_ok be b : always_writes be -> exists z, written be b = Ok z.
Proof.
  intros W. unfold written, compress_write. destruct (be_compress be) eqn:E; [|eauto]. specialize (W E b). destruct (compress (be_codecs be) b Deflate); [eauto|congruence].
Qed.
Lemma text_read_ok be k dir name t : read_text be (kind_encoding k) (join_path dir (lit name)) = Ok t <-> text_file be k dir name t.
Proof.
  split; [|apply text_read]. unfold read_text, read_file. destruct (e_read (be_env be) (join_path dir (lit name))) as [b|] eqn:E; [|discriminate]. cbn [ok_or bind].
  intros H. injection H as <-. exists b. split; [exact E|]. destruct k; reflexivity.
Qed.
Lemma csv_file_ok be k dir name rows : row_reader be k dir name = Ok rows <-> csv_file be k dir name rows.
Proof.
  split; [|apply csv_file_read]. unfold row_reader, read_file. destruct (e_read (be_env be) (join_path dir name)) as [b|] eqn:E; [|discriminate]. cbn [ok_or bind]. unfold csv_rows.
  replace (match kind_encoding k with EucJp => be_transcode be b | Utf8 => b end) with (match k with IPADIC => be_transcode be b | _ => b end) by (destruct k; reflexivity).
  intros H. apply bind_ok in H. destruct H as (rs & C & H). destruct (kind_flexible k || same_lengths rs) eqn:L; [|discriminate]. injection H as ->. exists b. split; [exact E|]. split; [exact C|].
  apply orb_true_iff in L. destruct L as [L|L]; [left; destruct k; try discriminate; reflexivity|right; apply same_lengths_spec, L].
Qed.
Lemma system_rows_ok be k dir rows : system_rows be k dir = Ok rows <->
  exists names files, be_glob be dir = Ok names /\ Forall2 (csv_file be k dir) names files /\ rows = concat files.
Proof.
  rewrite system_rows_reader. split.
  - intros H. apply bind_ok in H. destruct H as (names & G & H). apply bind_ok in H. destruct H as (files & F & H). injection H as <-. exists names, files. split; [exact G|]. split; [|reflexivity].
    apply mapM_ok_inv in F. revert F. apply Forall2_mono. intros a b. apply csv_file_ok.
  - intros (names & files & -> & F & ->). cbn [bind].
    assert (E : mapM (row_reader be k dir) names = Ok files) by (induction F as [|a b l l' R F IH]; [reflexivity|]; cbn [mapM]; rewrite (csv_file_read _ _ _ _ _ R); cbn [bind]; rewrite IH; reflexivity).
    rewrite E. reflexivity.
Qed.

Lemma keyset_words (P : str -> Prop) m : Forall (fun x : str * list word_entry => P (fst x)) m -> forall id, Forall (fun kv => exists w, P w /\ fst kv = utf8 w) (keyset_from id m).
Proof. induction 1 as [|[k es] m H F IH]; intros id; cbn [keyset_from]; constructor; [exists k; auto|apply IH]. Qed.

Lemma sys_da_input o rows f : Exists (fun r => sys_numbers r <> None) rows -> trie_words (map (hd []) rows) -> build_dict o rows = Ok f ->
  trie_input (f_da f) /\ Forall (fun kv => exists w, In w (map (sys_surface o) rows) /\ fst kv = utf8 w) (f_da f).
Proof.
  intros SO (_ & TW & CNT) B. rewrite map_length in CNT. rewrite Forall_map in TW.
  destruct (build_dict_inv _ _ _ B) as (m & HM & E1 & _). set (srt := sorted_rows (sys_surface o) rows) in *.
  assert (SL : List.length srt = List.length rows) by (symmetry; apply Permutation_length, sorted_rows_perm).
  destruct (sys_fold_inv _ _ _ _ HM) as (ps & -> & F).
  assert (FI : Forall (fun p => valid_str (fst p) /\ (fst p <> [] /\ no_nul (fst p)) /\ In (fst p) (map (sys_surface o) rows)) ps).
  { apply Forall_forall. intros p I1.
    assert (X : exists ir, In ir (filter (fun ir => usable (snd ir)) (number_from 0 srt)) /\ row_gives o ir p).
    { clear - F I1. induction F as [|a b l1 l2 R F IH]; [destruct I1|]. destruct I1 as [->|I1]; [exists a; split; [left|]; auto|].
      destruct (IH I1) as (ir & J & R'). exists ir. split; [right|]; auto. }
    destruct X as ([i r] & J & G). apply filter_In in J. destruct J as [J _]. apply number_from_in in J.
    destruct G as (G1 & _). cbn [fst snd] in *. rewrite G1.
    assert (IR : In r rows) by (eapply Permutation_in; [symmetry; apply sorted_rows_perm|eapply nth_error_In; exact J]).
    rewrite Forall_forall in TW. destruct (TW r IR) as (V & NE & NN). unfold sys_surface. split; [apply valid_unify, V|].
    split; [split; [apply unify_nil, NE|apply no_nul_unify, NN]|]. apply in_map_iff. exists r. auto. }
  rewrite E1. split.
  - apply keyset_trie_input.
    + apply Exists_exists in SO. destruct SO as (r & IR & NR). intros E0.
      assert (X : exists i, In (i, r) (filter (fun ir => usable (snd ir)) (number_from 0 srt))).
      { assert (J : In r srt) by (eapply Permutation_in; [apply sorted_rows_perm|exact IR]). rewrite <- (number_from_snd srt 0) in J. apply in_map_iff in J. destruct J as ([i r'] & E & J). cbn in E. subst r'.
        exists i. apply filter_In. split; [exact J|]. cbn [snd]. unfold usable. destruct (sys_numbers r); [reflexivity|congruence]. }
      destruct X as (i & X). pose proof (push_all_count ps []) as PC. rewrite E0 in PC. cbn in PC. destruct ps; [|discriminate PC]. inversion F as [Q|]. rewrite <- Q in X. destruct X.
    + apply push_all_sorted; [|exact I]. eapply Forall_impl; [|exact FI]. intros p Hp. apply Hp.
    + apply (push_all_keys (fun k => k <> [] /\ no_nul k)); [|constructor]. eapply Forall_impl; [|exact FI]. intros p Hp. apply Hp.
    + rewrite push_all_count. cbn. apply Forall2_length in F. rewrite <- F.
      assert (LF : List.length (filter (fun ir => usable (snd ir)) (number_from 0 srt)) <= List.length rows).
      { rewrite <- SL. replace (List.length srt) with (List.length (number_from 0 srt)) by (rewrite <- (number_from_snd srt 0) at 2; rewrite map_length; reflexivity).
        generalize (number_from 0 srt). induction l as [|x l IH]; cbn; [lia|]. destruct (usable (snd x)); cbn; lia. }
      apply N.le_lt_trans with (m := N.of_nat (List.length rows)); [lia|exact CNT].
  - apply (keyset_words (fun w => In w (map (sys_surface o) rows))). apply (push_all_keys (fun w => In w (map (sys_surface o) rows))); [|constructor].
    eapply Forall_impl; [|exact FI]. intros p Hp. apply Hp.
Qed.

Lemma user_da_input o rows d : trie_words (user_words rows) -> build_user o rows = Ok d ->
  trie_input (pd_da (u_dict d)) /\ Forall (fun kv => exists w, In w (user_words rows) /\ fst kv = utf8 w) (pd_da (u_dict d)).
Proof.
  unfold user_words. intros (SO & TW & CNT) B. rewrite map_length in CNT. rewrite Forall_map in TW.
  destruct (build_user_inv _ _ _ B) as (m & HM & E1 & _). set (srt := sorted_rows (hd []) rows) in *.
  assert (SL : List.length srt = List.length rows) by (symmetry; apply Permutation_length, sorted_rows_perm).
  destruct (user_fold_inv _ _ _ _ HM) as (ps & -> & F).
  assert (FI : Forall (fun p => valid_str (fst p) /\ (fst p <> [] /\ no_nul (fst p)) /\ In (fst p) (map (hd []) rows)) ps).
  { apply Forall_forall. intros p I1.
    assert (X : exists ir, In ir (number_from 0 srt) /\ user_gives o ir p).
    { clear - F I1. induction F as [|a b l1 l2 R F IH]; [destruct I1|]. destruct I1 as [->|I1]; [exists a; split; [left|]; auto|].
      destruct (IH I1) as (ir & J & R'). exists ir. split; [right|]; auto. }
    destruct X as ([i r] & J & G). apply number_from_in in J.
    destruct G as (G1 & _). cbn [fst snd] in *. rewrite G1.
    assert (IR : In r rows) by (eapply Permutation_in; [symmetry; apply sorted_rows_perm|eapply nth_error_In; exact J]).
    rewrite Forall_forall in TW. destruct (TW r IR) as (V & NE & NN). split; [exact V|]. split; [auto|]. apply in_map_iff. exists r. auto. }
  rewrite E1. cbn [pd_da]. split.
  - apply keyset_trie_input.
    + intros E0. pose proof (push_all_count ps []) as PC. rewrite E0 in PC. cbn in PC. destruct ps; [|discriminate PC]. inversion F as [Q|]. destruct srt as [|r0 srt0] eqn:ES; [|discriminate Q]. cbn in SL. destruct rows; [apply SO; reflexivity|discriminate SL].
    + apply push_all_sorted; [|exact I]. eapply Forall_impl; [|exact FI]. intros p Hp. apply Hp.
    + apply (push_all_keys (fun k => k <> [] /\ no_nul k)); [|constructor]. eapply Forall_impl; [|exact FI]. intros p Hp. apply Hp.
    + rewrite push_all_count. cbn. apply Forall2_length in F. rewrite <- F.
      replace (List.length (number_from 0 srt)) with (List.length srt) by (rewrite <- (number_from_snd srt 0) at 1; rewrite map_length; reflexivity). rewrite SL. exact CNT.
  - apply (keyset_words (fun w => In w (map (hd []) rows))). apply (push_all_keys (fun w => In w (map (hd []) rows))); [|constructor].
    eapply Forall_impl; [|exact FI]. intros p Hp. apply Hp.
Qed.

Theorem build_only be k dir files : build_dictionary be k dir = Ok files -> exists S, has_sources be k dir S /\ accepted k S.
Proof.
  intros H. unfold build_dictionary in H. apply bind_ok in H. destruct H as ([cd chardef] & C & H). apply bind_ok in H. destruct H as (unk & U & H).
    apply bind_ok in H. destruct H as (dict & D & H). apply bind_ok in H. destruct H as (matrix & M & _). apply unwrapped_ok in C, U, D, M.
    unfold build_chardef_file in C. apply bind_ok in C. destruct C as (tc & TC & C). apply bind_ok in C. destruct C as (cd' & C & _).
    unfold build_unk_file in U. apply bind_ok in U. destruct U as (tu & TU & U). apply bind_ok in U. destruct U as (u & U & _).
    unfold build_dict_files in D. apply bind_ok in D. destruct D as (rows & R & D). apply bind_ok in D. destruct D as (f & D & _).
    unfold build_matrix_file in M. apply bind_ok in M. destruct M as (tm & TM & M). apply bind_ok in M. destruct M as (m & M & _).
    apply text_read_ok in TC, TU, TM. apply system_rows_ok in R. rewrite kind_options in D. rewrite LBuilders.kind_fields in U.
    exists (Sources tc tu tm rows). split; [split; assumption|]. split; cbn.
    + apply char_def_accepts. eauto.
    + apply (parse_unk_accepts (categories cd)); [destruct k; cbn; lia|]. eauto.
    + apply build_dict_accepts. eauto.
    + apply build_matrix_accepts. eauto.
Qed.

Theorem build_accepts be k dir S : always_writes be -> has_sources be k dir S -> accepted k S ->
  Exists (fun r => exists c l rr, word_row r c l rr) (s_rows S) ->
  trie_words (map (hd []) (s_rows S)) -> yada_builds be (system_words k (s_rows S)) -> exists files, build_dictionary be k dir = Ok files.
Proof.
  intros W [HC HU HM HR] [AC AU AR AM] SO TW Y.
    assert (SO' : Exists (fun r => sys_numbers r <> None) (s_rows S)) by (eapply Exists_impl; [|exact SO]; intros r (c & l & rr & WR); apply word_row_spec in WR; congruence). apply char_def_accepts in AC. destruct AC as (cd & C). apply (parse_unk_accepts (categories cd)) in AU; [|destruct k; cbn; lia]. destruct AU as (u & U).
    apply build_dict_accepts in AR. destruct AR as (f & F). apply build_matrix_accepts in AM. destruct AM as (mb & M).
    apply text_read_ok in HC, HU, HM. apply system_rows_ok in HR.
    assert (E1 : exists b, build_chardef_file be k dir = Ok (cd, b)).
    { unfold build_chardef_file. rewrite HC. cbn [bind]. rewrite C. cbn [bind]. destruct (written_ok be (enc_chardef cd) W) as (z & ->). cbn [bind]. eauto. }
    assert (E2 : exists b, build_unk_file be k dir cd = Ok b).
    { unfold build_unk_file. rewrite HU. cbn [bind]. rewrite LBuilders.kind_fields, U. cbn [bind]. apply written_ok, W. }
    assert (E3 : exists b, build_dict_files be k dir = Ok b).
    { unfold build_dict_files. rewrite HR. cbn [bind]. rewrite kind_options, F. cbn [bind]. destruct (written_ok be (f_words f) W) as (z1 & ->), (written_ok be (f_words_idx f) W) as (z2 & ->). cbn [bind].
      destruct (be_yada be (f_da f)) as [da|] eqn:YD; [|exfalso; destruct (sys_da_input _ _ _ SO' TW F) as [T1 T2]; exact (Y _ T1 T2 YD)]. cbn [ok_or bind]. destruct (written_ok be da W) as (z3 & ->), (written_ok be (f_vals f) W) as (z4 & ->). cbn [bind]. eauto. }
    assert (E4 : exists b, build_matrix_file be k dir = Ok b).
    { unfold build_matrix_file. rewrite HM. cbn [bind]. rewrite M. cbn [bind]. apply written_ok, W. }
    destruct E1 as (b1 & E1), E2 as (b2 & E2), E3 as (b3 & E3), E4 as (b4 & E4). unfold build_dictionary.
    apply (unwrapped_ok k) in E1, E2, E3, E4. rewrite E1. cbn [bind]. rewrite E2. cbn [bind]. rewrite E3. cbn [bind]. rewrite E4. cbn [bind]. eauto.
Qed.

Lemma user_csv_ok be k path rows : user_csv (be_env be) k path rows <-> (do bytes <- read_file (be_env be) path; csv_rows (be_env be) (kind_user_flexible k) bytes) = Ok rows.
Proof.
  unfold user_csv, read_file, csv_rows. split.
    - intros (b & -> & E & L). cbn [ok_or bind]. rewrite E. cbn [bind]. destruct L as [->|[->|L]]; [reflexivity|reflexivity|]. apply same_lengths_spec in L. rewrite L, orb_true_r. reflexivity.
    - destruct (e_read (be_env be) path) as [b|]; [|discriminate]. cbn [ok_or bind]. intros H. apply bind_ok in H. destruct H as (rs & E & H).
      destruct (kind_user_flexible k || same_lengths rs) eqn:L; [|discriminate]. injection H as ->. exists b. split; [reflexivity|]. split; [exact E|]. apply orb_true_iff in L.
      destruct L as [L|L]; [destruct k; try discriminate; auto|]. apply same_lengths_spec in L. auto.
Qed.

Theorem build_user_only be k path file : build_user_file be k path = Ok file -> exists rows, user_csv (be_env be) k path rows /\ Forall (accepted_user_row k) rows.
Proof.
  intros H. unfold build_user_file in H. apply bind_ok in H. destruct H as (u & U & _). unfold build_user_dict in U.
    apply bind_ok in U. destruct U as (bytes & B & U). apply bind_ok in U. destruct U as (rows & R & U). exists rows. split.
    + apply user_csv_ok. rewrite B. exact R.
    + apply build_user_accepts. eauto.
Qed.

Theorem build_user_file_accepts be k path rows : user_csv (be_env be) k path rows -> Forall (accepted_user_row k) rows ->
  trie_words (user_words rows) -> yada_builds be (user_words rows) -> exists file, build_user_file be k path = Ok file.
Proof.
  intros U A TW Y. apply user_csv_ok in U. apply build_user_accepts in A. destruct A as (d & D). unfold build_user_file, build_user_dict.
    apply bind_ok in U. destruct U as (bytes & B & R). rewrite B. cbn [bind]. rewrite R. cbn [bind]. rewrite D. cbn [bind].
    destruct (be_yada be (pd_da (u_dict d))) as [da|] eqn:YD; [|exfalso; destruct (user_da_input _ _ _ TW D) as [T1 T2]; exact (Y _ T1 T2 YD)]. cbn [ok_or bind]. eauto.
Qed.

(** ** Numbers out of range *)

Lemma low16_range z : is_i16 (low16 z).
Proof. unfold low16, is_i16. assert (0 <= (z + 32768) mod 65536 < 65536)%Z by (apply Z.mod_pos_bound; lia). lia. Qed.

Theorem unk_reduced cats n content us : 4 <= n -> unk_file n content us -> exists d, parse_unk cats content n = Ok d /\
  forall k u, nth_error us (N.to_nat k) = Some u -> exists e, ud_word_entry d k = Ok e /\
    we_cost e = low16 (ul_cost u) /\ we_left e = (ul_left u mod 65536)%N /\ we_right e = (ul_right u mod 65536)%N.
Proof.
  intros B U. apply unk_file_spec in U. unfold parse_unk.
  assert (E : mapM (fun line => parse_dictionary_entry (split_char 44%N line) n) (lines content) = Ok (map LUnkDef.entry_of us)).
  { induction U as [|l u ls us R F IH]; cbn [mapM map]; [reflexivity|]. rewrite (LUnkDef.reads_as_parse _ _ _ R). cbn [bind]. rewrite IH. reflexivity. }
  rewrite E. cbn [bind]. eexists. split; [reflexivity|]. intros k u H. unfold ud_word_entry. cbn [ud_costs]. unfold make_costs_array, idx. rewrite !nth_error_map, H.
  cbn [option_map]. eexists. split; [reflexivity|]. cbn. split; [reflexivity|]. unfold wrap_u. change (2 ^ 16)%Z with (Z.of_N 65536). rewrite <- !N2Z.inj_mod, !N2Z.id. auto.
Qed.

Lemma entry_cell fsize bsize i : (0 < bsize)%N -> (i < fsize * bsize)%N -> (i / bsize < fsize)%N /\ (i mod bsize < bsize)%N /\ (i mod bsize + i / bsize * bsize = i)%N.
Proof.
  intros B I. assert (M := N.mod_lt i bsize ltac:(lia)). assert (D := N.div_mod i bsize ltac:(lia)). split; [apply N.div_lt_upper_bound; lia|]. split; [exact M|]. lia.
Qed.

Definition usual (bsize : N) (raw : Z * Z * Z) : N * N * Z :=
  let '(f, b, c) := raw in let i := Z.to_N ((b + f * Z.of_N bsize) mod 2 ^ 32) in ((i / bsize)%N, (i mod bsize)%N, low16 c).

Lemma usual_cost fsize bsize raws f b : (0 < bsize)%N -> (f < fsize)%N -> (b < bsize)%N ->
  matrix_cost (map (usual bsize) raws) f b = raw_cost (Z.of_N bsize) raws (Z.of_N (b + f * bsize)).
Proof.
  intros B F L.
  assert (K : forall x y c, let '(f', b', _) := usual bsize (x, y, c) in ((f' =? f)%N && (b' =? b)%N) = ((y + x * Z.of_N bsize) mod 2 ^ 32 =? Z.of_N (b + f * bsize))%Z).
  { intros x y c. cbn [usual]. assert (P : (0 <= (y + x * Z.of_N bsize) mod 2 ^ 32)%Z) by (apply Z.mod_pos_bound; lia).
    set (i := Z.to_N ((y + x * Z.of_N bsize) mod 2 ^ 32)). replace ((y + x * Z.of_N bsize) mod 2 ^ 32)%Z with (Z.of_N i) by (unfold i; lia).
    assert (M := N.mod_lt i bsize ltac:(lia)). assert (D := N.div_mod i bsize ltac:(lia)). clearbody i.
    apply eq_true_iff_eq. rewrite andb_true_iff, !N.eqb_eq, Z.eqb_eq. split; [intros [<- <-]; lia|]. intros E. assert (E' : i = (b + f * bsize)%N) by lia.
    split; [|rewrite E', N.mod_add, N.mod_small by lia; reflexivity]. rewrite E', N.div_add, N.div_small by lia. lia. }
  induction raws as [|[[x y] c] raws IH]; [reflexivity|]. cbn [map matrix_cost raw_cost].
  assert (X : existsb (fun '(x, y, _) => (x =? f)%N && (y =? b)%N) (map (usual bsize) raws) = existsb (fun '(x, y, _) => ((y + x * Z.of_N bsize) mod 2 ^ 32 =? Z.of_N (b + f * bsize))%Z) raws).
  { clear IH. induction raws as [|[[x' y'] c'] raws IH]; [reflexivity|]. cbn [map existsb]. rewrite <- IH. specialize (K x' y' c'). destruct (usual bsize (x', y', c')) as [[f' b'] c'']. rewrite K. reflexivity. }
  rewrite <- X. specialize (K x y c). unfold usual at 1 in K. unfold usual at 1. rewrite K, IH. reflexivity.
Qed.

Lemma set_usual bsize raw costs rest : (0 < bsize <= 32767)%N -> (match raw with (f, b, c) => (b + f * Z.of_N bsize) mod 2 ^ 32 < 2 ^ 30 end)%Z ->
  (match raw with (f, b, c) => set_matrix_line bsize costs (f :: b :: c :: rest) end) =
  (match usual bsize raw with (f, b, c) => set_matrix_line bsize costs [Z.of_N f; Z.of_N b; c] end).
Proof.
  destruct raw as [[f b] c]. intros B L. cbn [usual]. unfold set_matrix_line, field_u32. cbn [idx nth_error bind].
  assert (P : (0 <= (b + f * Z.of_N bsize) mod 2 ^ 32)%Z) by (apply Z.mod_pos_bound; lia).
  set (i := Z.to_N ((b + f * Z.of_N bsize) mod 2 ^ 32)).
  assert (E1 : wrap_u 32 (Z.of_N (wrap_u 32 b) + Z.of_N (wrap_u 32 f) * Z.of_N bsize) = i).
  { unfold wrap_u, i. f_equal. rewrite !Z2N.id by (apply Z.mod_pos_bound; lia). rewrite (Z.add_mod (b mod 2 ^ 32)), Z.mod_mod, Z.mul_mod_idemp_l, <- Z.add_mod by lia. reflexivity. }
  assert (M := N.mod_lt i bsize ltac:(lia)). assert (D := N.div_mod i bsize ltac:(lia)).
  assert (I : (i < 2 ^ 30)%N) by (unfold i; lia). assert (Q : (i / bsize <= i)%N) by (apply N.div_le_upper_bound; nia).
  rewrite E1. replace (wrap16 (low16 c)) with (wrap16 c) by (rewrite (wrap16_id (low16 c)); [reflexivity|apply low16_range]). change (2 ^ 30)%N with 1073741824%N in I. clearbody i.
  remember (i / bsize)%N as q eqn:EQ. remember (i mod bsize)%N as r eqn:ER. clear EQ ER L P.
  rewrite (wrap_u_id (Z.of_N q)), (wrap_u_id (Z.of_N r)) by (try change (2 ^ 32)%Z with 4294967296%Z; lia).
  rewrite !N2Z.id. replace (Z.of_N r + Z.of_N q * Z.of_N bsize)%Z with (Z.of_N i) by lia.
  rewrite wrap_u_id by (try change (2 ^ 32)%Z with 4294967296%Z; lia). rewrite N2Z.id. reflexivity.
Qed.

Theorem matrix_reduced content fsize bsize raws : (0 < fsize <= 32767)%N -> (0 < bsize <= 32767)%N -> raw_matrix content (Z.of_N fsize) (Z.of_N bsize) raws ->
  Forall (fun '(f, b, _) => ((b + f * Z.of_N bsize) mod 2 ^ 32 < Z.of_N (fsize * bsize))%Z) raws ->
  exists bytes m, build_matrix content = Ok bytes /\ cm_load bytes = Ok m /\
    forall f b, (f < fsize)%N -> (b < bsize)%N -> cm_cost m f b = Ok (raw_cost (Z.of_N bsize) raws (Z.of_N (b + f * bsize))).
Proof.
  intros F B (header & data & rest & L & H & D) R.
  assert (EF : entries_fit fsize bsize (map (usual bsize) raws)).
  { unfold entries_fit. rewrite Forall_map. revert R. apply Forall_impl. intros [[f b] c] R. cbn [usual].
    assert (P : (0 <= (b + f * Z.of_N bsize) mod 2 ^ 32)%Z) by (apply Z.mod_pos_bound; lia).
    destruct (entry_cell fsize bsize (Z.to_N ((b + f * Z.of_N bsize) mod 2 ^ 32))) as (A1 & A2 & _); [lia|lia|]. split; [exact A1|]. split; [exact A2|apply low16_range]. }
  destruct (matrix_written fsize bsize (map (usual bsize) raws)) as (content' & W); [lia|lia|exact EF|]. apply matrix_file_spec in W.
  destruct (matrix_round_trip fsize bsize ltac:(lia) ltac:(lia) content' (map (usual bsize) raws) W EF) as (bytes & m & BM & LM & C). exists bytes, m.
  split; [|split; [exact LM|]].
  - rewrite <- BM. destruct W as (header' & data' & L' & (rest' & H') & D'). apply lines_spec in L. apply parse_matrix_line_spec in H. apply numbers_on_spec, parse_matrix_line_spec in H'.
    unfold build_matrix. rewrite L, L'. cbn [mapM]. rewrite H, H'. cbn [bind].
    assert (K : exists dz dz', mapM parse_matrix_line data = Ok dz /\ mapM parse_matrix_line data' = Ok dz' /\
      forall costs, foldM (set_matrix_line bsize) dz costs = foldM (set_matrix_line bsize) dz' costs).
    { clear - D D' R F B. revert data' D' R. induction D as [|l [[f b] c] ls raws (r & N) D IH]; intros data' D' R.
      - inversion D'; subst. exists [], []. auto.
      - cbn [map] in D'. remember (usual bsize (f, b, c)) as uc eqn:UC. destruct uc as [[f' b'] c']. inversion D' as [|l' ? ls' ? N0 D'' E1 E2]; subst. destruct N0 as (r' & N'). inversion R as [|? ? R1 R2]; subst.
        destruct (IH _ D'' R2) as (dz & dz' & E1 & E2 & E3). apply parse_matrix_line_spec in N. apply numbers_on_spec, parse_matrix_line_spec in N'.
        exists ((f :: b :: c :: r) :: dz), ((Z.of_N f' :: Z.of_N b' :: c' :: r') :: dz'). cbn [mapM]. rewrite N, N'. cbn [bind]. rewrite E1, E2. split; [reflexivity|]. split; [reflexivity|].
        intros costs. cbn [foldM]. assert (S := set_usual bsize (f, b, c) costs r B). cbn iota in S. rewrite S; [|clear - R1 F B; assert (fsize * bsize <= 32767 * 32767)%N by nia; lia].
        rewrite <- UC. change (set_matrix_line bsize costs [Z.of_N f'; Z.of_N b'; c']) with (set_matrix_line bsize costs (Z.of_N f' :: Z.of_N b' :: c' :: r')).
        destruct (set_matrix_line bsize costs (Z.of_N f' :: Z.of_N b' :: c' :: r')); cbn [bind]; [apply E3|reflexivity|reflexivity]. }
    destruct K as (dz & dz' & E1 & E2 & E3). rewrite E1, E2. cbn [bind]. unfold field_u32. cbn [idx nth_error bind]. cbv zeta.
    assert (WB : wrap_u 32 (Z.of_N bsize) = bsize) by (rewrite wrap_u_id; [lia|lia|change (2 ^ 32)%Z with 4294967296%Z; lia]). rewrite WB, E3. reflexivity.
  - intros f b Hf Hb. rewrite C by assumption. f_equal. apply (usual_cost fsize); lia.
Qed.

Theorem matrix_stray fsize bsize : (2 <= fsize <= 32767)%N -> (0 < bsize <= 32767)%N -> exists content bytes m,
  matrix_file content fsize bsize [(0, bsize, 7%Z)]%N /\ build_matrix content = Ok bytes /\ cm_load bytes = Ok m /\ cm_cost m 1 0 = Ok 7%Z.
Proof.
  intros F B.
  destruct (written_numbers [Z.of_N fsize; Z.of_N bsize]) as (l1 & N1 & A1 & A2); [repeat constructor; lia|].
  destruct (written_numbers [0%Z; Z.of_N bsize; 7%Z]) as (l2 & N2 & A3 & A4); [repeat constructor; lia|].
  assert (L : file_lines (with_newlines [l1; l2]) [l1; l2]) by (apply file_lines_written; constructor; [auto|constructor; [auto|constructor]]).
  exists (with_newlines [l1; l2]).
  destruct (matrix_reduced (with_newlines [l1; l2]) fsize bsize [(0, Z.of_N bsize, 7)]%Z) as (bytes & m & E1 & E2 & E3); [lia|lia| | |].
  - exists l1, [l2], []. split; [exact L|]. split; [exact N1|]. constructor; [exists []; exact N2|constructor].
  - constructor; [|constructor]. rewrite Z.mod_small; [nia|]. change (2 ^ 32)%Z with 4294967296%Z. lia.
  - exists bytes, m. split; [exists l1, [l2]; split; [exact L|split; [exists []; exact N1|constructor; [exists []; exact N2|constructor]]]|]. split; [exact E1|]. split; [exact E2|].
    rewrite E3 by lia. cbn [raw_cost existsb]. replace (Z.of_N bsize + 0 * Z.of_N bsize)%Z with (Z.of_N bsize) by lia.
    rewrite Z.mod_small by (change (2 ^ 32)%Z with 4294967296%Z; lia). replace (Z.of_N (0 + 1 * bsize)) with (Z.of_N bsize) by lia. rewrite Z.eqb_refl. reflexivity.
Qed.

Lemma rows_fit k r c l rr : word_row r c l rr \/ user_row r c l rr -> is_i16 c /\ is_u16 l /\ is_u16 rr /\
  (accepted_row k r -> k <> CcCedict -> exists c l rr, word_row r c l rr).
Proof.
  intros H. split; [|split; [|split]].
  4:{ intros (_ & [E|A] & _) N; [contradiction|exact A]. }
  all: destruct H as [H|H]; inversion H; subst; unfold u16_field, i16_field, is_i16, is_u16 in *; lia.
Qed.
