(** The connection cost matrix: building, loading, looking up. *)
From Coq Require Import List NArith ZArith Bool Lia ZifyBool ZifyNat ZifyN.
From Verif Require Import MBase MUtf8 MText MCodec MDict MBincode MTokenizer MBuild SMatrix LBase LCodec LBuild.
Import ListNotations.
Local Open Scope list_scope.

Lemma line_numbers_parse line zs : line_numbers line zs -> parse_matrix_line line = Ok zs.
Proof.
  unfold line_numbers, parse_matrix_line. intros F. induction F as [|f z fs zs E F IH]; cbn [mapM]; [reflexivity|].
  rewrite E. cbn [ok_or bind]. rewrite IH. reflexivity.
Qed.

Lemma wrap16_id z : is_i16 z -> wrap16 z = z.
Proof. intros H. unfold is_i16 in H. unfold wrap16, wrap_i. change (2 ^ (16 - 1))%Z with 32768%Z. change (2 ^ 16)%Z with 65536%Z. rewrite Z.mod_small by lia. lia. Qed.

Lemma wrap_u_id z b : (0 <= b)%Z -> (0 <= z < 2 ^ b)%Z -> wrap_u b z = Z.to_N z.
Proof. intros Hb H. unfold wrap_u. rewrite Z.mod_small by lia. reflexivity. Qed.

Lemma set_cost_ok l i v l' : set_cost l i v = Ok l' -> l' = upd l (N.to_nat i) v.
Proof. unfold set_cost. destruct (i <? N.of_nat (length l))%N; congruence. Qed.

(* which cell a pair has *)
Definition cell (bsize f b : N) : nat := N.to_nat (b + f * bsize).

Lemma cell_inj bsize f b f' b' : (b < bsize)%N -> (b' < bsize)%N -> cell bsize f b = cell bsize f' b' -> f = f' /\ b = b'.
Proof.
  unfold cell. intros H H' E. assert (E' : (b + f * bsize = b' + f' * bsize)%N) by lia.
  assert (f = f') by nia. subst. lia.
Qed.

Section Matrix.
Variables fsize bsize : N.
Hypothesis HF : (fsize <= 32767)%N.
Hypothesis HB : (bsize <= 32767)%N.

Lemma cell_lt f b : (f < fsize)%N -> (b < bsize)%N -> cell bsize f b < N.to_nat (fsize * bsize).
Proof. unfold cell. intros. nia. Qed.

Lemma cell_u32 f b : (f < fsize)%N -> (b < bsize)%N -> wrap_u 32 (Z.of_N b + Z.of_N f * Z.of_N bsize) = (b + f * bsize)%N.
Proof. intros. rewrite wrap_u_id; [lia|lia|]. change (2 ^ 32)%Z with 4294967296%Z. nia. Qed.

Lemma set_line f b c costs h1 h2 rest : (f < fsize)%N -> (b < bsize)%N -> is_i16 c -> length costs = N.to_nat (fsize * bsize) ->
  set_matrix_line bsize (h1 :: h2 :: costs) (Z.of_N f :: Z.of_N b :: c :: rest) = Ok (h1 :: h2 :: upd costs (cell bsize f b) c).
Proof.
  intros Hf Hb Hc L. unfold set_matrix_line, field_u32. cbn [idx nth_error bind].
  rewrite (wrap_u_id (Z.of_N f)), (wrap_u_id (Z.of_N b)) by (try change (2 ^ 32)%Z with 4294967296%Z; lia).
  rewrite !N2Z.id, cell_u32, wrap16_id by assumption. unfold set_cost.
  pose proof (cell_lt f b Hf Hb) as CL. unfold cell in *.
  destruct (N.ltb_spec (2 + (b + f * bsize)) (N.of_nat (length (h1 :: h2 :: costs)))) as [H|H]; [|cbn [length] in H; lia].
  replace (N.to_nat (2 + (b + f * bsize))) with (S (S (N.to_nat (b + f * bsize)))) by lia. reflexivity.
Qed.

Definition pair_named (f b : N) (entries : list (N * N * Z)) : bool :=
  existsb (fun '(x, y, _) => (x =? f)%N && (y =? b)%N) entries.

Lemma matrix_cost_unnamed entries f b : pair_named f b entries = false -> matrix_cost entries f b = 32767%Z.
Proof.
  induction entries as [|[[x y] c] r IH]; cbn; [reflexivity|]. intros H. apply orb_false_iff in H. destruct H as [H1 H2].
  rewrite H2, H1. reflexivity.
Qed.

Lemma set_lines data entries : Forall2 (fun l '(f, b, c) => exists rest, l = Z.of_N f :: Z.of_N b :: c :: rest) data entries ->
  entries_fit fsize bsize entries -> forall costs h1 h2, length costs = N.to_nat (fsize * bsize) ->
  exists costs', foldM (set_matrix_line bsize) data (h1 :: h2 :: costs) = Ok (h1 :: h2 :: costs') /\
    length costs' = N.to_nat (fsize * bsize) /\
    (Forall is_i16 costs -> Forall is_i16 costs') /\
    forall f b, (f < fsize)%N -> (b < bsize)%N ->
      nth_error costs' (cell bsize f b) =
        if pair_named f b entries then Some (matrix_cost entries f b) else nth_error costs (cell bsize f b).
Proof.
  induction 1 as [|l [[x y] c] data entries [rest ->] F IH]; intros EF costs h1 h2 L; cbn [foldM].
  - exists costs. repeat split; auto.
  - inversion EF as [|? ? E1 E2]; subst. destruct E1 as (Hx & Hy & Hc). rewrite set_line by assumption. cbn [bind].
    destruct (IH E2 (upd costs (cell bsize x y) c) h1 h2) as (costs' & R1 & R2 & R3 & R4); [rewrite upd_length; exact L|].
    exists costs'. split; [exact R1|]. split; [exact R2|]. split.
    { intros FA. apply R3. clear - FA Hc. generalize (cell bsize x y). induction FA as [|z l Z FA IHl]; intros [|n]; cbn; constructor; auto. }
    intros f b Hf Hb. rewrite R4 by assumption. cbn [pair_named existsb matrix_cost]. fold (pair_named f b entries).
    destruct (pair_named f b entries) eqn:P; [rewrite orb_true_r; reflexivity|]. rewrite orb_false_r.
    destruct ((x =? f)%N && (y =? b)%N) eqn:XY.
    + assert (x = f /\ y = b) as [-> ->] by lia. apply nth_error_upd_eq. rewrite L. apply cell_lt; assumption.
    + rewrite nth_error_upd_neq; [reflexivity|]. intros E. apply cell_inj in E; [|assumption|assumption]. lia.
Qed.

Lemma read_cost (costs : list Z) i c : Forall is_i16 costs -> nth_error costs i = Some c ->
  read_i16 (skipn (2 * i) (flat_map i16_bytes costs)) = Ok c.
Proof.
  intros F E. pose proof (skipn_flat_map_const i16_bytes 2 costs [] i (fun z => le_bytes_length 2 _)) as SK.
  assert (I : i < length costs) by (apply nth_error_Some; congruence).
  rewrite !app_nil_r in SK. rewrite SK by lia. rewrite (nth_skipn_cons _ _ _ E). cbn [flat_map]. apply read_i16_app.
  rewrite Forall_forall in F. apply F. eapply nth_error_In; exact E.
Qed.

Lemma matrix_round_trip_backward content entries : matrix_def content fsize bsize entries -> entries_fit fsize bsize entries ->
  exists bytes m, build_matrix content = Ok bytes /\ cm_load bytes = Ok m /\ cm_backward m = bsize /\
    forall f b, (f < fsize)%N -> (b < bsize)%N -> cm_cost m f b = Ok (matrix_cost entries f b).
Proof.
  intros (header & data & LN & (rest & H0) & F) EF.
  set (costs0 := repeat i16_max (N.to_nat (fsize * bsize))).
  assert (FD : exists zs, mapM parse_matrix_line data = Ok zs /\
            Forall2 (fun l '(f, b, c) => exists rest, l = Z.of_N f :: Z.of_N b :: c :: rest) zs entries).
  { clear - F. induction F as [|l [[f b] c] data entries [r E] F (zs & IH & IF)]; cbn [mapM]; [exists []; auto|].
    rewrite (line_numbers_parse _ _ E). cbn [bind]. rewrite IH. cbn [bind]. eexists. split; [reflexivity|]. constructor; eauto. }
  destruct FD as (zs & PD & FZ).
  destruct (set_lines zs entries FZ EF costs0 (Z.of_N fsize) (Z.of_N bsize)) as (costs' & R1 & R2 & R3 & R4); [apply repeat_length|].
  assert (IC : Forall is_i16 costs').
  { apply R3. apply Forall_forall. intros z I. apply repeat_spec in I. subst. unfold is_i16, i16_max. lia. }
  assert (HB' : (bsize < 4294967296)%N) by lia.
  assert (WB : wrap_u 32 (Z.of_N bsize) = bsize) by (rewrite wrap_u_id; [lia|lia|change (2 ^ 32)%Z with 4294967296%Z; lia]).
  assert (WF : wrap_u 32 (Z.of_N fsize) = fsize) by (rewrite wrap_u_id; [lia|lia|change (2 ^ 32)%Z with 4294967296%Z; lia]).
  assert (WC : wrap_u 32 (Z.of_N fsize * Z.of_N bsize) = (fsize * bsize)%N).
  { rewrite wrap_u_id; [lia|lia|]. change (2 ^ 32)%Z with 4294967296%Z. nia. }
  set (pre := flat_map i16_bytes [Z.of_N fsize; Z.of_N bsize]).
  exists (pre ++ flat_map i16_bytes costs'), (ConnMatrix (flat_map i16_bytes costs') bsize).
  split; [|split; [|split; [reflexivity|]]].
  - unfold build_matrix. rewrite LN. cbn [mapM]. rewrite (line_numbers_parse _ _ H0). cbn [bind]. rewrite PD. cbn [bind].
    unfold field_u32. cbn [idx nth_error bind]. rewrite WF, WB, WC.
    rewrite (wrap16_id (Z.of_N fsize)), (wrap16_id (Z.of_N bsize)) by (unfold is_i16; lia).
    fold costs0. rewrite R1. cbn [bind]. unfold pre. reflexivity.
  - unfold cm_load, pre. cbn [flat_map].
    assert (L2 : forall z, length (i16_bytes z) = 2) by (intros z; apply le_bytes_length).
    rewrite app_nil_r, <- app_assoc. rewrite slice_mid by (rewrite !L2; reflexivity). cbn [bind].
    rewrite <- (app_nil_r (i16_bytes (Z.of_N bsize))) at 1. rewrite read_i16_app by (unfold is_i16; lia). cbn [bind].
    unfold slice_from. rewrite app_assoc. rewrite app_length, app_length, !L2.
    cbn [Nat.leb Nat.add]. replace 4 with (length (i16_bytes (Z.of_N fsize) ++ i16_bytes (Z.of_N bsize))) by (rewrite app_length, !L2; reflexivity).
    rewrite skipn_app_exact. cbn [bind]. rewrite WB. reflexivity.
  - intros f b Hf Hb. unfold cm_cost. cbn [cm_data cm_backward]. rewrite cell_u32 by assumption.
    pose proof (cell_lt f b Hf Hb) as CL.
    rewrite (flat_map_const_length _ 2) by (intros z; apply le_bytes_length). rewrite R2.
    destruct (N.ltb_spec (N.of_nat (2 * N.to_nat (fsize * bsize))) (2 * (b + f * bsize))) as [H|H]; [unfold cell in CL; lia|].
    replace (N.to_nat (2 * (b + f * bsize))) with (2 * cell bsize f b) by (unfold cell; lia).
    apply read_cost; [exact IC|]. rewrite R4 by assumption. destruct (pair_named f b entries) eqn:P; [reflexivity|].
    rewrite matrix_cost_unnamed by exact P. unfold costs0.
    assert (NR : forall {A} (x : A) n i, i < n -> nth_error (repeat x n) i = Some x).
    { intros A x n. induction n; intros [|i] HH; cbn; try lia; auto. apply IHn. lia. }
    apply NR. exact CL.
Qed.

Lemma matrix_round_trip content entries : matrix_def content fsize bsize entries -> entries_fit fsize bsize entries ->
  exists bytes m, build_matrix content = Ok bytes /\ cm_load bytes = Ok m /\
    forall f b, (f < fsize)%N -> (b < bsize)%N -> cm_cost m f b = Ok (matrix_cost entries f b).
Proof. intros D E. destruct (matrix_round_trip_backward content entries D E) as (bytes & m & B & L & _ & C). exists bytes, m. auto. Qed.

End Matrix.

(* a larger backward size is read back as a negative number *)
Lemma matrix_large_backward content fsize bsize entries bytes :
  (2 <= fsize <= 32767)%N -> (32768 <= bsize <= 65535)%N ->
  matrix_def content fsize bsize entries -> build_matrix content = Ok bytes ->
  exists m, cm_load bytes = Ok m /\ cm_backward m = (bsize + 4294901760)%N /\ cm_cost m 1 0 = Panic.
Proof.
  intros HF HB (header & data & LN & (rest & H0) & F) H. unfold build_matrix in H. rewrite LN in H. cbn [mapM] in H.
  rewrite (line_numbers_parse _ _ H0) in H. cbn [bind] in H.
  destruct (mapM parse_matrix_line data) as [zs| |]; try discriminate. cbn [bind] in H. unfold field_u32 in H. cbn [idx nth_error bind] in H.
  rewrite (wrap_u_id (Z.of_N fsize)), (wrap_u_id (Z.of_N bsize)) in H by (try change (2 ^ 32)%Z with 4294967296%Z; lia).
  rewrite !N2Z.id in H.
  assert (WC : wrap_u 32 (Z.of_N fsize * Z.of_N bsize) = (fsize * bsize)%N).
  { rewrite wrap_u_id; [lia|lia|]. change (2 ^ 32)%Z with 4294967296%Z. nia. }
  rewrite WC in H. cbv zeta in H.
  set (wf := wrap16 (Z.of_N fsize)) in *. set (wb := wrap16 (Z.of_N bsize)) in *.
  assert (SH : forall zs cs cs', foldM (set_matrix_line bsize) zs (wf :: wb :: cs) = Ok cs' ->
     exists cs2, cs' = wf :: wb :: cs2 /\ length cs2 = length cs).
  { clear. intros zs. induction zs as [|z zs IH]; intros cs cs' H; cbn [foldM] in H; [injection H as <-; eauto|].
    apply bind_ok in H. destruct H as (c1 & H1 & H). unfold set_matrix_line in H1.
    apply bind_ok in H1. destruct H1 as (f & _ & H1). apply bind_ok in H1. destruct H1 as (b & _ & H1).
    apply bind_ok in H1. destruct H1 as (c & _ & H1). apply set_cost_ok in H1. subst c1.
    set (n := wrap_u 32 _) in H. replace (N.to_nat (2 + n)) with (S (S (N.to_nat n))) in H by lia.
    cbn [upd] in H. destruct (IH _ _ H) as (cs2 & -> & L). exists cs2. split; [reflexivity|]. rewrite L. apply upd_length. }
  apply bind_ok in H. destruct H as (cs' & H1 & H). injection H as <-. apply SH in H1. destruct H1 as (cs2 & -> & L2').
  assert (L2 : forall z, length (i16_bytes z) = 2) by (intros z; apply le_bytes_length).
  assert (IW : is_i16 wb).
  { unfold is_i16, wb, wrap16, wrap_i. change (2 ^ (16 - 1))%Z with 32768%Z. change (2 ^ 16)%Z with 65536%Z.
    pose proof (Z.mod_pos_bound (Z.of_N bsize + 32768) 65536). lia. }
  assert (EW : wb = (Z.of_N bsize - 65536)%Z).
  { unfold wb, wrap16, wrap_i. change (2 ^ (16 - 1))%Z with 32768%Z. change (2 ^ 16)%Z with 65536%Z.
    replace (Z.of_N bsize + 32768)%Z with ((Z.of_N bsize - 32768) + 1 * 65536)%Z by lia.
    rewrite Z.mod_add by lia. rewrite Z.mod_small by lia. lia. }
  assert (WW : wrap_u 32 wb = (bsize + 4294901760)%N).
  { unfold wrap_u. change (2 ^ 32)%Z with 4294967296%Z. rewrite EW.
    replace (Z.of_N bsize - 65536)%Z with ((Z.of_N bsize + 4294901760) + (-1) * 4294967296)%Z by lia.
    rewrite Z.mod_add by lia. rewrite Z.mod_small by lia. lia. }
  exists (ConnMatrix (flat_map i16_bytes cs2) (bsize + 4294901760)%N). split; [|split; [reflexivity|]].
  - unfold cm_load. cbn [flat_map]. rewrite slice_mid by (rewrite !L2; reflexivity). cbn [bind].
    rewrite <- (app_nil_r (i16_bytes wb)) at 1. rewrite read_i16_app by exact IW. cbn [bind].
    unfold slice_from. rewrite app_assoc, app_length, app_length, !L2. cbn [Nat.leb Nat.add].
    replace 4 with (length (i16_bytes wf ++ i16_bytes wb)) by (rewrite app_length, !L2; reflexivity).
    rewrite skipn_app_exact. cbn [bind]. rewrite WW. reflexivity.
  - unfold cm_cost. cbn [cm_data cm_backward].
    rewrite (flat_map_const_length _ 2) by exact L2. rewrite L2', repeat_length.
    rewrite wrap_u_id; [|lia|change (2 ^ 32)%Z with 4294967296%Z; lia].
    match goal with |- context [N.ltb ?a ?b] => destruct (N.ltb_spec a b) as [G|G]; [reflexivity|] end. nia.
Qed.
