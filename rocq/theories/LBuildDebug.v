(** Lemmas about the builders in a debug build. *)
From Coq Require Import List NArith ZArith Bool Lia Permutation.
From Coq Require Import ZifyBool ZifyNat ZifyN.
From Verif Require Import MBase MUtf8 MText MCodec MDict MCharDef MBuild MLattice MTokenizer MLattice32 MDebug MBuildDebug SMatrix SBuildDebug LBase LMatrix LBuild LDebug LBuilders.
Import ListNotations.
Local Open Scope nat_scope.

Definition same_or_panic {A} (debug release : res A) : Prop := debug = Panic \/ debug = release.
Lemma sop_refl {A} (a : res A) : same_or_panic a a. Proof. right. reflexivity. Qed.
Lemma sop_bind {A B} (a a' : res A) (k k' : A -> res B) : same_or_panic a a' -> (forall x, same_or_panic (k x) (k' x)) -> same_or_panic (bind a k) (bind a' k').
Proof. intros [->| ->] K; [left; reflexivity|]. destruct a' as [x|e|]; cbn [bind]; [apply K|right; reflexivity|right; reflexivity]. Qed.
Lemma sop_fold {S X} (f g : S -> X -> res S) xs : (forall s x, same_or_panic (f s x) (g s x)) -> forall s, same_or_panic (foldM f xs s) (foldM g xs s).
Proof. intros H. induction xs as [|x xs IH]; intros s; cbn [foldM]; [apply sop_refl|]. apply sop_bind; [apply H|exact IH]. Qed.
Lemma wrap32_id z : (0 <= z < 4294967296)%Z -> wrap_u 32 z = Z.to_N z.
Proof. intros H. apply wrap_u_id; [lia|exact H]. Qed.

(** ** the matrix *)
Lemma line_sop bsize costs fields : same_or_panic (set_matrix_line_debug bsize costs fields) (set_matrix_line bsize costs fields).
Proof.
  unfold set_matrix_line_debug, set_matrix_line. apply sop_bind; [apply sop_refl|intros f]. apply sop_bind; [apply sop_refl|intros b]. apply sop_bind; [apply sop_refl|intros c].
  destruct (checked_u32_inv (Z.of_N f * Z.of_N bsize)) as [->|[-> H1]]; cbn [bind]; [left; reflexivity|]. rewrite Z2N.id by lia.
  destruct (checked_u32_inv (Z.of_N b + Z.of_N f * Z.of_N bsize)) as [->|[-> H2]]; cbn [bind]; [left; reflexivity|].
  right. rewrite wrap32_id by exact H2. reflexivity.
Qed.
Theorem matrix_sop content : same_or_panic (build_matrix_debug content) (build_matrix content).
Proof.
  unfold build_matrix_debug, build_matrix. apply sop_bind; [apply sop_refl|intros [|header data]]; [apply sop_refl|].
  apply sop_bind; [apply sop_refl|intros fsize]. apply sop_bind; [apply sop_refl|intros bsize].
  destruct (checked_u32_inv (Z.of_N fsize * Z.of_N bsize)) as [->|[-> H]]; cbn [bind]; [left; reflexivity|]. rewrite wrap32_id by exact H. cbv zeta.
  apply sop_bind; [apply sop_fold; intros; apply line_sop|intros; apply sop_refl].
Qed.

Lemma parse_i32_small f z : parse_i32 f = Some z -> (z < 2147483648)%Z.
Proof. unfold parse_i32. intros E. apply parse_int_range in E. lia. Qed.
Lemma numbers_small line zs : line_numbers line zs -> Forall (fun z => (z < 2147483648)%Z) zs.
Proof. unfold line_numbers. induction 1; constructor; [eapply parse_i32_small; eassumption|assumption]. Qed.

Lemma matrix_parsed content fsize bsize entries : matrix_def content fsize bsize entries ->
  exists rest zs, mapM parse_matrix_line (lines content) = Ok ((Z.of_N fsize :: Z.of_N bsize :: rest) :: zs) /\
    (fsize < 4294967296)%N /\ (bsize < 4294967296)%N /\
    Forall2 (fun l '(f, b, c) => (f < 4294967296)%N /\ (b < 4294967296)%N /\ exists rest, l = Z.of_N f :: Z.of_N b :: c :: rest) zs entries.
Proof.
  intros (header & data & LN & (rest & H0) & F).
  assert (FD : exists zs, mapM parse_matrix_line data = Ok zs /\
    Forall2 (fun l '(f, b, c) => (f < 4294967296)%N /\ (b < 4294967296)%N /\ exists rest, l = Z.of_N f :: Z.of_N b :: c :: rest) zs entries).
  { clear - F. induction F as [|l [[f b] c] data entries [r E] F (zs & IH & IF)]; cbn [mapM]; [exists []; auto|].
    rewrite (line_numbers_parse _ _ E). cbn [bind]. rewrite IH. cbn [bind]. eexists. split; [reflexivity|]. constructor; [|exact IF].
    apply numbers_small in E. inversion E as [|? ? Q1 E1]; subst. inversion E1 as [|? ? Q2 E2]; subst. split; [lia|]. split; [lia|eauto]. }
  destruct FD as (zs & PD & FZ). exists rest, zs. rewrite LN. cbn [mapM]. rewrite (line_numbers_parse _ _ H0). cbn [bind]. rewrite PD. cbn [bind]. split; [reflexivity|].
  apply numbers_small in H0. inversion H0 as [|? ? Q1 E1]; subst. inversion E1 as [|? ? Q2 E2]; subst. split; [lia|]. split; [lia|exact FZ].
Qed.

Lemma line_debug bsize costs f b c rest : (bsize < 4294967296)%N -> (f < 4294967296)%N -> (b < 4294967296)%N ->
  let fields := Z.of_N f :: Z.of_N b :: c :: rest in
  ((f * bsize + b < 4294967296)%N -> set_matrix_line_debug bsize costs fields = set_matrix_line bsize costs fields) /\
  (~ (f * bsize + b < 4294967296)%N -> set_matrix_line_debug bsize costs fields = Panic).
Proof.
  intros HB HF HG fields. unfold set_matrix_line_debug, set_matrix_line, field_u32, fields. cbn [idx nth_error bind]. rewrite !wrap32_id by lia. rewrite !N2Z.id. split; intros L.
  - rewrite checked_u32_ok by lia. cbn [bind]. rewrite Z2N.id by lia. rewrite checked_u32_ok by lia. cbn [bind]. rewrite wrap32_id by lia. reflexivity.
  - destruct (checked_u32_inv (Z.of_N f * Z.of_N bsize)) as [->|[-> H1]]; cbn [bind]; [reflexivity|]. rewrite Z2N.id by lia.
    destruct (checked_u32_inv (Z.of_N b + Z.of_N f * Z.of_N bsize)) as [->|[-> H2]]; cbn [bind]; [reflexivity|lia].
Qed.

Theorem matrix_exact content fsize bsize entries : matrix_def content fsize bsize entries ->
  (cells_fit fsize bsize entries -> build_matrix_debug content = build_matrix content) /\
  (~ cells_fit fsize bsize entries -> build_matrix_debug content = Panic).
Proof.
  intros M. destruct (matrix_parsed _ _ _ _ M) as (rest & zs & E & HF & HB & FZ). unfold build_matrix_debug, build_matrix, cells_fit. rewrite E. cbn [bind].
  unfold field_u32. cbn [idx nth_error bind]. rewrite !wrap32_id by lia. rewrite !N2Z.id. split.
  - intros [L FE]. rewrite checked_u32_ok by lia. rewrite wrap32_id by lia. cbn [bind]. cbv zeta. f_equal. generalize (wrap16 (Z.of_N fsize) :: wrap16 (Z.of_N bsize) :: repeat i16_max (N.to_nat (Z.to_N (Z.of_N fsize * Z.of_N bsize)))).
    clear M E. induction FZ as [|l [[f b] c] zs entries (Lf & Lb & r & ->) FZ IH]; intros costs; [reflexivity|]. cbn [foldM]. inversion FE as [|? ? E1 E2]; subst.
    rewrite (proj1 (line_debug bsize costs f b c r HB Lf Lb) E1). destruct (set_matrix_line bsize costs _); cbn [bind]; [apply IH, E2|reflexivity|reflexivity].
  - intros N. destruct (checked_u32_inv (Z.of_N fsize * Z.of_N bsize)) as [->|[-> L]]; cbn [bind]; [reflexivity|]. cbv zeta.
    assert (NE : ~ Forall (fun '(f, b, _) => (f * bsize + b < 4294967296)%N) entries) by (intros F; apply N; split; [lia|exact F]). clear N M E.
    match goal with |- context [foldM _ _ ?c] => generalize c end.
    assert (G : forall costs, foldM (set_matrix_line_debug bsize) zs costs = Panic).
    { induction FZ as [|l [[f b] c] zs entries (Lf & Lb & r & ->) FZ IH]; intros costs; [destruct NE; constructor|]. cbn [foldM].
      destruct (N.ltb_spec (f * bsize + b) 4294967296) as [S|S].
      - rewrite (proj1 (line_debug bsize costs f b c r HB Lf Lb) S). unfold set_matrix_line, field_u32. cbn [idx nth_error bind]. unfold set_cost.
        destruct (_ <? _)%N; cbn [bind]; [|reflexivity]. apply IH. intros F. apply NE. constructor; assumption.
      - rewrite (proj2 (line_debug bsize costs f b c r HB Lf Lb)) by lia. reflexivity. }
    intros costs. rewrite G. reflexivity.
Qed.

(** ** the keys of the trie *)
Lemma keyset_sop m : forall id, same_or_panic (keyset_debug id m) (Ok (keyset_from id m)).
Proof.
  induction m as [|[k es] m IH]; intros id; cbn [keyset_debug keyset_from]; [apply sop_refl|]. cbv zeta. set (len := wrap_u 32 _).
  destruct (checked_u32_inv (Z.of_N id + Z.of_N len)) as [->|[-> L]]; cbn [bind]; [left; reflexivity|].
  replace (Z.to_N (Z.of_N id + Z.of_N len)) with (wrap_u 32 (Z.of_N (id + len))) by (rewrite wrap32_id by lia; lia).
  destruct (IH (wrap_u 32 (Z.of_N (id + len)))) as [->| ->]; [left|right]; reflexivity.
Qed.
Definition entries_of (m : entry_map) : nat := length (flat_map snd m).
Lemma keyset_same m : forall id, (Z.of_N id + Z.of_nat (entries_of m) < 4294967296)%Z -> keyset_debug id m = Ok (keyset_from id m).
Proof.
  induction m as [|[k es] m IH]; intros id L; cbn [keyset_debug keyset_from]; [reflexivity|]. unfold entries_of in L. cbn [flat_map snd] in L. rewrite app_length in L. cbv zeta.
  rewrite (wrap32_id (Z.of_nat (length es))) by lia. rewrite checked_u32_ok by lia. cbn [bind].
  replace (Z.to_N (Z.of_N id + Z.of_N (Z.to_N (Z.of_nat (length es))))) with (wrap_u 32 (Z.of_N (id + Z.to_N (Z.of_nat (length es))))) by (rewrite wrap32_id by lia; lia).
  rewrite IH; [reflexivity|]. rewrite wrap32_id by lia. unfold entries_of. lia.
Qed.

Lemma push_entries k e m : entries_of (map_push k e m) = S (entries_of m).
Proof.
  unfold entries_of. induction m as [|[k' es] m IH]; cbn [map_push flat_map snd app length]; [reflexivity|].
  destruct (str_eqb k k'); cbn [flat_map snd]; [rewrite !app_length; cbn [length]; lia|].
  destruct (str_leb k k'); cbn [flat_map snd app length]; [rewrite !app_length; reflexivity|]. rewrite !app_length, IH. lia.
Qed.
Lemma fold_entries {X} (f : entry_map -> X -> res entry_map) : (forall m x m', f m x = Ok m' -> entries_of m' <= S (entries_of m)) ->
  forall xs m m', foldM f xs m = Ok m' -> entries_of m' <= length xs + entries_of m.
Proof.
  intros H xs. induction xs as [|x xs IH]; intros m m'; cbn [foldM length]; [intros E; injection E as <-; lia|].
  destruct (f m x) as [m1| |] eqn:E; cbn [bind]; try discriminate. intros F. apply IH in F. apply H in E. lia.
Qed.
Lemma number_length {A} (l : list A) : forall i, length (number_from i l) = length l.
Proof. induction l as [|x l IH]; intros i; cbn [number_from length]; [reflexivity|]. rewrite IH. reflexivity. Qed.
Lemma sys_entries o rows m : sys_entry_map o rows = Ok m -> entries_of m <= length rows.
Proof.
  intros E. apply fold_entries in E; [rewrite number_length in E; unfold entries_of at 2 in E; cbn in E; lia|]. intros m0 [i r] m1 H.
  destruct (sys_entry o i r) as [[[k w]|]| |]; cbn [bind] in H; try discriminate; injection H as <-; [rewrite push_entries|]; lia.
Qed.
Lemma user_entries o rows m : user_entry_map o rows = Ok m -> entries_of m <= length rows.
Proof.
  intros E. apply fold_entries in E; [rewrite number_length in E; unfold entries_of at 2 in E; cbn in E; lia|]. intros m0 [i r] m1 H.
  destruct (user_entry o i r) as [[k w]| |]; cbn [bind] in H; try discriminate; injection H as <-; rewrite push_entries; lia.
Qed.
Lemma keyed_length {K} (f : row -> res (K * row)) rows keyed : mapM f rows = Ok keyed -> length keyed = length rows.
Proof.
  revert keyed. induction rows as [|r rows IH]; intros keyed; cbn [mapM]; [intros E; injection E as <-; reflexivity|].
  destruct (f r) as [x| |]; cbn [bind]; try discriminate. destruct (mapM f rows) as [xs| |]; cbn [bind]; try discriminate. intros E. injection E as <-. cbn [length]. rewrite (IH _ eq_refl). reflexivity.
Qed.
Lemma sorted_length {K} (leb : K * row -> K * row -> bool) l : length (map snd (stable_sort leb l)) = length l.
Proof. rewrite map_length. symmetry. apply Permutation_length, stable_sort_perm. Qed.

Theorem dict_sop o rows : same_or_panic (build_dict_debug o rows) (build_dict o rows).
Proof.
  unfold build_dict_debug, build_dict. apply sop_bind; [apply sop_refl|intros keyed]. cbv zeta. apply sop_bind; [apply sop_refl|intros m]. apply sop_bind; [apply sop_refl|intros [words index]].
  destruct (keyset_sop m 0%N) as [->| ->]; [left|right]; reflexivity.
Qed.
Theorem user_sop o rows : same_or_panic (build_user_debug o rows) (build_user o rows).
Proof.
  unfold build_user_debug, build_user. apply sop_bind; [apply sop_refl|intros keyed]. cbv zeta. apply sop_bind; [apply sop_refl|intros m]. apply sop_bind; [apply sop_refl|intros [words index]].
  destruct (keyset_sop m 0%N) as [->| ->]; [left|right]; reflexivity.
Qed.
Theorem dict_same o rows : (N.of_nat (length rows) < 4294967296)%N -> build_dict_debug o rows = build_dict o rows.
Proof.
  intros L. unfold build_dict_debug, build_dict. destruct (mapM _ rows) as [keyed| |] eqn:K; cbn [bind]; try reflexivity. cbv zeta. apply keyed_length in K.
  destruct (sys_entry_map o _) as [m| |] eqn:E; cbn [bind]; try reflexivity. apply sys_entries in E. rewrite sorted_length in E.
  destruct (foldM (add_sys_words o) _ _) as [[words index]| |]; cbn [bind]; try reflexivity. rewrite keyset_same by lia. reflexivity.
Qed.
Theorem user_same o rows : (N.of_nat (length rows) < 4294967296)%N -> build_user_debug o rows = build_user o rows.
Proof.
  intros L. unfold build_user_debug, build_user. destruct (mapM _ rows) as [keyed| |] eqn:K; cbn [bind]; try reflexivity. cbv zeta. apply keyed_length in K.
  destruct (user_entry_map o _) as [m| |] eqn:E; cbn [bind]; try reflexivity. apply user_entries in E. rewrite sorted_length in E.
  destruct (foldM (add_user_words o) _ _) as [[words index]| |]; cbn [bind]; try reflexivity. rewrite keyset_same by lia. reflexivity.
Qed.

(** ** character definitions *)
Definition low_ranges (b : builder) : Prop := Forall (fun r : N * N * list category_id => (snd (fst r) <= 65535)%N) (b_ranges b).
Lemma id_ranges b n : b_ranges (snd (b_category_id b n)) = b_ranges b.
Proof. unfold b_category_id. destruct (index_of n (b_index b)); reflexivity. Qed.
Lemma ids_ranges names : forall b, b_ranges (snd (category_ids b names)) = b_ranges b.
Proof.
  induction names as [|n names IH]; intros b; cbn [category_ids]; [reflexivity|]. pose proof (id_ranges b n) as I. destruct (b_category_id b n) as [i b1]. cbn [snd] in I.
  specialize (IH b1). destruct (category_ids b1 names) as [is b2]. cbn [snd] in *. congruence.
Qed.
Lemma line_ranges b line b' : low_ranges b -> parse_line b line = Ok b' -> low_ranges b'.
Proof.
  intros L. unfold parse_line. cbv zeta. destruct (is_nil _); [intros E; injection E as <-; exact L|]. destruct (starts_with _ _).
  - unfold parse_range. cbv zeta. destruct (idx _ 0) as [f0| |]; cbn [bind]; try discriminate. set (bounds := match split_str _ f0 with [] => _ | _ => _ end).
    assert (B : forall lo hi, bounds = Ok (lo, hi) -> (hi <= 65535)%N).
    { intros lo hi. unfold bounds. destruct (split_str _ f0) as [|x [|y [|z l]]]; cbn [bind]; try discriminate.
      - destruct (parse_hex_codepoint x) as [a| |] eqn:E; cbn [bind]; try discriminate. intros H. injection H as <- <-. eapply hex_range; exact E.
      - destruct (parse_hex_codepoint x) as [a| |]; cbn [bind]; try discriminate. destruct (parse_hex_codepoint y) as [c| |] eqn:E; cbn [bind]; try discriminate.
        intros H. injection H as <- <-. eapply hex_range; exact E. }
    destruct bounds as [[lo hi]| |]; cbn [bind]; try discriminate. set (names := tl _). pose proof (ids_ranges names b) as R. destruct (category_ids b names) as [ids b1]. cbn [snd] in R.
    intros E. injection E as <-. unfold low_ranges. cbn [b_ranges]. rewrite R. apply Forall_app. split; [exact L|]. repeat constructor. cbn. eapply B; reflexivity.
  - unfold parse_category. destruct (split_ascii_whitespace _) as [|f0 [|f1 [|f2 [|f3 [|f4 l]]]]]; try discriminate.
    destruct (ok_or (parse_u32 f1) EParse); cbn [bind]; try discriminate. destruct (ok_or (parse_u32 f2) EParse); cbn [bind]; try discriminate. destruct (ok_or (parse_u32 f3) EParse); cbn [bind]; try discriminate.
    pose proof (id_ranges b f0) as R. destruct (b_category_id b f0) as [i b1]. cbn [snd] in R. intros E. injection E as <-. unfold low_ranges. cbn [b_ranges]. rewrite R. exact L.
Qed.
Lemma parse_ranges ls : forall b b', low_ranges b -> foldM parse_line ls b = Ok b' -> low_ranges b'.
Proof.
  induction ls as [|l ls IH]; intros b b' L; cbn [foldM]; [intros E; injection E as <-; exact L|].
  destruct (parse_line b l) as [b1| |] eqn:E; cbn [bind]; try discriminate. apply IH. eapply line_ranges; eassumption.
Qed.
Lemma table_same b : low_ranges b -> b_build_lookup_table_debug b = Ok (b_build_lookup_table b).
Proof.
  intros L. unfold b_build_lookup_table_debug, b_build_lookup_table.
  assert (E : exists bounds, mapM (fun '(low, high, _) => do next <- checked_u32 (Z.of_N high + 1); Ok [low; next]) (b_ranges b) = Ok bounds /\
    concat bounds = flat_map (fun '(low, high, _) => [low; (high + 1)%N]) (b_ranges b)).
  { unfold low_ranges in L. induction L as [|[[lo hi] ids] rs H L (bs & E1 & E2)]; [exists []; split; reflexivity|]. cbn [mapM flat_map]. cbn [fst snd] in H.
    rewrite checked_u32_ok by lia. cbn [bind]. rewrite E1. cbn [bind]. eexists. split; [reflexivity|]. cbn [concat]. rewrite E2.
    replace (Z.to_N (Z.of_N hi + 1)) with (hi + 1)%N by lia. reflexivity. }
  destruct E as (bounds & -> & E). cbn [bind]. rewrite E. reflexivity.
Qed.
Theorem chardef_same content : char_def_of_debug content = char_def_of content.
Proof.
  unfold char_def_of_debug, char_def_of, b_parse. destruct (foldM parse_line (lines content) empty_builder) as [b| |] eqn:E; cbn [bind]; try reflexivity.
  rewrite table_same; [reflexivity|]. eapply parse_ranges; [|exact E]. constructor.
Qed.

Theorem matrix_usual content fsize bsize entries : matrix_def content fsize bsize entries -> (fsize <= 32767)%N -> (bsize <= 32767)%N ->
  entries_fit fsize bsize entries -> exists bytes, build_matrix_debug content = Ok bytes /\ build_matrix content = Ok bytes.
Proof.
  intros M F B E. destruct (matrix_round_trip_backward fsize bsize F B content entries M E) as (bytes & m & H & _). exists bytes. split; [|exact H]. rewrite <- H.
  apply (proj1 (matrix_exact _ _ _ _ M)). split; [nia|]. eapply Forall_impl; [|exact E]. intros [[f b] c] (L1 & L2 & _). nia.
Qed.
