(** Proofs about whole dictionary builds. *)
From Coq Require Import String.
From Coq Require Import List NArith ZArith Bool Lia ZifyBool ZifyNat ZifyN Permutation.
From Verif Require Import MBase MUtf8 MText MCodec MDict MCharDef MUnk MBincode MLattice MTokenizer MDetails MBuild MConfig MBuilders
  STok SBuild SMatrix SCharDef SUnk SData SBuilders LBase LUtf8 LBuild LSysDict LMatrix LCharDef LUnkDef LBincode LData LTok.
Import ListNotations.
Local Open Scope list_scope.

(** * Sizes *)

(* numbers in the directives come from limited parsers *)
Definition directive_fits (d : directive) : Prop :=
  match d with
  | DRange lo hi _ => (lo <= 65535)%N /\ (hi <= 65535)%N
  | DCategory _ data => is_u32 (cd_length data)
  end.

Lemma hex_range s c : parse_hex_codepoint s = Ok c -> (c <= 65535)%N.
Proof.
  unfold parse_hex_codepoint, parse_u16_hex. destruct (parse_int 16 0 65535 _) as [z|] eqn:E; cbn [option_map ok_or bind]; [|discriminate].
  apply parse_int_range in E. unfold ucs2_to_unicode. destruct (_ || _); [discriminate|]. destruct (_ && _); intros X; injection X as <-; lia.
Qed.

Lemma line_directive_fits line ds : line_directive line = Ok ds -> Forall directive_fits ds.
Proof.
  unfold line_directive. set (text := trim _). cbv zeta. destruct (is_nil text); [intros X; injection X as <-; constructor|].
  destruct (starts_with _ text).
  - unfold range_directive. destruct (split_whitespace text) as [|f names]; [discriminate|].
    unfold range_bounds. destruct (split_str _ f) as [|x [|y [|z l]]]; cbn [bind]; try discriminate.
    + destruct (parse_hex_codepoint x) as [lo| |] eqn:E; cbn [bind]; try discriminate. apply hex_range in E.
      intros X. injection X as <-. constructor; [cbn; auto|constructor].
    + destruct (parse_hex_codepoint x) as [lo| |] eqn:E; cbn [bind]; try discriminate. apply hex_range in E.
      destruct (parse_hex_codepoint y) as [hi| |] eqn:E'; cbn [bind]; try discriminate. apply hex_range in E'.
      intros X. injection X as <-. constructor; [cbn; auto|constructor].
  - unfold category_directive. destruct (split_ascii_whitespace text) as [|f0 [|f1 [|f2 [|f3 [|f4 l]]]]]; try discriminate.
    destruct (ok_or (parse_u32 f1) EParse) as [a| |]; cbn [bind]; try discriminate.
    destruct (ok_or (parse_u32 f2) EParse) as [b| |]; cbn [bind]; try discriminate.
    unfold parse_u32. destruct (parse_int 10 0 4294967295 f3) as [z|] eqn:E; cbn [option_map ok_or bind]; [|discriminate].
    apply parse_int_range in E. intros X. injection X as <-. constructor; [|constructor]. cbn. unfold is_u32. lia.
Qed.

Lemma directives_fit content ds : directives content = Ok ds -> Forall directive_fits ds.
Proof.
  unfold directives. destruct (mapM line_directive (lines content)) as [dss| |] eqn:E; cbn [bind]; try discriminate.
  intros X. injection X as <-. apply mapM_ok_inv in E. induction E as [|l d ls dss H E IH]; cbn [List.concat]; [constructor|].
  apply Forall_app. split; [eapply line_directive_fits; exact H|exact IH].
Qed.

Lemma nub_incl l x : In x (nub l) -> In x l.
Proof. rewrite nub_add_new, add_new_in. cbn. tauto. Qed.
Lemma filter_shorter {A} (p : A -> bool) l : List.length (filter p l) <= List.length l.
Proof. induction l as [|x l IH]; cbn; [lia|]. destruct (p x); cbn; lia. Qed.
Lemma nub_length l : List.length (nub l) <= List.length l.
Proof.
  induction l as [|x l IH]; cbn [nub List.length]; [lia|]. pose proof (filter_shorter (fun y => negb (str_eqb x y)) (nub l)). lia.
Qed.
Lemma total_ge_length {A} (f : A -> nat) l : (forall x, 1 <= f x) -> List.length l <= total f l.
Proof. intros H. induction l as [|x l IH]; cbn; [lia|]. specialize (H x). fold (total f l). lia. Qed.
Lemma mentions_size d : List.length (mentions d) + 4 <= directive_size d.
Proof. unfold directive_size. rewrite Nat.add_comm. apply Nat.add_le_mono_l. apply total_ge_length. intros; lia. Qed.
Lemma all_mentions_size ds : List.length (flat_map mentions ds) + 4 * List.length ds <= total directive_size ds.
Proof.
  induction ds as [|d ds IH]; cbn [flat_map total fold_right List.length]; [lia|]. fold (total directive_size ds).
  rewrite app_length. pose proof (mentions_size d). lia.
Qed.
Lemma mention_size ds name : In name (flat_map mentions ds) -> blen name <= total directive_size ds.
Proof.
  rewrite in_flat_map. intros (d & I1 & I2). pose proof (total_in directive_size ds d I1) as T.
  pose proof (total_in (fun n => 1 + blen n) (mentions d) name I2) as T2. cbn beta in T2. unfold directive_size in T at 1. lia.
Qed.
Lemma gives_length ds c : List.length (flat_map (gives c) ds) <= List.length (flat_map mentions ds).
Proof.
  induction ds as [|d ds IH]; cbn [flat_map]; [lia|]. rewrite !app_length.
  destruct d as [lo hi names|name data]; cbn [gives mentions]; [destruct (_ && _)|]; cbn [List.length]; lia.
Qed.
Lemma categories_length ds c : List.length (categories_of ds c) <= 1 + List.length (flat_map mentions ds).
Proof.
  unfold categories_of. pose proof (nub_length (flat_map (gives c) ds)). pose proof (gives_length ds c).
  destruct (nub (flat_map (gives c) ds)); [destruct (existsb _ _); cbn; lia|lia].
Qed.
Lemma set_insert_length x l : List.length (set_insert x l) <= S (List.length l).
Proof. induction l as [|y l IH]; cbn [set_insert List.length]; [lia|]. destruct (x =? y)%N; [cbn; lia|]. destruct (x <? y)%N; cbn [List.length]; lia. Qed.
Lemma fold_insert_length l : forall s, List.length (fold_left (fun s x => set_insert x s) l s) <= List.length l + List.length s.
Proof. induction l as [|x l IH]; intros s; cbn [fold_left List.length]; [lia|]. specialize (IH (set_insert x s)). pose proof (set_insert_length x s). lia. Qed.
Lemma insert_sorted_length x l : List.length (insert_sorted x l) = S (List.length l).
Proof. induction l as [|y l IH]; cbn [insert_sorted List.length]; [reflexivity|]. destruct (x <=? y)%N; cbn [List.length]; lia. Qed.
Lemma sort_unstable_length l : List.length (sort_unstable l) = List.length l.
Proof. induction l as [|x l IH]; cbn [sort_unstable List.length]; [reflexivity|]. rewrite insert_sorted_length, IH. reflexivity. Qed.

Lemma chardef_built_in_range content ds cd : directives content = Ok ds -> char_def_of content = Ok cd ->
  Forall valid_str (flat_map mentions ds) -> (N.of_nat (total directive_size ds) < 2 ^ 62)%N -> chardef_in_range cd.
Proof.
  intros D CD V SZ. pose proof (directives_fit _ _ D) as FT. pose proof (parse_built content) as P. rewrite D in P. destruct P as (b & P & B).
  unfold char_def_of in CD. rewrite P in CD. cbn [bind] in CD. injection CD as <-.
  pose proof (all_mentions_size ds) as AM. change (2 ^ 62)%N with 4611686018427387904%N in SZ.
  pose proof B as (B1 & B2 & B3). rewrite <- nub_add_new in B1.
  assert (RL : List.length (b_ranges b) <= List.length ds).
  { rewrite (Forall2_length _ _ _ B3). unfold ranges_of. clear. induction ds as [|d ds IH]; cbn [flat_map List.length]; [lia|].
    rewrite app_length. destruct d; cbn [List.length]; lia. }
  set (cuts := flat_map (fun '(low, high, _) => [low; (high + 1)%N]) (b_ranges b)).
  assert (CL : List.length cuts = 2 * List.length (b_ranges b)).
  { unfold cuts. clear. induction (b_ranges b) as [|[[lo hi] ids] rs IH]; cbn [flat_map app List.length]; lia. }
  assert (CB : Forall is_u32 cuts).
  { assert (G : Forall (fun r : N * N * list str => let '(lo, hi, _) := r in (lo <= 65535)%N /\ (hi <= 65535)%N) (ranges_of ds)).
    { unfold ranges_of. clear -FT. induction FT as [|d ds H F IH]; cbn [flat_map]; [constructor|]. apply Forall_app. split; [|exact IH].
      destruct d; [constructor; [exact H|constructor]|constructor]. }
    unfold cuts. clear -G B3. induction B3 as [|[[lo hi] ids] [[lo' hi'] ns] rs ss H F IH]; cbn [flat_map app]; [constructor|].
    inversion G as [|? ? G1 G2]; subst. destruct H as (-> & -> & _). destruct G1. constructor; [unfold is_u32; lia|]. constructor; [unfold is_u32; lia|]. auto. }
  set (set := fold_left (fun s x => set_insert x s) cuts []).
  destruct (fold_insert cuts [] I) as [F1 F2]. fold set in F1, F2.
  pose proof (fold_insert_length cuts []) as SL. fold set in SL. cbn [List.length] in SL.
  set (bs := lt_boundaries (b_build_lookup_table b)).
  assert (BL : List.length bs <= List.length set + 1 /\ Forall is_u32 bs).
  { unfold bs, b_build_lookup_table, lt_from_fn. cbn [lt_boundaries]. fold cuts. fold set. rewrite sort_unstable_length. split.
    - destruct (existsb (N.eqb 0) set); [lia|]. rewrite app_length. cbn. lia.
    - apply Forall_forall. intros x I1. apply (proj1 (sort_unstable_in _ _)) in I1.
      assert (G : forall y, In y set -> is_u32 y) by (intros y Y; apply F2 in Y; cbn in Y; rewrite Forall_forall in CB; apply CB; tauto).
      destruct (existsb (N.eqb 0) set); [auto|]. apply in_app_or in I1. destruct I1 as [I1|[<-|[]]]; [auto|unfold is_u32; lia]. }
  destruct BL as [BL BU].
  assert (VE : lt_values (b_build_lookup_table b) = map (b_lookup_categories b) bs) by reflexivity.
  unfold chardef_in_range, b_build. cbn [cds_definitions cds_names cds_mapping]. fold bs. rewrite VE.
  assert (DL : List.length (flat_map defines ds) <= List.length ds).
  { clear. induction ds as [|d ds IH]; cbn [flat_map List.length]; [lia|]. rewrite app_length. destruct d; cbn [defines List.length]; lia. }
  assert (NL : List.length (b_index b) <= List.length (flat_map mentions ds)) by (rewrite B1; apply nub_length).
  unfold short. split; [|split; [|split; [|split; [|split; [|split; [|split]]]]]].
  - rewrite B2. clear -FT. induction FT as [|d ds H F IH]; cbn [flat_map map]; [constructor|]. rewrite map_app. apply Forall_app. split; [|exact IH].
    destruct d; [constructor|constructor; [exact H|constructor]].
  - rewrite B2, map_length. lia.
  - rewrite B1. apply Forall_forall. intros n I1. apply nub_incl in I1. split; [rewrite Forall_forall in V; auto|]. pose proof (mention_size _ _ I1). lia.
  - lia.
  - exact BU.
  - lia.
  - apply Forall_map. apply Forall_forall. intros c _. destruct (lookup_names b ds c B) as [L1 L2]. split.
    + unfold ids_ok in L1. revert L1. apply Forall_impl. intros i Hi. lia.
    + rewrite <- (map_length (nm (b_index b))). rewrite L2. pose proof (categories_length ds c). lia.
  - rewrite map_length. lia.
Qed.

Lemma wrap16_range z : is_i16 (wrap16 z).
Proof.
  unfold is_i16, wrap16, wrap_i. change (2 ^ 16)%Z with 65536%Z. change (2 ^ (16 - 1))%Z with 32768%Z.
  pose proof (Z.mod_pos_bound (z + 32768) 65536 ltac:(lia)). lia.
Qed.
Lemma wrap_u16_range z : is_u16 (wrap_u 16 z).
Proof. unfold is_u16, wrap_u. change (2 ^ 16)%Z with 65536%Z. pose proof (Z.mod_pos_bound z 65536 ltac:(lia)). lia. Qed.

Lemma matching_length name us : forall i, List.length (matching_from i us name) <= List.length us.
Proof. induction us as [|u us IH]; intros i; cbn [matching_from List.length]; [lia|]. specialize (IH (i + 1)%N). destruct (str_eqb _ _); cbn [List.length]; lia. Qed.
Lemma matching_below name us : forall i k, In k (matching_from i us name) -> (k < i + N.of_nat (List.length us))%N.
Proof.
  induction us as [|u us IH]; intros i k; cbn [matching_from List.length]; [contradiction|].
  destruct (str_eqb _ _); [intros [<-|H]; [lia|]|intros H]; apply IH in H; lia.
Qed.

Lemma unk_built_in_range cats content n us u : Forall2 (reads_as n) (lines content) us -> parse_unk cats content n = Ok u ->
  (N.of_nat (List.length us) < 2 ^ 32)%N -> (N.of_nat (List.length cats) < 2 ^ 63)%N -> unknown_in_range u.
Proof.
  intros F P L1 L2. change (2 ^ 32)%N with 4294967296%N in L1. change (2 ^ 63)%N with 9223372036854775808%N in L2. unfold parse_unk in P.
  destruct (mapM _ (lines content)) as [es| |] eqn:E; cbn [bind] in P; try discriminate. injection P as <-.
  assert (LE : List.length es = List.length us).
  { apply mapM_ok_inv in E. rewrite <- (Forall2_length _ _ _ E). apply (Forall2_length _ _ _ F). }
  unfold unknown_in_range, make_category_references, make_costs_array, get_entry_id_matching_surface, short. cbn [ud_references ud_costs].
  rewrite !map_length. split; [|split; [lia|split; [|lia]]].
  - apply Forall_map, Forall_forall. intros name _. split.
    + apply Forall_forall. intros k I1. apply matching_below in I1. unfold is_u32. lia.
    + pose proof (matching_length name es 0). lia.
  - apply Forall_map, Forall_forall. intros e _. unfold entry_in_range. cbn [we_id we_cost we_left we_right wid].
    split; [unfold is_u32, u32_max; lia|]. split; [apply wrap16_range|]. split; apply wrap_u16_range.
Qed.

(** * Lines of unk.def *)

Lemma increasing_unique (l1 l2 : list N) : strictly l1 -> strictly l2 -> (forall x, In x l1 <-> In x l2) -> l1 = l2.
Proof.
  assert (TL : forall x l, strictly (x :: l) -> strictly l /\ forall y, In y l -> (x < y)%N).
  { intros x l SL. split.
    - intros i j a b L E1 E2. apply (SL (S i) (S j)); [lia|exact E1|exact E2].
    - intros y I1. apply In_nth_error in I1. destruct I1 as [n E]. apply (SL 0 (S n)); [lia|reflexivity|exact E]. }
  revert l2. induction l1 as [|x l1 IH]; intros [|y l2] S1 S2 H.
  - reflexivity.
  - exfalso. apply (H y). left. reflexivity.
  - exfalso. apply (H x). left. reflexivity.
  - destruct (TL _ _ S1) as [T1 M1], (TL _ _ S2) as [T2 M2].
    assert (E : x = y).
    { destruct (proj1 (H x) (or_introl eq_refl)) as [->|Ix]; [reflexivity|]. destruct (proj2 (H y) (or_introl eq_refl)) as [->|Iy]; [reflexivity|].
      apply M2 in Ix. apply M1 in Iy. lia. }
    subst y. f_equal. apply IH; [assumption|assumption|]. intros z. specialize (H z). cbn [In] in H. split; intros I1.
    + assert (X : x <> z) by (apply M1 in I1; lia). tauto.
    + assert (X : x <> z) by (apply M2 in I1; lia). tauto.
Qed.

Lemma matching_filter name us : forall i,
  Forall2 (fun k u => (i <= k)%N /\ nth_error us (N.to_nat (k - i)) = Some u) (matching_from i (map entry_of us) name) (filter (fun u => str_eqb (ul_name u) name) us).
Proof.
  induction us as [|u us IH]; intros i; cbn [map matching_from filter]; [constructor|].
  assert (R : Forall2 (fun k u' => (i <= k)%N /\ nth_error (u :: us) (N.to_nat (k - i)) = Some u') (matching_from (i + 1) (map entry_of us) name)
                (filter (fun u => str_eqb (ul_name u) name) us)).
  { eapply Forall2_impl; [exact (IH (i + 1)%N)|]. intros k v _ _ [L E]. split; [lia|].
    replace (N.to_nat (k - i)) with (S (N.to_nat (k - (i + 1)))) by lia. exact E. }
  change (ue_surface (entry_of u)) with (ul_name u). destruct (str_eqb (ul_name u) name); [|exact R].
  constructor; [|exact R]. split; [lia|]. rewrite N.sub_diag. reflexivity.
Qed.

Lemma lines_about_filter name us ids : lines_about name us ids ->
  Forall2 (fun k u => nth_error us (N.to_nat k) = Some u) ids (filter (fun u => str_eqb (ul_name u) name) us).
Proof.
  intros [S M]. assert (E : ids = matching_from 0 (map entry_of us) name).
  { apply increasing_unique; [exact S| |].
    - apply sorted_strictly. destruct (map entry_of us) as [|e es]; cbn [matching_from]; [exact I|].
      destruct (str_eqb (ue_surface e) name); cbn [sorted]; [apply matching_sorted; lia|].
      pose proof (matching_sorted name es (0 + 1) 0 ltac:(lia)) as A. destruct A; [exact I|assumption].
    - intros k. rewrite M, matching_in, N.sub_0_r. split; [intros H; split; [lia|exact H]|intros [_ H]; exact H]. }
  subst ids. eapply Forall2_impl; [exact (matching_filter name us 0)|]. intros k u _ _ [_ H]. rewrite N.sub_0_r in H. exact H.
Qed.

Lemma unk_entries cats content n us : Forall2 (reads_as n) (lines content) us -> Forall fits us ->
  exists d, parse_unk cats content n = Ok d /\
    forall c name, nth_error cats c = Some name -> exists ids es, ud_lookup_word_ids d c = Ok ids /\ mapM (ud_word_entry d) ids = Ok es /\
      Forall2 unk_gives (filter (fun u => str_eqb (ul_name u) name) us) es.
Proof.
  intros F FI. destruct (unk_def_spec cats content n us F FI) as (d & P & L & W). exists d. split; [exact P|].
  intros c name E. destruct (L c name E) as (ids & E1 & A). apply lines_about_filter in A. exists ids.
  assert (G : exists es, mapM (ud_word_entry d) ids = Ok es /\ Forall2 unk_gives (filter (fun u => str_eqb (ul_name u) name) us) es).
  { clear E1. induction A as [|k u ids us' H A (es & IH1 & IH2)]; [exists []; split; [reflexivity|constructor]|].
    destruct (W k u H) as (e & W1 & W2 & W3 & W4 & W5 & W6). exists (e :: es). cbn [mapM]. rewrite W1. cbn [bind]. rewrite IH1. split; [reflexivity|].
    constructor; [|exact IH2]. unfold unk_gives. repeat split; try assumption.
    destruct (we_id e) as [w s]. unfold is_unknown, is_system in *. cbn [wid wsys] in *. apply N.eqb_eq in W5. rewrite W5, W6. reflexivity. }
  destruct G as (es & G1 & G2). eauto.
Qed.

(** * The files *)

Lemma kind_fields k : unk_fields k = unk_line_fields k.
Proof. destruct k; reflexivity. Qed.
Lemma kind_options k : kind_dict_options k = source_options k.
Proof. destruct k; reflexivity. Qed.

Lemma text_read be k dir name content : text_file be k dir name content -> read_text be (kind_encoding k) (join_path dir (lit name)) = Ok content.
Proof. intros (b & E & ->). unfold read_text, read_file. rewrite E. cbn [ok_or bind]. destruct k; reflexivity. Qed.

Lemma same_lengths_spec rows : same_lengths rows = true <-> exists n, Forall (fun r : row => List.length r = n) rows.
Proof.
  destruct rows as [|r rows]; cbn [same_lengths].
  - split; [exists 0; constructor|reflexivity].
  - rewrite forallb_forall. split.
    + intros H. exists (List.length r). constructor; [reflexivity|]. apply Forall_forall. intros x I1. apply Nat.eqb_eq. auto.
    + intros (n & F). inversion F as [|? ? E F']; subst. intros x I1. apply Nat.eqb_eq. rewrite Forall_forall in F'. auto.
Qed.

Lemma rows_read be k dir S : has_sources be k dir S -> system_rows be k dir = Ok (s_rows S).
Proof.
  intros [_ _ _ (names & files & G & F & ->)]. unfold system_rows. rewrite G. cbn [bind].
  assert (E : mapM (fun name => do bytes <- read_file (be_env be) (join_path dir name);
    csv_rows (be_env be) (kind_flexible k) (match kind_encoding k with EucJp => be_transcode be bytes | Utf8 => bytes end)) names = Ok files).
  { clear G. induction F as [|name rows names files (b & E1 & E2 & E3) F IH]; cbn [mapM]; [reflexivity|].
    unfold read_file at 1. rewrite E1. cbn [ok_or bind]. 
    assert (X : csv_rows (be_env be) (kind_flexible k) (match kind_encoding k with EucJp => be_transcode be b | Utf8 => b end) = Ok rows).
    { unfold csv_rows. replace (match kind_encoding k with EucJp => be_transcode be b | Utf8 => b end) with (match k with IPADIC => be_transcode be b | _ => b end) by (destruct k; reflexivity).
      rewrite E2. cbn [bind]. destruct E3 as [->|E3]; [reflexivity|]. apply same_lengths_spec in E3. rewrite E3. destruct (kind_flexible k); reflexivity. }
    rewrite X. cbn [bind]. rewrite IH. reflexivity. }
  rewrite E. reflexivity.
Qed.

(* the build runs through and writes the parts built from the sources *)
Lemma sys_keys o rows f : build_dict o rows = Ok f -> Forall (fun kv => exists w, In w (map (sys_surface o) rows) /\ fst kv = utf8 w) (f_da f).
Proof.
  intros B. destruct (build_dict_inv _ _ _ B) as (m & HM & E & _). rewrite E.
  destruct (sys_fold_inv _ _ _ _ HM) as (ps & -> & F).
  assert (K : Forall (fun x => In (fst x) (map (sys_surface o) rows)) (push_all ps [])).
  { apply (push_all_keys (fun k => In k (map (sys_surface o) rows))); [|constructor]. apply Forall_forall. intros p I1.
    assert (X : exists ir, In ir (filter (fun ir => usable (snd ir)) (number_from 0 (sorted_rows (sys_surface o) rows))) /\ row_gives o ir p).
    { clear - F I1. induction F as [|a b l1 l2 R F IH]; [destruct I1|]. destruct I1 as [->|I1]; [exists a; split; [left|]; auto|].
      destruct (IH I1) as (ir & J & R'). exists ir. split; [right|]; auto. }
    destruct X as ([i r] & J & G). apply filter_In in J. destruct J as [J _]. apply number_from_in in J.
    destruct G as (-> & _). apply in_map. eapply Permutation_in; [symmetry; apply sorted_rows_perm|eapply nth_error_In; exact J]. }
  rewrite <- (Forall_map fst (fun key => exists w, In w (map (sys_surface o) rows) /\ key = utf8 w)), keyset_keys, Forall_map.
  eapply Forall_impl; [|exact K]. intros x I1. exists (fst x). auto.
Qed.

Lemma build_written be e k dir S C : has_sources be k dir S -> readable k S C -> yada_works be e (system_words k (s_rows S)) -> be_compress be = false ->
  exists cd u f da mb m,
    build_dictionary be k dir = Ok [(lit "char_def.bin", enc_chardef cd); (lit "unk.bin", enc_unknown u); (lit "dict.words", f_words f);
      (lit "dict.wordsidx", f_words_idx f); (lit "dict.da", da); (lit "dict.vals", f_vals f); (lit "matrix.mtx", mb)] /\
    char_def_of (s_char S) = Ok cd /\ chardef_in_range cd /\
    parse_unk (categories cd) (s_unk S) (unk_line_fields k) = Ok u /\ unknown_in_range u /\
    build_dict (source_options k) (s_rows S) = Ok f /\ e_da e da = f_da f /\
    build_matrix (s_matrix S) = Ok mb /\
    cm_load mb = Ok m /\ cm_backward m = c_bsize C /\ forall x y, (x < c_fsize C)%N -> (y < c_bsize C)%N -> cm_cost m x y = Ok (matrix_cost (c_entries C) x y).
Proof.
  intros HS R Y NC. destruct (char_def_categories _ _ (rd_char _ _ _ R)) as (cd & CD & CN & _).
  assert (CR : chardef_in_range cd) by exact (chardef_built_in_range _ _ _ (rd_char _ _ _ R) CD (rd_names _ _ _ R) (rd_char_size _ _ _ R)).
  destruct (unk_entries (categories cd) (s_unk S) (unk_line_fields k) (c_unk C) (rd_unk _ _ _ R) (rd_unk_fits _ _ _ R)) as (u & U & _).
  assert (UR : unknown_in_range u).
  { eapply unk_built_in_range; [exact (rd_unk _ _ _ R)|exact U|exact (rd_unk_size _ _ _ R)|]. rewrite CN.
    pose proof (rd_char_size _ _ _ R) as SZ. pose proof (all_mentions_size (c_char C)). pose proof (nub_length (flat_map mentions (c_char C))).
    change (2 ^ 62)%N with 4611686018427387904%N in SZ. change (2 ^ 63)%N with 9223372036854775808%N. lia. }
  pose proof (rd_rows _ _ _ R) as LM.
  assert (BD : exists f, build_dict (source_options k) (s_rows S) = Ok f).
  { destruct (sys_build_outcome (source_options k) (s_rows S) (sr_bytes _ _ LM)) as [B _].
    - eapply Forall_impl; [|exact (sr_details _ _ LM)]. intros r H. cbn beta in H. destruct r; [cbn in H; lia|discriminate].
    - apply B.
      + eapply Forall_impl; [|exact (sr_details _ _ LM)]. intros r H. cbn beta in H. lia.
      + destruct (rd_numbers _ _ _ R) as [->|H]; [left; reflexivity|right; exact H]. }
  destruct BD as (f & BD). destruct (sys_built_any _ _ _ LM BD (ConnMatrix [] 0) cd u) as (tbl & _ & TI & _).
  destruct (Y _ TI (sys_keys _ _ _ BD)) as (da & Y1 & Y2).
  destruct (rd_sizes _ _ _ R) as [[_ Z1] [_ Z2]].
  destruct (matrix_round_trip_backward _ _ Z1 Z2 _ _ (rd_matrix _ _ _ R) (rd_entries _ _ _ R)) as (mb & m & M1 & M2 & M3 & M4).
  exists cd, u, f, da, mb, m.
  assert (W : forall b, written be b = Ok b) by (intros b; unfold written, compress_write; rewrite NC; reflexivity).
  split; [|auto 13].
  unfold build_dictionary, build_chardef_file, build_unk_file, build_dict_files, build_matrix_file.
  rewrite (text_read _ _ _ _ _ (hs_char _ _ _ _ HS)). cbn [bind]. rewrite CD. cbn [bind]. rewrite W. cbn [bind].
  replace (unwrapped k (Ok (cd, enc_chardef cd))) with (Ok (cd, enc_chardef cd)) by (destruct k; reflexivity). cbn [bind].
  rewrite (text_read _ _ _ _ _ (hs_unk _ _ _ _ HS)). cbn [bind]. rewrite kind_fields, U. cbn [bind]. rewrite W.
  replace (unwrapped k (Ok (enc_unknown u))) with (Ok (enc_unknown u)) by (destruct k; reflexivity). cbn [bind].
  rewrite (rows_read _ _ _ _ HS). cbn [bind]. rewrite kind_options, BD. cbn [bind]. rewrite !W. cbn [bind]. rewrite Y1. cbn [ok_or bind]. rewrite W. cbn [bind].
  match goal with |- context [unwrapped k (Ok ?x)] => replace (unwrapped k (Ok x)) with (Ok x) by (destruct k; reflexivity) end. cbn [bind].
  rewrite (text_read _ _ _ _ _ (hs_matrix _ _ _ _ HS)). cbn [bind]. rewrite M1. cbn [bind]. rewrite W.
  replace (unwrapped k (Ok mb)) with (Ok mb) by (destruct k; reflexivity). reflexivity.
Qed.

Lemma files_load e out cd u f da mb m :
  files_at e out [(lit "char_def.bin", enc_chardef cd); (lit "unk.bin", enc_unknown u); (lit "dict.words", f_words f);
      (lit "dict.wordsidx", f_words_idx f); (lit "dict.da", da); (lit "dict.vals", f_vals f); (lit "matrix.mtx", mb)] ->
  chardef_in_range cd -> unknown_in_range u -> e_da e da = f_da f -> cm_load mb = Ok m ->
  load_dictionary e out = Ok (sys_dictionary f m cd u).
Proof.
  intros FA CR UR DA ML. unfold load_dictionary, read_file.
  rewrite (FA (lit "dict.da") da) by (cbn [In]; tauto). cbn [ok_or bind].
  rewrite (FA (lit "dict.vals") (f_vals f)) by (cbn [In]; tauto). cbn [ok_or bind].
  rewrite (FA (lit "matrix.mtx") mb) by (cbn [In]; tauto). cbn [ok_or bind]. rewrite ML. cbn [bind].
  rewrite (FA (lit "char_def.bin") (enc_chardef cd)) by (cbn [In]; tauto). cbn [ok_or bind].
  rewrite (proj2 (chardef_reload cd [] CR)). cbn [bind].
  rewrite (FA (lit "unk.bin") (enc_unknown u)) by (cbn [In]; tauto). cbn [ok_or bind].
  rewrite (proj2 (unknown_reload u [] UR)). cbn [bind].
  rewrite (FA (lit "dict.wordsidx") (f_words_idx f)) by (cbn [In]; tauto). cbn [ok_or bind].
  rewrite (FA (lit "dict.words") (f_words f)) by (cbn [In]; tauto). cbn [ok_or bind]. rewrite DA. reflexivity.
Qed.

Lemma matrix_cost_i16 fsize bsize entries f b : entries_fit fsize bsize entries -> is_i16 (matrix_cost entries f b).
Proof.
  induction 1 as [|[[x y] c] rest (H1 & H2 & H3) F IH]; cbn [matrix_cost]; [unfold is_i16; lia|].
  destruct (existsb _ rest); [exact IH|]. destruct (_ && _); [exact H3|unfold is_i16; lia].
Qed.

Lemma sys_numbers_i16 r c l rr : sys_numbers r = Some (c, l, rr) -> is_i16 c.
Proof.
  unfold sys_numbers. destruct r as [|f0 [|f1 [|f2 [|f3 r]]]]; try discriminate.
  destruct (parse_i16 (trim f3)) as [z|] eqn:E; [|discriminate]. destruct (parse_u16 (trim f1)); [|discriminate]. destruct (parse_u16 (trim f2)); [|discriminate].
  intros X. injection X as <- <- <-. apply parse_int_range in E. exact E.
Qed.

Lemma Forall2_in_r {A B} (R : A -> B -> Prop) l1 l2 y : Forall2 R l1 l2 -> In y l2 -> exists x, In x l1 /\ R x y.
Proof. induction 1 as [|a b l1 l2 H F IH]; cbn [In]; [contradiction|]. intros [<-|I1]; [eauto|]. destruct (IH I1) as (x & ? & ?). eauto. Qed.
Lemma Forall2_in_l {A B} (R : A -> B -> Prop) l1 l2 x : Forall2 R l1 l2 -> In x l1 -> exists y, In y l2 /\ R x y.
Proof. induction 1 as [|a b l1 l2 H F IH]; cbn [In]; [contradiction|]. intros [<-|I1]; [eauto|]. destruct (IH I1) as (y & ? & ?). eauto. Qed.

Theorem built_dictionary be e k dir S C : has_sources be k dir S -> readable k S C -> yada_works be e (system_words k (s_rows S)) -> be_compress be = false ->
  exists files, build_dictionary be k dir = Ok files /\
    forall out, files_at e out files -> exists d A, load_dictionary e out = Ok d /\ says k S C d A /\ forall m, represents (Tokenizer d None m) A.
Proof.
  intros HS R Y NC. destruct (build_written be e k dir S C HS R Y NC) as (cd & u & f & da & mb & m & B & CD & CR & U & UR & BD & DA & _ & ML & _ & MC).
  eexists. split; [exact B|]. intros out FA. pose proof (files_load e out cd u f da mb m FA CR UR DA ML) as LD.
  pose proof (rd_rows _ _ _ R) as LM. destruct (sys_built_any _ _ _ LM BD m cd u) as (tbl & DM & _ & _ & SF).
  destruct (char_def_definitions _ _ _ (rd_char _ _ _ R) (rd_defined _ _ _ R) CD) as (CN & DF).
  destruct (char_def_categories _ _ (rd_char _ _ _ R)) as (cd' & CD' & _ & LK). rewrite CD in CD'. injection CD' as <-.
  destruct (unk_entries (categories cd) (s_unk S) (unk_line_fields k) (c_unk C) (rd_unk _ _ _ R) (rd_unk_fits _ _ _ R)) as (u' & U' & UE).
  rewrite U in U'. injection U' as <-.
  set (defs := flat_map defines (c_char C)) in *.
  set (cats := fun c => match lookup_categories cd c with Ok l => l | _ => [] end).
  set (unk := fun id => match nth_error defs id with None => [] | Some _ =>
    match ud_lookup_word_ids u id with Ok ids => match mapM (ud_word_entry u) ids with Ok es => es | _ => [] end | _ => [] end end).
  set (data := fun id => match nth_error defs id with Some (_, x) => x | None => CategoryData false false 0 end).
  set (A := ADict tbl [] cats (fun id => cd_invoke (data id)) (fun id => cd_group (data id)) unk (matrix_cost (c_entries C)) (c_fsize C) (c_bsize C)).
  assert (CATS : forall c, lookup_categories cd c = Ok (cats c) /\
    Forall2 (fun id name => exists x, nth_error defs id = Some (name, x)) (cats c) (categories_of (c_char C) c)).
  { intros c. destruct (LK binary_search c binary_search_contract) as (ids & L1 & L2). change (lt_eval_with binary_search (cds_mapping cd) c) with (lookup_categories cd c) in L1.
    unfold cats. rewrite L1. split; [reflexivity|]. apply mapM_ok_inv in L2. eapply Forall2_impl; [exact L2|]. intros id name _ _ H.
    unfold category_name, idx in H. fold (categories cd) in H. rewrite CN, nth_error_map in H. destruct (nth_error defs id) as [[n x]|]; [|discriminate].
    cbn [option_map ok_or] in H. injection H as <-. eauto. }
  assert (UNK : forall id name x, nth_error defs id = Some (name, x) -> exists ids, ud_lookup_word_ids u id = Ok ids /\ mapM (ud_word_entry u) ids = Ok (unk id) /\
    Forall2 unk_gives (filter (fun u => str_eqb (ul_name u) name) (c_unk C)) (unk id)).
  { intros id name x E. destruct (UE id name) as (ids & es & U1 & U2 & U3).
    - fold (categories cd). rewrite CN, nth_error_map, E. reflexivity.
    - exists ids. unfold unk. rewrite E, U1, U2. auto. }
  exists (sys_dictionary f m cd u), A. split; [exact LD|]. split.
  - constructor.
    + exact SF.
    + reflexivity.
    + intros c _. exact (proj2 (CATS c)).
    + intros id name x E. destruct (UNK id name x E) as (ids & _ & _ & U3). unfold A, data. cbn [a_invoke a_group a_unk]. fold defs in E. rewrite E. auto.
    + intros id E. unfold A, unk. cbn [a_unk]. fold defs in E. rewrite E. reflexivity.
    + reflexivity.
    + split; reflexivity.
  - intros md. constructor; cbn [t_dictionary t_user A sys_dictionary d_dict d_chardef d_unknown d_matrix a_sys a_usr a_cats a_invoke a_group a_unk a_conn a_fsize a_bsize].
    + exact DM.
    + reflexivity.
    + intros c _. exact (proj1 (CATS c)).
    + intros c id _ I1. destruct (Forall2_in_l _ _ _ _ (proj2 (CATS c)) I1) as (name & _ & x & E).
      destruct (DF id name x E) as [_ D]. unfold data. rewrite E. exists (cd_length x). rewrite D. destruct x; reflexivity.
    + intros c id _ I1. destruct (Forall2_in_l _ _ _ _ (proj2 (CATS c)) I1) as (name & _ & x & E).
      destruct (UNK id name x E) as (ids & U1 & U2 & _). eauto.
    + intros x y L1 L2. split; [apply MC; assumption|]. eapply matrix_cost_i16. exact (rd_entries _ _ _ R).
    + destruct (rd_sizes _ _ _ R). lia.
    + intros s w I1. destruct (found_of_in _ _ _ _ (SF s) I1) as (r & I2 & (N & _)). unfold sys_rows_for in I2. apply filter_In in I2.
      pose proof (rd_row_ids _ _ _ R) as RI. rewrite Forall_forall in RI. destruct (RI r (proj1 I2) _ _ _ N).
      unfold entry_ok. cbn [a_fsize a_bsize]. repeat split; try assumption; apply (sys_numbers_i16 _ _ _ _ N).
    + intros s w I1. cbn in I1. contradiction.
    + intros c id w _ I1 I2. destruct (Forall2_in_l _ _ _ _ (proj2 (CATS c)) I1) as (name & _ & x & E).
      destruct (UNK id name x E) as (ids & _ & _ & U3). destruct (Forall2_in_r _ _ _ _ U3 I2) as (l & I3 & G1 & G2 & G3 & _).
      apply filter_In in I3. pose proof (rd_unk_ids _ _ _ R) as RI. rewrite Forall_forall in RI. destruct (RI l (proj1 I3)).
      pose proof (rd_unk_fits _ _ _ R) as RF. rewrite Forall_forall in RF. destruct (RF l (proj1 I3)) as (_ & _ & F3).
      unfold entry_ok. cbn [a_fsize a_bsize]. rewrite G1, G2, G3. repeat split; try assumption; apply F3.
Qed.

Lemma categories_of_mentions ds c name : In name (categories_of ds c) -> In name (flat_map mentions ds).
Proof.
  unfold categories_of. assert (G : forall n, In n (nub (flat_map (gives c) ds)) -> In n (flat_map mentions ds)).
  { intros n I1. apply nub_incl in I1. rewrite in_flat_map in *. destruct I1 as (d & I1 & I2). exists d. split; [exact I1|].
    destruct d; cbn [gives mentions] in *; [destruct (_ && _); [exact I2|contradiction]|contradiction]. }
  destruct (nub (flat_map (gives c) ds)) as [|n ns]; [|apply G]. destruct (existsb _ _) eqn:E; [|contradiction].
  intros [<-|[]]. apply existsb_str. exact E.
Qed.

Lemma says_covered k S C d A text : says k S C d A -> valid_str text -> complete C -> covered A text.
Proof.
  intros SY V (D & U) c I1. assert (VC : valid_char c) by (unfold valid_str in V; rewrite Forall_forall in V; auto).
  pose proof (sy_categories _ _ _ _ _ SY c VC) as F. split.
  - intros E. rewrite E in F. assert (X : categories_of (c_char C) c = []) by (inversion F; reflexivity). unfold categories_of in X. destruct (nub (flat_map (gives c) (c_char C))); [|discriminate].
    rewrite (proj2 (existsb_str _ _) D) in X. discriminate.
  - intros id I2. destruct (Forall2_in_l _ _ _ _ F I2) as (name & I3 & x & E).
    destruct (sy_definitions _ _ _ _ _ SY id name x E) as (_ & _ & G). apply categories_of_mentions in I3.
    specialize (U name I3). apply Exists_exists in U. destruct U as (u & I4 & N).
    assert (I5 : In u (filter (fun u => str_eqb (ul_name u) name) (c_unk C))) by (apply filter_In; split; [exact I4|apply str_eqb_true; exact N]).
    intros Z. rewrite Z in G. destruct (Forall2_in_l _ _ _ _ G I5) as (w & [] & _).
Qed.

Theorem built_tokenizer be e k dir S C : has_sources be k dir S -> readable k S C -> yada_works be e (system_words k (s_rows S)) -> be_compress be = false -> complete C ->
  exists files, build_dictionary be k dir = Ok files /\
    forall out, files_at e out files -> exists d, load_dictionary e out = Ok d /\
      forall m text, valid_str text -> exists ts, tokenize (Tokenizer d None m) text = Some (Ok ts) /\ tiles text ts.
Proof.
  intros HS R Y NC CO. destruct (built_dictionary be e k dir S C HS R Y NC) as (files & B & L). exists files. split; [exact B|].
  intros out FA. destruct (L out FA) as (d & A & LD & SY & RP). exists d. split; [exact LD|]. intros m text V.
  exact (tokenize_tiles _ _ (RP m) text V (says_covered _ _ _ _ _ _ SY V CO)).
Qed.
