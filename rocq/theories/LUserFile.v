(** Proofs about saved user dictionaries. *)
From Coq Require Import String.
From Coq Require Import List NArith ZArith Bool Lia ZifyBool ZifyNat ZifyN Permutation.
From Verif Require Import MBase MUtf8 MText MCodec MDict MCharDef MUnk MBincode MLattice MTokenizer MDetails MBuild MConfig MBuilders
  STok SBuild SMatrix SCharDef SUnk SData SConfig SBuilders LBase LUtf8 LCodec LBuild LSysDict LUserDict LKinds LBincode LData LConfig LCli LBuilders.
Import ListNotations.
Local Open Scope list_scope.

Lemma bytes_flat_map {A} (f : A -> list N) l : (forall x, In x l -> Forall is_byte (f x)) -> Forall is_byte (flat_map f l).
Proof.
  intros H. induction l as [|x l IH]; cbn [flat_map]; [constructor|]. apply Forall_app. split; [apply H; left; reflexivity|].
  apply IH. intros y I1. apply H. right. exact I1.
Qed.
Lemma we_serialize_byte e : Forall is_byte (we_serialize e).
Proof. unfold we_serialize. repeat (apply Forall_app; split); apply le_bytes_byte. Qed.
Lemma we_serialize_length e : List.length (we_serialize e) = 10.
Proof. unfold we_serialize, i16_bytes. rewrite !app_length, !le_bytes_length. reflexivity. Qed.
Lemma entry_values_byte m : Forall is_byte (entry_values m).
Proof. rewrite entry_values_flat. apply bytes_flat_map. intros e _. apply we_serialize_byte. Qed.
Lemma index_bytes_byte chunks : Forall is_byte (index_bytes chunks).
Proof. unfold index_bytes. apply bytes_flat_map. intros i _. apply le_bytes_byte. Qed.
Lemma enc_string_byte s : valid_str s -> Forall is_byte (enc_string s).
Proof.
  intros V. unfold enc_string, enc_bytes, enc_vec, enc_uint. apply Forall_app. split; [apply le_bytes_byte|].
  apply bytes_flat_map. intros b I1. unfold enc_byte. constructor; [|constructor]. pose proof (utf8_bytes s V) as F. rewrite Forall_forall in F. auto.
Qed.
Lemma user_chunk_byte o r : (forall ds, user_row_details o r = Some ds -> Forall valid_str ds) -> Forall is_byte (user_chunk o r).
Proof.
  unfold user_chunk. destruct (user_row_details o r) as [ds|]; [|constructor]. intros V. specialize (V ds eq_refl).
  unfold enc_vec, enc_uint. apply Forall_app. split; [apply le_bytes_byte|]. apply bytes_flat_map. intros s I1. apply enc_string_byte.
  rewrite Forall_forall in V. auto.
Qed.

Lemma user_saved o rows d da : user_room o rows -> build_user o rows = Ok d -> Forall is_byte da -> short da ->
  user_in_range (UserFile da (pd_vals (u_dict d)) (pd_system (u_dict d)) (u_words_idx d) (u_words d)).
Proof.
  intros L B D1 D2. destruct (build_user_inv _ _ _ B) as (m & _ & E1 & E2 & E3 & _).
  destruct (user_built_table o rows d L B) as (m' & T1 & _ & _ & T4 & _ & _).
  assert (V : Forall (fun r => Forall is_byte (user_chunk o r)) (sorted_rows (hd []) rows)).
  { apply Forall_forall. intros r I1. apply user_chunk_byte. pose proof (ur_valid _ _ L) as F. rewrite Forall_forall in F. apply F.
    eapply Permutation_in; [apply Permutation_sym, sorted_rows_perm|exact I1]. }
  pose proof (Permutation_length (sorted_rows_perm (hd []) rows)) as SL.
  unfold user_in_range. cbn [uf_da uf_vals uf_words_idx uf_words]. repeat apply Forall_cons; try apply Forall_nil.
  - auto.
  - rewrite T1. cbn [pd_vals]. split; [apply entry_values_byte|]. unfold short. rewrite entry_values_flat, (flat_map_const_length _ 10) by apply we_serialize_length. lia.
  - rewrite E3. split; [apply index_bytes_byte|]. unfold short. rewrite index_bytes_length, map_length, <- SL. pose proof (ur_count _ _ L). lia.
  - rewrite E2. split.
    + rewrite <- flat_map_concat_map. apply bytes_flat_map. rewrite Forall_forall in V. exact V.
    + unfold short. rewrite user_chunks_length. pose proof (ur_bytes _ _ L) as T. rewrite (total_perm _ _ _ (sorted_rows_perm (hd []) rows)) in T. lia.
Qed.

Lemma user_keys o rows d : build_user o rows = Ok d -> Forall (fun kv => exists w, In w (map (hd []) rows) /\ fst kv = utf8 w) (pd_da (u_dict d)).
Proof.
  intros B. destruct (build_user_inv _ _ _ B) as (m & HM & E & _). rewrite E. cbn [pd_da].
  destruct (user_fold_inv _ _ _ _ HM) as (ps & -> & F).
  assert (K : Forall (fun x => In (fst x) (map (hd []) rows)) (push_all ps [])).
  { apply (push_all_keys (fun k => In k (map (hd []) rows))); [|constructor]. apply Forall_forall. intros p I1.
    assert (X : exists ir, In ir (number_from 0 (sorted_rows (hd []) rows)) /\ user_gives o ir p).
    { clear - F I1. induction F as [|a b l1 l2 R F IH]; [destruct I1|]. destruct I1 as [->|I1]; [exists a; split; [left|]; auto|].
      destruct (IH I1) as (ir & J & R'). exists ir. split; [right|]; auto. }
    destruct X as ([i r] & J & G). apply number_from_in in J.
    destruct G as (-> & _). apply in_map with (f := hd []). eapply Permutation_in; [symmetry; apply sorted_rows_perm|eapply nth_error_In; exact J]. }
  rewrite <- (Forall_map fst (fun key => exists w, In w (map (hd []) rows) /\ key = utf8 w)), keyset_keys, Forall_map.
  eapply Forall_impl; [|exact K]. intros x I1. exists (fst x). auto.
Qed.

Lemma user_rows_read e k path rows : user_csv e k path rows ->
  build_user_dict e k path = build_user (kind_user_options k) rows.
Proof.
  intros (b & E1 & E2 & E3). unfold build_user_dict, read_file, csv_rows. rewrite E1. cbn [ok_or bind]. rewrite E2. cbn [bind].
  destruct E3 as [->|[->|H]]; [reflexivity|reflexivity|]. apply same_lengths_spec in H. rewrite H. destruct (kind_user_flexible k); reflexivity.
Qed.

Theorem user_file_loads be e k path rows : user_readable (be_env be) k path rows -> yada_works be e (user_words rows) -> yada_bytes be ->
  exists d file, build_user (kind_user_options k) rows = Ok d /\ load_user_dictionary_from_csv (be_env be) k path = Ok d /\
    build_user_file be k path = Ok file /\
    forall p, e_read e p = Some file -> load_user_dictionary_from_bin e p = Ok d.
Proof.
  intros [UC UL LE UA] Y YB. destruct (proj1 (kind_build_outcome k rows LE) UA) as (d & B).
  destruct (user_built_any _ _ _ UL B) as (tbl & _ & TI & _). destruct (Y _ TI (user_keys _ _ _ B)) as (da & Y1 & Y2). destruct (YB _ _ Y1) as [D1 D2].
  pose proof (user_rows_read _ _ _ _ UC) as RR. rewrite B in RR.
  exists d. eexists. split; [exact B|]. split; [unfold load_user_dictionary_from_csv; rewrite RR; reflexivity|]. split.
  - unfold build_user_file. rewrite RR. cbn [bind]. rewrite Y1. cbn [ok_or bind]. reflexivity.
  - intros p E. unfold load_user_dictionary_from_bin, read_file. rewrite E. cbn [ok_or bind].
    rewrite (proj2 (user_reload _ [] (user_saved _ _ _ _ UL B D1 D2))). cbn [bind uf_da uf_vals uf_system uf_words_idx uf_words]. rewrite Y2.
    destruct d as [[x y z] i w]. reflexivity.
Qed.

Lemma with_extension_of name ext ext' : name <> [] -> ~ In 46%N ext -> with_extension (name ++ [46%N] ++ ext) ext' = name ++ [46%N] ++ ext'.
Proof.
  intros N E. unfold with_extension, file_stem. change (name ++ [46%N] ++ ext) with (name ++ 46%N :: ext).
  rewrite split_char_app, (split_char_none 46%N ext) by exact E.
  rewrite rev_app_distr. cbn [rev app]. destruct (rev (split_char 46%N name)) as [|p ps] eqn:R.
  - exfalso. apply (f_equal (@rev str)) in R. rewrite rev_involutive in R. pose proof (join_split 46%N name) as J. rewrite R in J. exact (N (eq_sym J)).
  - change (rev ps ++ [p]) with (rev (p :: ps)). rewrite <- R, rev_involutive, join_split. destruct name; [congruence | reflexivity].
Qed.

Lemma join_path_dir dest name : exists dir, join_path dest name = dir ++ name /\ (dir = [] \/ exists d, dir = d ++ [47%N]).
Proof.
  unfold join_path. destruct dest as [|c dest]; [exists []; auto|]. cbn [is_nil orb]. destruct (ends_with_char (c :: dest) 47%N) eqn:E.
  - exists (c :: dest). split; [reflexivity|]. right. revert E. unfold ends_with_char.
    destruct (rev (c :: dest)) as [|x r] eqn:R; [discriminate|]. intros E. apply N.eqb_eq in E. subst x.
    exists (rev r). apply (f_equal (@rev _)) in R. rewrite rev_involutive in R. exact R.
  - exists ((c :: dest) ++ [47%N]). rewrite <- app_assoc. split; [reflexivity|]. right. eexists. reflexivity.
Qed.

Theorem cli_user_build be e k dir name dest rows : 
  dir = [] \/ (exists d, dir = d ++ [47%N]) -> name <> [] -> ~ In 47%N name ->
  let src := dir ++ name ++ lit ".csv" in let out := join_path dest (name ++ lit ".bin") in
  user_readable (be_env be) k src rows -> yada_works be e (user_words rows) -> yada_bytes be ->
  exists d file, cli_build be true k src dest = Ok [(out, file)] /\
    load_user_dictionary_from_config (be_env be) (UserDictionaryConfig src (Some k)) = Ok d /\
    (e_read e out = Some file -> forall k', load_user_dictionary_from_config e (UserDictionaryConfig out k') = Ok d).
Proof.
  intros D N1 N2 src out UR Y YB. destruct (user_file_loads be e k src rows UR Y YB) as (d & file & _ & B2 & B3 & B4).
  exists d, file. split; [|split].
  - unfold cli_build. unfold src at 1. rewrite file_name_of.
    + rewrite B3. cbn [bind]. unfold out. change (lit ".csv") with ([46%N] ++ lit "csv"). rewrite with_extension_of; [reflexivity|exact N1|].
      vm_compute. intuition discriminate.
    + exact D.
    + intros H. apply in_app_or in H. destruct H as [H|H]; [exact (N2 H)|]. vm_compute in H. intuition discriminate.
    + rewrite app_length. cbn [List.length lit]. change (List.length (lit ".csv")) with 4. lia.
  - assert (FE : file_with_extension src (lit "csv")); [|rewrite (proj1 (user_dictionary_csv (be_env be) src k FE)); exact B2].
    exists dir, name. repeat match goal with |- _ /\ _ => split end; [reflexivity|exact D|exact N1|discriminate|exact N2| |]; vm_compute; intuition discriminate.
  - intros R k'. rewrite user_dictionary_bin; [exact (B4 _ R)|]. unfold out. destruct (join_path_dir dest (name ++ lit ".bin")) as (dd & -> & DD).
    exists dd, name. repeat match goal with |- _ /\ _ => split end; [reflexivity|exact DD|exact N1|discriminate|exact N2| |]; vm_compute; intuition discriminate.
Qed.
