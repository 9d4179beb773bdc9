(** Example dictionaries with other words for the theorems in PFrame.v. *)
From Coq Require Import String.
From Coq Require Import List NArith ZArith Bool Lia ZifyBool ZifyNat ZifyN.
From Verif Require Import MBase MUtf8 MText MCodec MDict MCharDef MUnk MBincode MLattice MTokenizer MDetails MBuild MCharFilter MConfig MBuilders
  STok SBuild SMatrix SCharDef SUnk SData SConfig SBuilders SFrame LUtf8 LCodec LCharDef LBuild XBuild XData XConfig XBuilders.
Import ListNotations.
Local Open Scope string_scope.
Local Open Scope list_scope.

(* the example sources with other rows *)
Definition rows_src (rows : list row) : sources := Sources src_char src_unk src_matrix rows.
Definition rows_env (rows : list row) : build_env :=
  let e := file_env src_files in
  BuildEnv (Env (e_parse e) (e_pretty e) (e_regex e) (e_graphemes e) (e_form e) (e_lower e) (e_upper e) (e_kana e) (e_block e) (e_embedded e)
      (e_read e) (e_da e) (fun _ => Ok rows))
    (fun _ b => b) (fun b => b) (fun _ => Ok [lit "words.csv"]) sample_yada codecs_sample false.

Definition row_fine (r : row) : bool :=
  Nat.eqb (List.length r) 5 && negb (is_nil (hd [] r)) && forallb no_nulb r && forallb (forallb valid_charb) r &&
  match sys_numbers r with Some (_, l, rr) => (l <? 2)%N && (rr <? 2)%N | None => false end.
Definition rows_fine (rows : list row) : bool :=
  negb (is_nil rows) && forallb row_fine rows && (N.of_nat (List.length rows) <? 67108864)%N &&
  (N.of_nat (total (sys_row_size (source_options IPADIC)) rows) <? 4294967296)%N.

Lemma rows_fine_all rows : rows_fine rows = true -> rows <> [] /\ Forall (fun r => List.length r = 5 /\ hd [] r <> [] /\ Forall no_nul r /\ Forall valid_str r /\
  exists c l rr, sys_numbers r = Some (c, l, rr) /\ (l < 2)%N /\ (rr < 2)%N) rows /\ (N.of_nat (List.length rows) < 67108864)%N /\
  (N.of_nat (total (sys_row_size (source_options IPADIC)) rows) < 4294967296)%N.
Proof.
  unfold rows_fine. rewrite !andb_true_iff. intros (((H1 & H2) & H3) & H4). split; [destruct rows; [discriminate H1|discriminate]|].
  split; [|split; lia]. rewrite forallb_forall in H2. apply Forall_forall. intros r I1. specialize (H2 r I1). unfold row_fine in H2. rewrite !andb_true_iff in H2.
  destruct H2 as ((((G1 & G2) & G3) & G4) & G5). apply Nat.eqb_eq in G1. split; [exact G1|]. split; [destruct (hd [] r); [discriminate G2|discriminate]|].
  rewrite forallb_forall in G3, G4. split; [apply Forall_forall; intros f I2; apply no_nulb_spec, G3, I2|]. split.
  - apply Forall_forall. intros f I2. specialize (G4 f I2). rewrite forallb_forall in G4. apply Forall_forall. intros c I3. apply valid_charb_iff, G4, I3.
  - destruct (sys_numbers r) as [[[c l] rr]|]; [|discriminate]. apply andb_true_iff in G5. exists c, l, rr. split; [reflexivity|]. lia.
Qed.

Lemma rows_readable rows : rows_fine rows = true -> readable IPADIC (rows_src rows) src_content.
Proof.
  intros H. destruct (rows_fine_all rows H) as (H1 & H2 & H3 & H4). destruct src_readable as [R1 R2 R3 R4 R5 R6 R7 R8 R9 R10 R11 R12 R13 R14].
  constructor; try assumption; cbn [rows_src s_rows].
  - constructor; try assumption.
    + destruct rows as [|r rows]; [congruence|]. left. inversion H2 as [|? ? (_ & _ & _ & _ & c & l & rr & E & _) _]. congruence.
    + eapply Forall_impl; [|exact H2]. intros r (_ & _ & _ & G & _). exact G.
    + eapply Forall_impl; [|exact H2]. intros r (G & _). unfold row, str, char in *. lia.
    + eapply Forall_impl; [|exact H2]. intros r (G1 & G2 & G3 & _). split; [exact G2|]. destruct r; [discriminate G1|]. inversion G3; assumption.
    + eapply Forall_impl; [|exact H2]. intros r (_ & _ & G3 & _). apply Forall_forall. intros f I1. rewrite Forall_forall in G3. apply G3.
      rewrite <- (firstn_skipn 4 r). apply in_or_app. right. exact I1.
  - right. eapply Forall_impl; [|exact H2]. intros r (_ & _ & _ & _ & c & l & rr & E & _). congruence.
  - eapply Forall_impl; [|exact H2]. intros r (_ & _ & _ & _ & c & l & rr & E & G1 & G2) c' l' rr' E'. rewrite E in E'. injection E' as <- <- <-. auto.
Qed.

Lemma rows_sources rows : rows_fine rows = true -> has_sources (rows_env rows) IPADIC (lit "in") (rows_src rows).
Proof.
  intros H. destruct (rows_fine_all rows H) as (_ & H2 & _). split; try (eexists; split; vm_compute; reflexivity).
  exists [lit "words.csv"], [rows]. split; [reflexivity|]. split; [|cbn [rows_src s_rows concat]; rewrite app_nil_r; reflexivity]. constructor; [|constructor].
  exists [1%N]. split; [vm_compute; reflexivity|]. split; [reflexivity|]. right. exists 5. eapply Forall_impl; [|exact H2]. intros r (G & _). exact G.
Qed.

Definition rows_built (rows : list row) : list (str * list N) :=
  match build_dictionary (rows_env rows) IPADIC (lit "in") with Ok f => f | _ => [] end.
Definition rows_loaded (rows : list row) : res dictionary := load_dictionary (file_env (put (lit "out") (rows_built rows))) (lit "out").

Lemma rows_from rows d : rows_fine rows = true -> few_short (system_words IPADIC rows) = true ->
  build_dictionary (rows_env rows) IPADIC (lit "in") = Ok (rows_built rows) -> map fst (rows_built rows) = map fst (src_built false) -> rows_loaded rows = Ok d ->
  loaded_from IPADIC (rows_src rows) d.
Proof.
  intros H FS B N L. exists (rows_env rows), (file_env (put (lit "out") (rows_built rows))), (lit "in"), (lit "out"), (rows_built rows).
  split; [apply rows_sources, H|]. split; [exists src_content; apply rows_readable, H|]. split; [exact (sample_yada_works false src_files _ _ FS)|].
  split; [reflexivity|]. split; [exact B|]. split; [apply put_files_at; rewrite N; apply src_built_names|exact L].
Qed.
