(** The words in the lattice of a sentence, stated for the lattice that set_text returns. *)
From Coq Require Import List NArith ZArith Bool Lia ZifyBool ZifyNat ZifyN.
From Verif Require Import MBase MUtf8 MText MCodec MDict MCharDef MUnk MLattice MTokenizer STok LBase LUtf8 LScan LLat LVit LSeg LCon LUnk.
Import ListNotations.
Ltac Zify.zify_post_hook ::= Z.div_mod_to_equations.

Lemma kanji_only k : is_kanji_only k = forallb kanji k.
Proof. induction k as [|c k IH]; [reflexivity|]. cbn [is_kanji_only forallb]. unfold is_kanji_only in IH. rewrite IH. reflexivity. Qed.

Lemma penalty_wide p e k :
  e_stop e = e_start e + blen k -> e_kanji e = forallb kanji k ->
  (Z.of_nat (blen k / 3) - Z.min (Z.of_N (kanji_threshold p)) (Z.of_N (other_threshold p)) <= 2147483647)%Z ->
  is_i32 (surface_penalty (Decompose p) k) ->
  penalty_cost (Decompose p) e = surface_penalty (Decompose p) k.
Proof.
  intros S K SM W. cbn [penalty_cost]. unfold penalty_of, num_chars. rewrite S, K.
  replace (e_start e + blen k - e_start e) with (blen k) by lia.
  unfold surface_penalty in *. cbv zeta in *.
  set (n := blen k / 3) in *. 
  destruct (N.leb_spec (N.of_nat n) (kanji_threshold p)) as [L|L].
  - destruct (Z.leb_spec (Z.of_nat n) (Z.of_N (kanji_threshold p))); [reflexivity|lia].
  - destruct (Z.leb_spec (Z.of_nat n) (Z.of_N (kanji_threshold p))); [lia|].
    destruct (forallb kanji k).
    + rewrite (wrap32_id (Z.of_N _)); [|unfold is_i32; lia].
      rewrite N2Z.inj_sub, nat_N_Z by lia. apply wrap32_id. exact W.
    + destruct (N.ltb_spec (other_threshold p) (N.of_nat n)) as [O|O];
        destruct (Z.ltb_spec (Z.of_N (other_threshold p)) (Z.of_nat n)); try lia.
      rewrite (wrap32_id (Z.of_N _)); [|unfold is_i32; lia].
      rewrite N2Z.inj_sub, nat_N_Z by lia. apply wrap32_id. exact W.
Qed.

Lemma blen_three k : Forall (fun c => (0x800 <= c < 0x10000)%N) k -> blen k / 3 = length k.
Proof.
  intros H. replace (blen k) with (length k * 3); [apply Nat.div_mul; discriminate|].
  induction H as [|c k C H IH]; [reflexivity|]. cbn [blen length]. unfold width.
  destruct (N.ltb_spec c 0x80); [lia|]. destruct (N.ltb_spec c 0x800); [lia|]. destruct (N.ltb_spec c 0x10000); lia.
Qed.

Section Edge.
Variable t : tokenizer.
Variable A : adict.
Hypothesis R : represents t A.
Variable m : mode.
Variable s : str.
Hypothesis V : valid_str s.
Hypothesis NE : s <> [].

Lemma sentence_lattice_scan : exists l, sentence_lattice t m s = Ok l /\ word_edges l = scan A m s.
Proof.
  eexists. split; [apply (set_text_scan t A R); auto; left; auto|]. reflexivity.
Qed.

Lemma reached_reachb l p : word_edges l = scan A m s -> reached l p -> reachb (scan A m s) p = true.
Proof.
  intros E [->|(ed & I & P)]; [reflexivity|]. unfold reachb. apply orb_true_iff. right. apply existsb_exists.
  exists ed. rewrite <- E. split; [exact I|]. apply Nat.eqb_eq. exact P.
Qed.

Lemma lattice_sound l : sentence_lattice t m s = Ok l ->
  Forall (fun ed => exists pre k rest, s = pre ++ k ++ rest /\ edge_over ed pre k (e_entry ed) /\
     (e_type ed = KNOWN /\ dict_word A (k ++ rest) k (e_entry ed) \/
      e_type ed <> KNOWN /\ unknown_word A (k ++ rest) k (e_entry ed))) (word_edges l).
Proof.
  intros E. destruct sentence_lattice_scan as (l' & E' & W). rewrite E in E'. injection E' as <-. rewrite W.
  eapply Forall_impl; [|apply scan_ok]. intros ed (pre & k & rest & T & KN & S1 & S2 & S3 & _ & _ & _ & K1 & K2).
  exists pre, k, rest. split; [exact T|]. split.
  - unfold edge_over. rewrite <- kanji_only. auto.
  - destruct (e_type ed) eqn:TY; [left|right|right|right]; split; auto; try discriminate; apply K2; discriminate.
Qed.

Lemma lattice_penalty l p : m = Decompose p -> sentence_lattice t m s = Ok l ->
  Forall (fun ed => exists pre k rest, s = pre ++ k ++ rest /\ e_start ed = blen pre /\ e_stop ed = blen pre + blen k /\
    ((Z.of_nat (blen k / 3) - Z.min (Z.of_N (kanji_threshold p)) (Z.of_N (other_threshold p)) <= 2147483647)%Z ->
     is_i32 (surface_penalty m k) -> penalty_cost m ed = surface_penalty m k)) (word_edges l).
Proof.
  intros M E. eapply Forall_impl; [|exact (lattice_sound l E)]. intros ed (pre & k & rest & T & (S1 & S2 & S3 & _) & _).
  exists pre, k, rest. split; [exact T|]. split; [exact S1|]. split; [exact S2|]. rewrite M. intros H1 H2.
  apply penalty_wide; [lia|exact S3|exact H1|exact H2].
Qed.

Lemma lattice_dict_complete l pre r k e : sentence_lattice t m s = Ok l -> s = pre ++ r -> reached l (blen pre) -> dict_word A r k e ->
  exists ed, In ed (word_edges l) /\ e_type ed = KNOWN /\ edge_over ed pre k e.
Proof.
  intros E T RE D. destruct sentence_lattice_scan as (l' & E' & W). rewrite E in E'. injection E' as <-.
  exists (word_edge KNOWN (blen pre) (k, e)). rewrite W. split.
  - eapply dict_edges_present; eauto. eapply reached_reachb; eauto.
  - unfold edge_over. rewrite <- kanji_only. cbn. auto.
Qed.

Lemma lattice_unknown_complete l pre r k e : sentence_lattice t m s = Ok l -> covered A s -> s = pre ++ r -> reached l (blen pre) ->
  unknown_word A r k e ->
  (is_search m = true \/ forall ed, In ed (word_edges l) -> e_type ed <> KNOWN -> ~ (e_start ed < blen pre < e_stop ed)) ->
  exists ed, In ed (word_edges l) /\ e_type ed = UNKNOWN /\ edge_over ed pre k e.
Proof.
  intros E CV T RE U O. destruct sentence_lattice_scan as (l' & E' & W). rewrite E in E'. injection E' as <-.
  exists (word_edge UNKNOWN (blen pre) (k, e)). rewrite W in *. split.
  - eapply unk_edges_present; eauto. eapply reached_reachb; eauto.
  - unfold edge_over. rewrite <- kanji_only. cbn. auto.
Qed.
End Edge.

Lemma lattice_unknown_gap t A s l a e1 b e2 : represents t A -> valid_str s -> s <> [] -> covered A s ->
  sentence_lattice t Normal s = Ok l -> word_edges l = a ++ e1 :: b -> e_type e1 <> KNOWN ->
  (forall e, In e b -> e_type e <> KNOWN -> e_start e <> e_start e1) ->
  In e2 (word_edges l) -> e_type e2 <> KNOWN -> ~ (e_start e1 < e_start e2 < e_stop e1).
Proof.
  intros R V NE CV E W U1 LA I2 U2. destruct (sentence_lattice_scan t A R Normal s V NE) as (l' & E' & W').
  rewrite E in E'. injection E' as <-. rewrite W' in *. eapply normal_unknown_gap; eauto.
Qed.
