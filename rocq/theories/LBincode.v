(** Round trips of the bincode encodings and of compression. *)
From Coq Require Import List NArith ZArith Bool Lia ZifyBool ZifyNat ZifyN.
From Verif Require Import MBase MUtf8 MText MCodec MCharDef MUnk MBincode SData LBase LUtf8 LCodec.
Import ListNotations.
Local Open Scope list_scope.

(* dec reads back what enc writes, for the values in P, and stops there *)
Definition round_trip {A} (enc : A -> list N) (dec : decoder A) (P : A -> Prop) : Prop :=
  forall x rest, P x -> dec (enc x ++ rest) = Some (x, rest).

Lemma rt_uint n : round_trip (enc_uint n) (dec_uint n) (fun v => (v < 256 ^ N.of_nat n)%N).
Proof.
  intros v rest H. unfold dec_uint, enc_uint. rewrite app_length, le_bytes_length.
  destruct (Nat.ltb_spec (n + length rest) n); [lia|].
  pose proof (le_bytes_length n v) as L.
  assert (F : firstn n (le_bytes n v ++ rest) = le_bytes n v) by (rewrite <- L at 1; apply firstn_app_exact).
  assert (K : skipn n (le_bytes n v ++ rest) = rest) by (rewrite <- L at 1; apply skipn_app_exact).
  rewrite F, K, le_value_small by exact H. reflexivity.
Qed.

Lemma rt_i16 : round_trip enc_i16 dec_i16 is_i16.
Proof.
  intros z rest H. unfold dec_i16, enc_i16, i16_bytes. fold (enc_uint 2 (wrap_u 16 z)).
  rewrite (rt_uint 2).
  - pose proof (read_i16_app z [] H) as R. unfold read_i16, i16_bytes in R. rewrite read_u_app in R.
    + cbn [bind] in R. injection R as ->. reflexivity.
    + unfold wrap_u. change (2 ^ 16)%Z with 65536%Z. change (256 ^ N.of_nat 2)%N with 65536%N. pose proof (Z.mod_pos_bound z 65536). lia.
  - unfold wrap_u. change (2 ^ 16)%Z with 65536%Z. change (256 ^ N.of_nat 2)%N with 65536%N. pose proof (Z.mod_pos_bound z 65536). lia.
Qed.

Lemma rt_bool : round_trip enc_bool dec_bool (fun _ => True).
Proof. intros [] rest _; reflexivity. Qed.

Lemma rt_n {A} (enc : A -> list N) dec P : round_trip enc dec P ->
  forall l rest, Forall P l -> dec_n dec (length l) (flat_map enc l ++ rest) = Some (l, rest).
Proof.
  intros H. induction l as [|x l IH]; intros rest F; [reflexivity|]. inversion F; subst.
  cbn [length dec_n flat_map]. rewrite <- app_assoc, H by assumption. rewrite IH by assumption. reflexivity.
Qed.

Lemma rt_vec {A} (enc : A -> list N) dec P : round_trip enc dec P -> (forall x, P x -> 1 <= length (enc x)) ->
  round_trip (enc_vec enc) (dec_vec dec) (fun l => Forall P l /\ short l).
Proof.
  intros H L1 l rest [F S]. unfold dec_vec, enc_vec. rewrite <- app_assoc, (rt_uint 8) by exact S.
  assert (LE : length l <= length (flat_map enc l)).
  { clear - F L1. induction F as [|x l Px F IH]; cbn; [lia|]. rewrite app_length. specialize (L1 x Px). lia. }
  destruct (N.ltb_spec (N.of_nat (length (flat_map enc l ++ rest))) (N.of_nat (length l))) as [X|X]; [rewrite app_length in X; lia|].
  rewrite Nat2N.id. eapply rt_n; eassumption.
Qed.

Lemma enc_vec_length {A} (enc : A -> list N) l : length (enc_vec enc l) = 8 + length (flat_map enc l).
Proof. unfold enc_vec, enc_uint. rewrite app_length, le_bytes_length. reflexivity. Qed.

Lemma rt_bytes : round_trip enc_bytes dec_bytes (fun l => Forall is_byte l /\ short l).
Proof.
  apply (rt_vec enc_byte dec_byte is_byte); [|intros; cbn; lia]. intros x rest H.
  unfold dec_byte. replace (enc_byte x) with (enc_uint 1 x).
  - apply rt_uint. exact H.
  - unfold enc_byte, enc_uint. cbn [le_bytes]. rewrite N.mod_small by exact H. reflexivity.
Qed.

Lemma rt_string : round_trip enc_string dec_string (fun s => valid_str s /\ (N.of_nat (blen s) < 18446744073709551616)%N).
Proof.
  intros s rest [V L]. unfold dec_string, enc_string. rewrite rt_bytes.
  - rewrite decode_encode by exact V. reflexivity.
  - split; [apply utf8_bytes; exact V|]. unfold short. rewrite blen_utf8. exact L.
Qed.

Lemma rt_word_entry : round_trip enc_word_entry dec_word_entry entry_in_range.
Proof.
  intros [[i s] c l r] rest (H1 & H2 & H3 & H4). cbn [wid wsys we_id we_cost we_left we_right ud_references ud_costs cds_definitions cds_names cds_mapping lt_boundaries lt_values] in *. unfold enc_word_entry, dec_word_entry, dec_map, dec_pair. cbn [we_id wid wsys we_cost we_left we_right].
  rewrite <- !app_assoc. rewrite (rt_uint 4) by exact H1. rewrite rt_bool by exact I. rewrite rt_i16 by exact H2.
  rewrite (rt_uint 2) by exact H3. rewrite (rt_uint 2) by exact H4. reflexivity.
Qed.

Lemma enc_word_entry_length e : length (enc_word_entry e) = 11.
Proof. unfold enc_word_entry, enc_uint, enc_i16, i16_bytes, enc_bool. rewrite !app_length, !le_bytes_length. reflexivity. Qed.

Lemma rt_unknown : round_trip enc_unknown dec_unknown unknown_in_range.
Proof.
  intros [refs costs] rest (H1 & H2 & H3 & H4). cbn [wid wsys we_id we_cost we_left we_right ud_references ud_costs cds_definitions cds_names cds_mapping lt_boundaries lt_values] in *. unfold enc_unknown, dec_unknown, dec_map, dec_pair. cbn [ud_references ud_costs].
  rewrite <- app_assoc.
  rewrite (rt_vec (enc_vec (enc_uint 4)) (dec_vec (dec_uint 4)) (fun l => Forall is_u32 l /\ short l)).
  - rewrite (rt_vec enc_word_entry dec_word_entry entry_in_range); [reflexivity|apply rt_word_entry| |auto].
    intros e _. rewrite enc_word_entry_length. lia.
  - apply rt_vec; [apply (rt_uint 4)|]. intros x _. unfold enc_uint. rewrite le_bytes_length. lia.
  - intros x _. rewrite enc_vec_length. lia.
  - auto.
Qed.

Lemma rt_category : round_trip enc_category dec_category (fun c => is_u32 (cd_length c)).
Proof.
  intros [i g l] rest H. cbn in H. unfold enc_category, dec_category, dec_map, dec_pair. cbn [cd_invoke cd_group cd_length].
  rewrite <- !app_assoc. rewrite !rt_bool by exact I. rewrite (rt_uint 4) by exact H. reflexivity.
Qed.

Lemma rt_chardef : round_trip enc_chardef dec_chardef chardef_in_range.
Proof.
  intros [defs names [bs vs]] rest (H1 & H2 & H3 & H4 & H5 & H6 & H7 & H8). cbn [wid wsys we_id we_cost we_left we_right ud_references ud_costs cds_definitions cds_names cds_mapping lt_boundaries lt_values] in *.
  unfold enc_chardef, dec_chardef, dec_map, dec_pair. cbn [cds_definitions cds_names cds_mapping lt_boundaries lt_values].
  rewrite <- !app_assoc.
  rewrite (rt_vec enc_category dec_category (fun c => is_u32 (cd_length c))); [|apply rt_category|intros c _; unfold enc_category; cbn; lia|auto].
  rewrite (rt_vec enc_string dec_string (fun s => valid_str s /\ (N.of_nat (blen s) < 18446744073709551616)%N)); [|apply rt_string|intros c _; unfold enc_string, enc_bytes; rewrite enc_vec_length; lia|auto].
  rewrite (rt_vec (enc_uint 4) (dec_uint 4) is_u32); [|apply (rt_uint 4)|intros x _; unfold enc_uint; rewrite le_bytes_length; lia|auto].
  rewrite (rt_vec (enc_vec (fun c => enc_uint 8 (N.of_nat c))) (dec_vec (dec_map N.to_nat (dec_uint 8))) (fun l => Forall (fun i => (N.of_nat i < 18446744073709551616)%N) l /\ short l)).
  - reflexivity.
  - apply rt_vec.
    + intros i rest' Hi. unfold dec_map. rewrite (rt_uint 8) by exact Hi. rewrite Nat2N.id. reflexivity.
    + intros i _. unfold enc_uint. rewrite le_bytes_length. lia.
  - intros x _. rewrite enc_vec_length. lia.
  - auto.
Qed.

Lemma rt_user : round_trip enc_user dec_user user_in_range.
Proof.
  intros [da v s i w] rest H. unfold user_in_range in H. cbn [uf_da uf_vals uf_words_idx uf_words] in H.
  rewrite !Forall_cons_iff in H. destruct H as (H1 & H2 & H3 & H4 & _).
  unfold enc_user, dec_user, dec_map, dec_pair. cbn [uf_da uf_vals uf_system uf_words_idx uf_words].
  rewrite <- !app_assoc. rewrite rt_bytes by assumption. rewrite rt_bytes by assumption. rewrite rt_bool by exact I.
  rewrite rt_bytes by assumption. rewrite rt_bytes by assumption. reflexivity.
Qed.

(** ** Compression *)

Lemma decompress_compress k data a c : codecs_inverse k -> compress k data a = Some c -> decompress k c = Some data.
Proof.
  intros H. unfold compress. destruct a;
    try (destruct (k_encode k _ data) as [d|] eqn:E; [|discriminate]; intros X; injection X as <-; cbn; eapply H; exact E).
  intros X; injection X as <-. reflexivity.
Qed.

Lemma rt_algorithm : round_trip (fun a => enc_uint 4 (algorithm_index a)) dec_algorithm (fun _ => True).
Proof.
  intros a rest _. unfold dec_algorithm. rewrite (rt_uint 4); [destruct a; reflexivity|]. destruct a; cbn; lia.
Qed.

Lemma rt_compressed : round_trip enc_compressed dec_compressed (fun c => Forall is_byte (cz_data c) /\ short (cz_data c)).
Proof.
  intros [a d] rest H. cbn in H. unfold enc_compressed, dec_compressed, dec_map, dec_pair. cbn [cz_algorithm cz_data].
  rewrite <- app_assoc, rt_algorithm by exact I. rewrite rt_bytes by exact H. reflexivity.
Qed.

Lemma embedded_written k feature a buffer bytes : codecs_inverse k -> codecs_bytes k -> Forall is_byte buffer -> short buffer ->
  compress_write k feature buffer a = Ok bytes -> embedded_data k feature bytes = Ok buffer.
Proof.
  intros KI KB B S. unfold compress_write, embedded_data. destruct feature; [|intros E; injection E as <-; reflexivity].
  destruct (compress k buffer a) as [c|] eqn:C; [|discriminate]. intros E; injection E as <-.
  rewrite <- (app_nil_r (enc_compressed c)), rt_compressed.
  - rewrite (decompress_compress _ _ _ _ KI C). reflexivity.
  - unfold compress in C. destruct a; try (destruct (k_encode k _ buffer) as [d|] eqn:E; [|discriminate]; injection C as <-; cbn; eapply KB; exact E).
    injection C as <-. auto.
Qed.
