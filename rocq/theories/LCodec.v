(** Round trips of the byte encodings. *)
From Coq Require Import List NArith ZArith Bool Lia ZifyBool ZifyNat ZifyN.
From Verif Require Import MBase MUtf8 MText MCodec LBase.
Import ListNotations.
Ltac Zify.zify_post_hook ::= Z.div_mod_to_equations.

Lemma le_bytes_length n : forall v, length (le_bytes n v) = n.
Proof. induction n as [|n IH]; intros v; cbn [le_bytes length]; [reflexivity|]. rewrite IH. reflexivity. Qed.

Lemma le_bytes_byte n : forall v, Forall is_byte (le_bytes n v).
Proof.
  induction n as [|n IH]; intros v; cbn [le_bytes]; constructor; [|apply IH].
  unfold is_byte. apply N.mod_lt. discriminate.
Qed.

Lemma le_value_bytes n : forall v, le_value (le_bytes n v) = (v mod 256 ^ N.of_nat n)%N.
Proof.
  induction n as [|n IH]; intros v; cbn [le_bytes le_value].
  - cbn. rewrite N.mod_1_r. reflexivity.
  - rewrite IH. rewrite Nat2N.inj_succ, N.pow_succ_r by lia.
    rewrite (N.mul_comm 256 (256 ^ N.of_nat n)%N), (N.mul_comm (256 ^ _) 256)%N.
    assert (P : (256 ^ N.of_nat n <> 0)%N) by (apply N.pow_nonzero; discriminate).
    rewrite N.mod_mul_r by (auto; discriminate). reflexivity.
Qed.

Lemma le_value_small n v : (v < 256 ^ N.of_nat n)%N -> le_value (le_bytes n v) = v.
Proof. intros H. rewrite le_value_bytes. apply N.mod_small. exact H. Qed.

Lemma read_u_app n v r : (v < 256 ^ N.of_nat n)%N -> read_u n (le_bytes n v ++ r) = Ok v.
Proof.
  intros H. unfold read_u. rewrite app_length, le_bytes_length.
  destruct (Nat.ltb_spec (n + length r) n); [lia|].
  rewrite <- (le_bytes_length n v) at 1. rewrite firstn_app_exact, le_value_small by exact H. reflexivity.
Qed.

Lemma read_i16_app z r : is_i16 z -> read_i16 (i16_bytes z ++ r) = Ok z.
Proof.
  intros H. unfold read_i16, i16_bytes. rewrite read_u_app.
  - cbn [bind]. f_equal. unfold wrap16, wrap_i, wrap_u. unfold is_i16 in H.
    change (2 ^ 16)%Z with 65536%Z. change (2 ^ (16 - 1))%Z with 32768%Z. lia.
  - unfold wrap_u. change (2 ^ 16)%Z with 65536%Z. change (256 ^ N.of_nat 2)%N with 65536%N. lia.
Qed.

Lemma slice_mid {A} (a b c : list A) x y : x = length a -> y = length a + length b -> slice (a ++ b ++ c) x y = Ok b.
Proof.
  intros -> ->. unfold slice. rewrite !app_length.
  destruct (Nat.leb_spec (length a) (length a + length b)); [|lia].
  destruct (Nat.leb_spec (length a + length b) (length a + (length b + length c))); [|lia]. cbn [andb].
  rewrite skipn_app_exact. replace (length a + length b - length a) with (length b) by lia. rewrite firstn_app_exact. reflexivity.
Qed.

Lemma we_serialize_length e : length (we_serialize e) = 10.
Proof. unfold we_serialize, i16_bytes. rewrite !app_length, !le_bytes_length. reflexivity. Qed.

Lemma we_round_trip e sys rest : is_u32 (wid (we_id e)) -> is_i16 (we_cost e) -> is_u16 (we_left e) -> is_u16 (we_right e) ->
  we_deserialize (we_serialize e ++ rest) sys = Ok (WordEntry (WordId (wid (we_id e)) sys) (we_cost e) (we_left e) (we_right e)).
Proof.
  intros HI HC HL HR. unfold we_deserialize, we_serialize.
  set (a := le_bytes 4 (wid (we_id e))). set (b := i16_bytes (we_cost e)). set (c := le_bytes 2 (we_left e)). set (d := le_bytes 2 (we_right e)).
  assert (La : length a = 4) by apply le_bytes_length. assert (Lb : length b = 2) by apply le_bytes_length.
  assert (Lc : length c = 2) by apply le_bytes_length. assert (Ld : length d = 2) by apply le_bytes_length.
  replace ((a ++ b ++ c ++ d) ++ rest) with ([] ++ a ++ (b ++ c ++ d ++ rest)) by (rewrite <- !app_assoc; reflexivity).
  rewrite (slice_mid [] a) by (cbn; lia). cbn [bind].
  replace a with (a ++ []) at 1 by apply app_nil_r. unfold a at 1. rewrite read_u_app by exact HI. cbn [bind app].
  rewrite (slice_mid a b) by lia. cbn [bind].
  replace b with (b ++ []) at 1 by apply app_nil_r. unfold b at 1. rewrite read_i16_app by exact HC. cbn [bind].
  replace (a ++ b ++ c ++ d ++ rest) with ((a ++ b) ++ c ++ (d ++ rest)) by (rewrite <- !app_assoc; reflexivity).
  rewrite (slice_mid (a ++ b) c) by (rewrite app_length; lia). cbn [bind].
  replace c with (c ++ []) at 1 by apply app_nil_r. unfold c at 1. rewrite read_u_app by exact HL. cbn [bind].
  replace ((a ++ b) ++ c ++ d ++ rest) with ((a ++ b ++ c) ++ d ++ rest) by (rewrite <- !app_assoc; reflexivity).
  rewrite (slice_mid (a ++ b ++ c) d) by (rewrite !app_length; lia). cbn [bind].
  replace d with (d ++ []) at 1 by apply app_nil_r. unfold d at 1. rewrite read_u_app by exact HR. reflexivity.
Qed.
