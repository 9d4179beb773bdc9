(** What the bincode decoders accept is what the encoders write. *)
From Coq Require Import List NArith ZArith Bool Lia ZifyBool ZifyNat ZifyN.
From Verif Require Import MBase MUtf8 MText MCodec MDict MCharDef MUnk MTokenizer MBincode SData LBase LUtf8 LCodec LBincode.
Import ListNotations.
Local Open Scope list_scope.

Definition only_saved {A} (enc : A -> list N) (dec : decoder A) (P : A -> Prop) : Prop :=
  forall bs x r, Forall is_byte bs -> dec bs = Some (x, r) -> P x /\ bs = enc x ++ r /\ Forall is_byte r.

Lemma value_bytes bs : Forall is_byte bs -> le_bytes (length bs) (le_value bs) = bs /\ (le_value bs < 256 ^ N.of_nat (length bs))%N.
Proof.
  induction 1 as [|b bs B F (IH & L)]; [split; [reflexivity|cbn; lia]|]. cbn [length le_bytes le_value]. unfold is_byte in B.
  replace (b + 256 * le_value bs)%N with (le_value bs * 256 + b)%N by lia.
  rewrite N.div_add_l, N.div_small, N.add_0_r by lia. rewrite N.add_comm, N.mod_add, N.mod_small by lia. rewrite IH. split; [reflexivity|].
  rewrite Nat2N.inj_succ, N.pow_succ_r'. lia.
Qed.
Lemma os_uint n : only_saved (enc_uint n) (dec_uint n) (fun v => (v < 256 ^ N.of_nat n)%N).
Proof.
  intros bs v r F H. unfold dec_uint in H. destruct (Nat.ltb_spec (length bs) n) as [|L]; [discriminate|]. injection H as <- <-.
  assert (L' : length (firstn n bs) = n) by (rewrite firstn_length; lia). rewrite <- (firstn_skipn n bs) in F. apply Forall_app in F. destruct F as (F1 & F2).
  destruct (value_bytes _ F1) as (E & B). rewrite L' in *. split; [exact B|]. split; [|exact F2]. unfold enc_uint. rewrite E. symmetry. apply firstn_skipn.
Qed.
Lemma os_i16 : only_saved enc_i16 dec_i16 is_i16.
Proof.
  intros bs z r F H. unfold dec_i16 in H. destruct (dec_uint 2 bs) as [[v r']|] eqn:D; [|discriminate]. injection H as <- <-.
  destruct (os_uint 2 _ _ _ F D) as (L & E & R). change (256 ^ N.of_nat 2)%N with 65536%N in L. unfold is_i16, wrap16, wrap_i.
  unfold enc_i16, i16_bytes, wrap_u, wrap16, wrap_i, enc_uint in *. split; [|split; [|exact R]].
  - change (2 ^ 16)%Z with 65536%Z. change (2 ^ (16 - 1))%Z with 32768%Z in *. pose proof (Z.mod_pos_bound (Z.of_N v + 32768) 65536). lia.
  - rewrite E. f_equal. f_equal. change (2 ^ 16)%Z with 65536%Z. change (2 ^ (16 - 1))%Z with 32768%Z in *.
    rewrite Zminus_mod_idemp_l. replace (Z.of_N v + 32768 - 32768)%Z with (Z.of_N v) by lia. rewrite Z.mod_small by lia. lia.
Qed.
Lemma os_bool : only_saved enc_bool dec_bool (fun _ => True).
Proof.
  intros bs x r F H. unfold dec_bool in H. destruct bs as [|b bs]; [discriminate|]. inversion F; subst.
  destruct b as [|[p|p|]]; try discriminate H; injection H as <- <-; (split; [exact I|split; [reflexivity|assumption]]).
Qed.
Lemma os_n {A} (enc : A -> list N) dec P : only_saved enc dec P -> forall n bs l r, Forall is_byte bs -> dec_n dec n bs = Some (l, r) ->
  length l = n /\ Forall P l /\ bs = flat_map enc l ++ r /\ Forall is_byte r.
Proof.
  intros O. induction n as [|n IH]; intros bs l r F H; cbn [dec_n] in H; [injection H as <- <-; auto|].
  destruct (dec bs) as [[x b']|] eqn:D; [|discriminate]. destruct (dec_n dec n b') as [[xs r']|] eqn:E; [|discriminate]. injection H as <- <-.
  destruct (O _ _ _ F D) as (Px & -> & F'). destruct (IH _ _ _ F' E) as (L & Ps & -> & F''). split; [cbn; congruence|]. split; [constructor; assumption|].
  split; [cbn [flat_map]; apply app_assoc|exact F''].
Qed.
Lemma os_vec {A} (enc : A -> list N) dec P : only_saved enc dec P -> only_saved (enc_vec enc) (dec_vec dec) (fun l => Forall P l /\ short l).
Proof.
  intros O bs l r F H. unfold dec_vec in H. destruct (dec_uint 8 bs) as [[n b']|] eqn:D; [|discriminate]. destruct (N.ltb_spec (N.of_nat (length b')) n) as [|L]; [discriminate|].
  destruct (os_uint 8 _ _ _ F D) as (B & -> & F'). destruct (os_n _ _ _ O _ _ _ _ F' H) as (LL & Ps & -> & F'').
  assert (E : n = N.of_nat (length l)) by lia. split; [split; [exact Ps|]|split; [|exact F'']].
  - unfold short. rewrite <- E. exact B.
  - unfold enc_vec. rewrite <- app_assoc, E. reflexivity.
Qed.
Lemma os_byte : only_saved enc_byte dec_byte is_byte.
Proof.
  intros bs x r F H. destruct (os_uint 1 _ _ _ F H) as (L & -> & R). change (256 ^ N.of_nat 1)%N with 256%N in L. split; [exact L|]. split; [|exact R].
  unfold enc_uint, enc_byte. cbn [le_bytes]. rewrite N.mod_small by exact L. reflexivity.
Qed.
Lemma os_bytes : only_saved enc_bytes dec_bytes (fun l => Forall is_byte l /\ short l).
Proof. apply os_vec, os_byte. Qed.
Lemma os_string : only_saved enc_string dec_string (fun s => valid_str s /\ (N.of_nat (blen s) < 18446744073709551616)%N).
Proof.
  intros bs s r F H. unfold dec_string in H. destruct (dec_bytes bs) as [[b r']|] eqn:D; [|discriminate]. destruct (utf8_decode b) as [s'|] eqn:U; [|discriminate]. injection H as <- <-.
  destruct (os_bytes _ _ _ F D) as ((B & S) & -> & R). apply decode_iff in U. destruct U as (V & ->). split; [split; [exact V|]|split; [reflexivity|exact R]].
  unfold short in S. rewrite blen_utf8 in S. exact S.
Qed.
Lemma os_pair {A B} ea (da : decoder A) P eb (db : decoder B) Q : only_saved ea da P -> only_saved eb db Q ->
  only_saved (fun '(x, y) => ea x ++ eb y) (dec_pair da db) (fun '(x, y) => P x /\ Q y).
Proof.
  intros H1 H2 bs [x y] r F H. unfold dec_pair in H. destruct (da bs) as [[x' r1]|] eqn:D1; [|discriminate]. destruct (db r1) as [[y' r2]|] eqn:D2; [|discriminate]. injection H as <- <- <-.
  destruct (H1 _ _ _ F D1) as (P1 & -> & F1). destruct (H2 _ _ _ F1 D2) as (P2 & -> & F2). split; [auto|]. split; [apply app_assoc|exact F2].
Qed.
Lemma os_map {A B} (f : A -> B) ea (da : decoder A) P (eb : B -> list N) (Q : B -> Prop) :
  only_saved ea da P -> (forall x, P x -> Q (f x) /\ eb (f x) = ea x) -> only_saved eb (dec_map f da) Q.
Proof.
  intros H E bs y r F D. unfold dec_map in D. destruct (da bs) as [[x r']|] eqn:DA; [|discriminate]. injection D as <- <-.
  destruct (H _ _ _ F DA) as (Px & -> & R). destruct (E x Px) as (Qf & EE). split; [exact Qf|]. split; [rewrite EE; reflexivity|exact R].
Qed.

Lemma os_word_entry : only_saved enc_word_entry dec_word_entry entry_in_range.
Proof.
  unfold dec_word_entry. eapply os_map; [apply os_pair; [apply (os_uint 4)|apply os_pair; [exact os_bool|apply os_pair; [exact os_i16|apply os_pair; [apply (os_uint 2)|apply (os_uint 2)]]]]|].
  intros (i & s & c & l & r) (H1 & H2 & H3 & H4 & H5). split; [|reflexivity]. unfold entry_in_range. cbn. auto.
Qed.
Lemma os_unknown : only_saved enc_unknown dec_unknown unknown_in_range.
Proof.
  unfold dec_unknown. eapply os_map; [apply os_pair; [apply os_vec, os_vec, (os_uint 4)|apply os_vec, os_word_entry]|].
  intros (r & c) ((H1 & H2) & H3 & H4). split; [|reflexivity]. unfold unknown_in_range. cbn. auto.
Qed.
Lemma os_category : only_saved enc_category dec_category (fun c => is_u32 (cd_length c)).
Proof.
  unfold dec_category. eapply os_map; [apply os_pair; [exact os_bool|apply os_pair; [exact os_bool|apply (os_uint 4)]]|].
  intros (i & g & l) (H1 & H2 & H3). split; [exact H3|reflexivity].
Qed.
Lemma os_nat : only_saved (fun c => enc_uint 8 (N.of_nat c)) (dec_map N.to_nat (dec_uint 8)) (fun i => (N.of_nat i < 18446744073709551616)%N).
Proof. eapply os_map; [apply (os_uint 8)|]. intros x H. rewrite N2Nat.id. split; [exact H|reflexivity]. Qed.
Lemma os_chardef : only_saved enc_chardef dec_chardef chardef_in_range.
Proof.
  unfold dec_chardef. eapply os_map; [apply os_pair; [apply os_vec, os_category|apply os_pair; [apply os_vec, os_string|apply os_pair; [apply os_vec, (os_uint 4)|apply os_vec, os_vec, os_nat]]]|].
  intros (d & n & b & v) ((H1 & H2) & (H3 & H4) & (H5 & H6) & H7 & H8). split; [|reflexivity]. unfold chardef_in_range. cbn. auto 12.
Qed.
Lemma os_user : only_saved enc_user dec_user user_in_range.
Proof.
  unfold dec_user. eapply os_map; [apply os_pair; [exact os_bytes|apply os_pair; [exact os_bytes|apply os_pair; [exact os_bool|apply os_pair; [exact os_bytes|exact os_bytes]]]]|].
  intros (d & v & s & i & w) (H1 & H2 & _ & H3 & H4). split; [|reflexivity]. unfold user_in_range. cbn. repeat constructor; tauto.
Qed.

(** ** Both directions *)

(* a saved value followed by anything but cut short is not read *)
