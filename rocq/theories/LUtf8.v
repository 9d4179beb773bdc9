(** Facts about the UTF-8 encoding: it is a prefix code, decoding inverts it, byte offsets. *)
From Coq Require Import List NArith ZArith Bool Lia ZifyBool ZifyNat ZifyN.
From Verif Require Import MBase MUtf8.
Import ListNotations.
Ltac Zify.zify_post_hook ::= Z.div_mod_to_equations.
Local Open Scope N_scope.

Lemma width_utf8_char c : length (utf8_char c) = width c.
Proof. unfold utf8_char, width. repeat destruct (_ <? _); reflexivity. Qed.

Lemma width_pos c : (1 <= width c)%nat.
Proof. unfold width. repeat destruct (_ <? _); lia. Qed.

Lemma blen_utf8 s : length (utf8 s) = blen s.
Proof.
  induction s as [|c s IH]; [reflexivity|].
  cbn [utf8 flat_map blen]. rewrite app_length, width_utf8_char. fold (utf8 s). lia.
Qed.

Lemma blen_app a b : blen (a ++ b) = (blen a + blen b)%nat.
Proof. induction a; cbn [app blen]; lia. Qed.

Lemma utf8_app a b : utf8 (a ++ b) = utf8 a ++ utf8 b.
Proof. unfold utf8. apply flat_map_app. Qed.

Lemma blen_length s : (length s <= blen s)%nat.
Proof. induction s; cbn [length blen]; [lia|]. pose proof (width_pos a). lia. Qed.

Lemma blen_0 s : blen s = 0%nat -> s = [].
Proof. destruct s as [|c s]; [easy|]. cbn. pose proof (width_pos c). lia. Qed.

Lemma valid_charb_iff c : valid_charb c = true <-> valid_char c.
Proof. unfold valid_charb, valid_char. lia. Qed.

Lemma valid_char_lt c : valid_char c -> c < 0x110000.
Proof. unfold valid_char. lia. Qed.

Lemma decode1_encode c r : valid_char c -> utf8_decode1 (utf8_char c ++ r) = Some (c, r).
Proof.
  intros V. pose proof (valid_char_lt _ V) as L.
  unfold utf8_char.
  destruct (c <? 0x80) eqn:E1; [cbn; rewrite E1; reflexivity|].
  destruct (c <? 0x800) eqn:E2.
  { cbn [app utf8_decode1].
    replace (0xC0 + c / 64 <? 0x80) with false by lia.
    replace (0xC0 + c / 64 <? 0xC2) with false by lia.
    replace (0xC0 + c / 64 <? 0xE0) with true by lia.
    unfold cont.
    replace ((0x80 <=? 0x80 + c mod 64) && (0x80 + c mod 64 <? 0xC0)) with true by lia.
    f_equal. f_equal. lia. }
  destruct (c <? 0x10000) eqn:E3.
  { cbn [app utf8_decode1]. cbv zeta.
    replace (0xE0 + c / 4096 <? 0x80) with false by lia.
    replace (0xE0 + c / 4096 <? 0xC2) with false by lia.
    replace (0xE0 + c / 4096 <? 0xE0) with false by lia.
    replace (0xE0 + c / 4096 <? 0xF0) with true by lia.
    unfold cont.
    replace ((0xE0 + c / 4096 - 0xE0) * 4096 + (0x80 + (c / 64) mod 64 - 0x80) * 64 + (0x80 + c mod 64 - 0x80)) with c by lia.
    apply valid_charb_iff in V. rewrite V.
    replace ((0x80 <=? 0x80 + (c / 64) mod 64) && (0x80 + (c / 64) mod 64 <? 0xC0)) with true by lia.
    replace ((0x80 <=? 0x80 + c mod 64) && (0x80 + c mod 64 <? 0xC0)) with true by lia.
    replace (0x800 <=? c) with true by lia. reflexivity. }
  cbn [app utf8_decode1]. cbv zeta.
  replace (0xF0 + c / 262144 <? 0x80) with false by lia.
  replace (0xF0 + c / 262144 <? 0xC2) with false by lia.
  replace (0xF0 + c / 262144 <? 0xE0) with false by lia.
  replace (0xF0 + c / 262144 <? 0xF0) with false by lia.
  replace (0xF0 + c / 262144 <? 0xF5) with true by lia.
  unfold cont.
  replace ((0xF0 + c / 262144 - 0xF0) * 262144 + (0x80 + (c / 4096) mod 64 - 0x80) * 4096
     + (0x80 + (c / 64) mod 64 - 0x80) * 64 + (0x80 + c mod 64 - 0x80)) with c by lia.
  apply valid_charb_iff in V. rewrite V.
  replace ((0x80 <=? 0x80 + (c / 4096) mod 64) && (0x80 + (c / 4096) mod 64 <? 0xC0)) with true by lia.
  replace ((0x80 <=? 0x80 + (c / 64) mod 64) && (0x80 + (c / 64) mod 64 <? 0xC0)) with true by lia.
  replace ((0x80 <=? 0x80 + c mod 64) && (0x80 + c mod 64 <? 0xC0)) with true by lia.
  replace (0x10000 <=? c) with true by lia. reflexivity.
Qed.

Lemma utf8_char_inj c1 c2 r1 r2 :
  valid_char c1 -> valid_char c2 -> utf8_char c1 ++ r1 = utf8_char c2 ++ r2 -> c1 = c2 /\ r1 = r2.
Proof.
  intros V1 V2 H. pose proof (decode1_encode c1 r1 V1) as D1. rewrite H, decode1_encode in D1 by assumption.
  inversion D1; auto.
Qed.

Lemma utf8_char_nonempty c : exists b r, utf8_char c = b :: r.
Proof. unfold utf8_char. repeat destruct (_ <? _); eauto. Qed.

Lemma decode_encode_fuel s : forall fuel, valid_str s -> (blen s <= fuel)%nat -> utf8_decode_fuel fuel (utf8 s) = Some s.
Proof.
  induction s as [|c s IH]; intros fuel V L.
  - destruct fuel; reflexivity.
  - inversion V as [|? ? Vc Vs]; subst. cbn [blen] in L. pose proof (width_pos c).
    destruct fuel as [|fuel]; [lia|].
    cbn [utf8 flat_map]. fold (utf8 s).
    cbn [utf8_decode_fuel].
    destruct (utf8_char_nonempty c) as (b & r & E).
    rewrite (decode1_encode c (utf8 s) Vc).
    rewrite IH by (auto; lia). rewrite E. reflexivity.
Qed.

Lemma decode_encode s : valid_str s -> utf8_decode (utf8 s) = Some s.
Proof. intros V. unfold utf8_decode. apply decode_encode_fuel; [assumption|]. rewrite blen_utf8. lia. Qed.

Lemma utf8_inj a b : valid_str a -> valid_str b -> utf8 a = utf8 b -> a = b.
Proof.
  intros Va Vb H. pose proof (decode_encode a Va) as D. rewrite H, decode_encode in D by assumption. congruence.
Qed.

(* a byte prefix that is valid UTF-8 is a character prefix *)
Lemma utf8_prefix k : forall s r, valid_str k -> valid_str s -> utf8 s = utf8 k ++ r -> exists t, s = k ++ t /\ r = utf8 t.
Proof.
  induction k as [|c k IH]; intros s r Vk Vs H.
  - exists s. auto.
  - inversion Vk as [|? ? Vc Vk']; subst.
    destruct s as [|d s].
    + cbn in H. destruct (utf8_char_nonempty c) as (b & r0 & E). rewrite E in H. discriminate.
    + inversion Vs as [|? ? Vd Vs']; subst.
      cbn [utf8 flat_map] in H. fold (utf8 s) in H. fold (utf8 k) in H. rewrite <- app_assoc in H.
      apply utf8_char_inj in H as [-> H]; [|assumption|assumption].
      destruct (IH _ _ Vk' Vs' H) as (t & -> & ->). exists t. auto.
Qed.

Lemma str_from_app a b : str_from (a ++ b) (blen a) = Ok b.
Proof.
  induction a as [|c a IH].
  - destruct b; reflexivity.
  - cbn [app blen]. pose proof (width_pos c).
    destruct (width c + blen a)%nat eqn:E; [lia|].
    cbn [str_from]. rewrite <- E.
    replace (Nat.ltb (width c + blen a) (width c)) with false by lia.
    replace (width c + blen a - width c)%nat with (blen a) by lia. exact IH.
Qed.

Lemma str_to_app a b : str_to (a ++ b) (blen a) = Ok a.
Proof.
  induction a as [|c a IH].
  - destruct b; reflexivity.
  - cbn [app blen]. pose proof (width_pos c).
    destruct (width c + blen a)%nat eqn:E; [lia|].
    cbn [str_to]. rewrite <- E.
    replace (Nat.ltb (width c + blen a) (width c)) with false by lia.
    replace (width c + blen a - width c)%nat with (blen a) by lia. rewrite IH. reflexivity.
Qed.

Lemma str_from_inv s : forall n t, str_from s n = Ok t -> exists a, s = a ++ t /\ blen a = n.
Proof.
  induction s as [|c s IH]; intros n t H.
  - destruct n; cbn [str_from str_to] in H; [|discriminate]. injection H as <-. exists []. auto.
  - destruct n; cbn [str_from str_to] in H; [injection H as <-; exists []; auto|].
    destruct (Nat.ltb (S n) (width c)) eqn:E; [discriminate|].
    apply IH in H as (a & -> & B). exists (c :: a). cbn [app blen]. split; [reflexivity|]. lia.
Qed.

Lemma str_to_inv s : forall n t, str_to s n = Ok t -> exists b, s = t ++ b /\ blen t = n.
Proof.
  induction s as [|c s IH]; intros n t H.
  - destruct n; cbn [str_from str_to] in H; [|discriminate]. injection H as <-. exists []. auto.
  - destruct n; cbn [str_from str_to] in H; [injection H as <-; exists (c :: s); auto|].
    destruct (Nat.ltb (S n) (width c)) eqn:E; [discriminate|].
    destruct (str_to s (S n - width c)) eqn:E2; try discriminate.
    cbn in H. injection H as <-.
    apply IH in E2 as (b & -> & B). exists b. cbn [app blen]. split; [reflexivity|]. lia.
Qed.

Lemma str_range_app a b c : str_range (a ++ b ++ c) (blen a) (blen a + blen b) = Ok b.
Proof.
  unfold str_range. replace (Nat.ltb (blen a + blen b) (blen a)) with false by lia.
  rewrite str_from_app. cbn [bind]. replace (blen a + blen b - blen a)%nat with (blen b) by lia.
  apply str_to_app.
Qed.

Lemma str_range_inv s a b t : str_range s a b = Ok t ->
  exists x y, s = x ++ t ++ y /\ blen x = a /\ (blen x + blen t = b)%nat.
Proof.
  unfold str_range. destruct (Nat.ltb b a) eqn:E; [discriminate|].
  destruct (str_from s a) as [u| |] eqn:F; try discriminate. cbn [bind]. intros T.
  apply str_from_inv in F as (x & -> & Bx). apply str_to_inv in T as (y & -> & By).
  exists x, y. split; [reflexivity|]. split; [assumption|]. lia.
Qed.

Lemma str_eqb_spec a : forall b, str_eqb a b = true <-> a = b.
Proof.
  induction a as [|x a IH]; intros [|y b]; cbn; split; intros H; try discriminate; auto.
  - apply andb_true_iff in H as [H1 H2]. apply N.eqb_eq in H1. apply IH in H2. congruence.
  - injection H as -> ->. rewrite N.eqb_refl. cbn. apply IH. reflexivity.
Qed.

Lemma str_eqb_refl a : str_eqb a a = true.
Proof. apply str_eqb_spec. reflexivity. Qed.

Lemma str_eq_dec (a b : str) : {a = b} + {a <> b}.
Proof. decide equality. apply N.eq_dec. Qed.

Lemma valid_str_app a b : valid_str (a ++ b) <-> valid_str a /\ valid_str b.
Proof. apply Forall_app. Qed.

Lemma app_same_blen a1 b1 a2 b2 : a1 ++ b1 = a2 ++ b2 -> blen a1 = blen a2 -> a1 = a2 /\ b1 = b2.
Proof.
  intros H B.
  pose proof (str_to_app a1 b1) as T1. rewrite H, B, str_to_app in T1. injection T1 as ->.
  split; [reflexivity|]. apply app_inv_head in H. exact H.
Qed.

Lemma utf8_char_bytes c : valid_char c -> Forall is_byte (utf8_char c).
Proof.
  intros V. apply valid_char_lt in V. unfold utf8_char.
  destruct (c <? 0x80) eqn:E1; [repeat (apply Forall_cons; [unfold is_byte; lia|]); apply Forall_nil|].
  destruct (c <? 0x800) eqn:E2; [repeat (apply Forall_cons; [unfold is_byte; lia|]); apply Forall_nil|].
  destruct (c <? 0x10000) eqn:E3; (repeat (apply Forall_cons; [unfold is_byte; lia|]); apply Forall_nil).
Qed.

Lemma utf8_bytes s : valid_str s -> Forall is_byte (utf8 s).
Proof.
  induction 1; cbn [utf8 flat_map]; [constructor|]. apply Forall_app. split; [|assumption].
  apply utf8_char_bytes. assumption.
Qed.

Lemma utf8_char_no_nul c : c <> 0 -> Forall (fun b => b <> 0) (utf8_char c).
Proof.
  intros V. unfold utf8_char.
  destruct (c <? 0x80) eqn:E1; [repeat (apply Forall_cons; [lia|]); apply Forall_nil|].
  destruct (c <? 0x800) eqn:E2; [repeat (apply Forall_cons; [lia|]); apply Forall_nil|].
  destruct (c <? 0x10000) eqn:E3; (repeat (apply Forall_cons; [lia|]); apply Forall_nil).
Qed.

(* slicing by bytes succeeds exactly at character boundaries *)
Lemma str_slices s :
  (forall n p, str_to s n = Ok p <-> exists r, s = p ++ r /\ length (utf8 p) = n) /\
  (forall n r, str_from s n = Ok r <-> exists p, s = p ++ r /\ length (utf8 p) = n) /\
  (forall n, (exists p, str_to s n = Ok p) \/ str_to s n = Panic) /\
  (forall n, (exists p, str_from s n = Ok p) \/ str_from s n = Panic).
Proof.
  split; [|split; [|split]].
  - intros n p. rewrite blen_utf8. split; [apply str_to_inv|]. intros (r & -> & <-). apply str_to_app.
  - intros n p. split.
    + intros H. apply str_from_inv in H as (a & H1 & H2). exists a. rewrite blen_utf8. auto.
    + intros (a & -> & <-). rewrite blen_utf8. apply str_from_app.
  - intros n. revert n. induction s as [|c s IH]; intros [|n]; cbn [str_to]; eauto.
    destruct (Nat.ltb _ _); auto. destruct (IH (S n - width c)%nat) as [[p ->]| ->]; cbn [bind]; eauto.
  - intros n. revert n. induction s as [|c s IH]; intros [|n]; cbn [str_from]; eauto.
    destruct (Nat.ltb _ _); auto.
Qed.

(* decoding accepts nothing but encodings *)
Lemma decode1_sound bs d r : utf8_decode1 bs = Some (d, r) -> valid_char d /\ bs = utf8_char d ++ r.
Proof.
  unfold utf8_decode1, cont. destruct bs as [|b0 bs]; [discriminate|].
  destruct (b0 <? 0x80) eqn:E1.
  { intros H. injection H as <- <-. split; [unfold valid_char; lia|]. unfold utf8_char. rewrite E1. reflexivity. }
  destruct (b0 <? 0xC2) eqn:E2; [discriminate|].
  destruct (b0 <? 0xE0) eqn:E3.
  { destruct bs as [|b1 bs]; [discriminate|]. destruct ((0x80 <=? b1) && (b1 <? 0xC0)) eqn:C1; [|discriminate].
    intros H. injection H as <- <-. set (c := (b0 - 0xC0) * 64 + (b1 - 0x80)).
    assert (R : 0x80 <= c /\ c < 0x800) by lia. split; [unfold valid_char; lia|]. unfold utf8_char.
    replace (c <? 0x80) with false by lia. replace (c <? 0x800) with true by lia. cbn [app]. repeat f_equal; lia. }
  destruct (b0 <? 0xF0) eqn:E4.
  { destruct bs as [|b1 [|b2 bs]]; try discriminate. cbv zeta. set (c := (b0 - 0xE0) * 4096 + (b1 - 0x80) * 64 + (b2 - 0x80)).
    destruct (_ && _ && (0x800 <=? c) && valid_charb c) eqn:C1; [|discriminate]. intros H. injection H as <- <-.
    rewrite !andb_true_iff in C1. destruct C1 as (((C1 & C2) & C3) & V). apply valid_charb_iff in V. split; [exact V|].
    assert (R : c < 0x10000) by lia. unfold utf8_char.
    replace (c <? 0x80) with false by lia. replace (c <? 0x800) with false by lia. replace (c <? 0x10000) with true by lia.
    cbn [app]. repeat f_equal; lia. }
  destruct (b0 <? 0xF5) eqn:E5; [|discriminate].
  destruct bs as [|b1 [|b2 [|b3 bs]]]; try discriminate. cbv zeta.
  set (c := (b0 - 0xF0) * 262144 + (b1 - 0x80) * 4096 + (b2 - 0x80) * 64 + (b3 - 0x80)).
  destruct (_ && _ && _ && (0x10000 <=? c) && valid_charb c) eqn:C1; [|discriminate]. intros H. injection H as <- <-.
  rewrite !andb_true_iff in C1. destruct C1 as ((((C1 & C2) & C3) & C4) & V). apply valid_charb_iff in V. split; [exact V|].
  unfold utf8_char.
  replace (c <? 0x80) with false by lia. replace (c <? 0x800) with false by lia. replace (c <? 0x10000) with false by lia.
  cbn [app]. repeat f_equal; lia.
Qed.

Lemma decode_fuel_sound fuel : forall bs s, utf8_decode_fuel fuel bs = Some s -> valid_str s /\ bs = utf8 s.
Proof.
  induction fuel as [|fuel IH]; intros [|b bs] s; cbn [utf8_decode_fuel]; try discriminate.
  - intros H. injection H as <-. split; [constructor|reflexivity].
  - intros H. injection H as <-. split; [constructor|reflexivity].
  - destruct (utf8_decode1 (b :: bs)) as [[c r]|] eqn:E; [|discriminate].
    destruct (utf8_decode_fuel fuel r) as [s'|] eqn:F; [|discriminate]. intros H. injection H as <-.
    apply decode1_sound in E as [V ->]. apply IH in F as [V' ->]. split; [constructor; assumption|reflexivity].
Qed.

Lemma decode_iff bs s : utf8_decode bs = Some s <-> valid_str s /\ bs = utf8 s.
Proof. split; [apply decode_fuel_sound|]. intros [V ->]. apply decode_encode. exact V. Qed.
