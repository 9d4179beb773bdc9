(** Lemmas about the number filter in a release build. *)
From Coq Require Import List NArith ZArith Bool Lia.
From Coq Require Import ZifyBool ZifyNat ZifyN.
From Verif Require Import MBase MUtf8 MText MCodec MDict MBuild MCharDef MTokenizer MCharFilter MAnalyzer MTokenFilter MNumber64 SCharFilter SOffset64 LUtf8 LNumber.
Import ListNotations.
Local Open Scope nat_scope.

Lemma adjust_release num base digit : (Z.of_nat (blen num) < 2 ^ 64)%Z -> (Z.of_nat (blen (base ++ digit)) < 2 ^ 64)%Z ->
  adjust_digits_release num base digit = adjust_digits num base digit.
Proof.
  intros B D. unfold adjust_digits_release, adjust_digits, wrap_u. set (z := base ++ digit) in *. destruct (Nat.ltb_spec (blen z) (blen num)) as [L|L].
  - replace ((Z.of_nat (blen z) - Z.of_nat (blen num)) mod 2 ^ 64)%Z with (Z.of_nat (blen z) - Z.of_nat (blen num) + 2 ^ 64)%Z.
    + destruct (N.ltb_spec (N.of_nat (blen z)) (Z.to_N (Z.of_nat (blen z) - Z.of_nat (blen num) + 2 ^ 64))) as [_|C]; [reflexivity|lia].
    + apply (Z.mod_unique _ _ (-1)%Z); lia.
  - rewrite Z.mod_small by lia.
    replace (Z.to_N (Z.of_nat (blen z) - Z.of_nat (blen num))) with (N.of_nat (blen z - blen num)) by lia.
    destruct (N.ltb_spec (N.of_nat (blen z)) (N.of_nat (blen z - blen num))) as [C|_]; [lia|]. rewrite Nat2N.id. reflexivity.
Qed.

Lemma adjust_size num base digit r : adjust_digits num base digit = Ok r -> blen r = blen (base ++ digit).
Proof.
  unfold adjust_digits. destruct (Nat.ltb_spec (blen (base ++ digit)) (blen num)) as [|L]; [discriminate|].
  destruct (str_to (base ++ digit) (blen (base ++ digit) - blen num)) as [z| |] eqn:E; cbn [bind]; try discriminate. intros H. injection H as <-.
  apply str_to_inv in E as (b & E & BL). rewrite blen_app. lia.
Qed.

Lemma insert_one_size next units num : blen (insert_one next units num) <= S (blen num).
Proof. unfold insert_one. destruct next as [c|]; [destruct (mem c units)|]; cbn [blen]; change (width 49%N) with 1; lia. Qed.
Lemma digit_width c d : digit_char c = Some d -> width d = 1.
Proof.
  unfold digit_char. repeat match goal with |- context [if ?b then _ else _] => destruct b end; intros H; try discriminate; injection H as <-; reflexivity.
Qed.

Lemma step_release c next num digit : (Z.of_nat (blen num) < 2 ^ 64)%Z -> blen digit <= 20 ->
  numeral_step_release c next (num, digit) = numeral_step c next (num, digit) /\
  forall num' digit', numeral_step c next (num, digit) = Ok (num', digit') -> (blen num' <= width c + blen num \/ blen num' <= 24) /\ blen digit' <= 20.
Proof.
  intros B D. unfold numeral_step_release, numeral_step. pose proof (width_pos c) as W.
  assert (A : forall base dg, blen base + blen dg <= 23 -> adjust_digits_release num base dg = adjust_digits num base dg)
    by (intros base dg L; apply adjust_release; [exact B|rewrite blen_app; lia]).
  assert (G : forall base dg units dg', blen base + blen dg <= 23 -> blen dg' <= 20 -> forall num' digit',
    (do n <- adjust_digits num base dg; Ok (insert_one next units n, dg')) = Ok (num', digit') -> (blen num' <= width c + blen num \/ blen num' <= 24) /\ blen digit' <= 20).
  { intros base dg units dg' L L' num' digit' H. destruct (adjust_digits num base dg) as [n| |] eqn:E; cbn [bind] in H; try discriminate. injection H as <- <-.
    apply adjust_size in E. rewrite blen_app in E. pose proof (insert_one_size next units n). split; [right; lia|exact L']. }
  destruct (digit_char c) as [d|] eqn:DC.
  { split; [reflexivity|]. intros num' digit' H. injection H as <- <-. apply digit_width in DC. cbn [blen]. split; [left; lia|exact D]. }
  repeat match goal with |- context [if ?b then _ else _] => destruct b end;
    try (rewrite A by (rewrite ?blen_zeros; cbn [blen]; lia); split; [reflexivity|apply G; rewrite ?blen_zeros; cbn [blen]; lia]).
  split; [reflexivity|]. intros num' digit' H. injection H as <- <-. cbn [blen]. split; [left; lia|lia].
Qed.

Lemma loop_release chars : forall num digit, (Z.of_nat (blen num) + Z.of_nat (blen chars) < 2 ^ 64)%Z -> (24 + Z.of_nat (blen chars) < 2 ^ 64)%Z -> blen digit <= 20 ->
  numeral_loop_release chars (num, digit) = numeral_loop chars (num, digit).
Proof.
  induction chars as [|c r IH]; intros num digit B B' D; [reflexivity|]. cbn [numeral_loop_release numeral_loop]. cbn [blen] in B, B'.
  destruct (step_release c (hd_error r) num digit ltac:(lia) D) as [E N]. rewrite E.
  destruct (numeral_step c (hd_error r) (num, digit)) as [[num' digit']| |]; cbn [bind]; [|reflexivity|reflexivity].
  destruct (N _ _ eq_refl) as [[L|L] L']; apply IH; lia.
Qed.

Lemma blen_reverse s : blen (rev s) = blen s.
Proof. induction s as [|c s IH]; [reflexivity|]. cbn [rev]. rewrite blen_app, IH. cbn [blen]. lia. Qed.

Theorem arabic_release s : fits_isize (blen s) -> to_arabic_numerals_release s = to_arabic_numerals s.
Proof. unfold fits_isize. intros F. apply loop_release; rewrite ?blen_reverse; cbn [blen]; lia. Qed.

Theorem number_release tags ts : Forall (fun tk => fits_isize (blen (ft_text tk))) ts -> japanese_number_apply_release tags ts = japanese_number_apply tags ts.
Proof.
  unfold japanese_number_apply_release, japanese_number_apply, map_texts. induction 1 as [|tk ts F _ IH]; [reflexivity|]. cbn [mapM]. rewrite IH, (arabic_release _ F). reflexivity.
Qed.
