(** Japanese numerals. *)
From Coq Require Import String.
From Coq Require Import List NArith ZArith Bool Lia ZifyBool ZifyNat ZifyN.
From Verif Require Import MBase MUtf8 MText MBuild MAnalyzer MTokenFilter STokenFilter LBase LUtf8.
Import ListNotations.
Local Open Scope list_scope.

(** * Decimal strings *)

Lemma fold_value (f : N -> N) s v : fold_left (fun v c => 10 * v + f c)%N s v = (v * 10 ^ N.of_nat (List.length s) + fold_left (fun v c => 10 * v + f c)%N s 0)%N.
Proof.
  revert v. induction s as [|c s IH]; intros v; cbn [fold_left List.length]; [rewrite N.pow_0_r; lia|].
  rewrite IH, (IH (10 * 0 + f c)%N). rewrite Nat2N.inj_succ, N.pow_succ_r'. lia.
Qed.

Lemma value_cons c s : decimal_value (c :: s) = ((c - 48) * 10 ^ N.of_nat (List.length s) + decimal_value s)%N.
Proof. unfold decimal_value. cbn [fold_left]. rewrite (fold_value (fun c => c - 48)%N). f_equal. Qed.

Lemma value_zeros n s : decimal_value (zeros n ++ s) = decimal_value s.
Proof. induction n as [|n IH]; [reflexivity|]. cbn [zeros repeat app]. rewrite value_cons. unfold zeros in IH. rewrite IH. lia. Qed.

Lemma decimal_zeros n : is_decimal (zeros n).
Proof. unfold is_decimal, zeros. apply Forall_forall. intros c Hc. apply repeat_spec in Hc. subst. lia. Qed.

Lemma decimal_app a b : is_decimal a -> is_decimal b -> is_decimal (a ++ b).
Proof. intros. apply Forall_app. auto. Qed.

Lemma decimal_blen s : is_decimal s -> blen s = List.length s.
Proof.
  induction 1 as [|c s Hc F IH]; [reflexivity|]. cbn [blen List.length]. rewrite IH.
  assert (W : width c = 1) by (unfold width; destruct (N.ltb_spec c 128); [reflexivity|lia]). lia.
Qed.

Lemma zeros_length n : List.length (zeros n) = n.
Proof. apply repeat_length. Qed.

Lemma zeros_app a b : zeros a ++ zeros b = zeros (a + b).
Proof. unfold zeros. symmetry. apply repeat_app. Qed.

Lemma adjust_ok num a b : is_decimal num -> List.length num <= a + b ->
  adjust_digits num (zeros a) (zeros b) = Ok (zeros (a + b - List.length num) ++ num).
Proof.
  intros D L. unfold adjust_digits. rewrite zeros_app, !decimal_blen, zeros_length by (try exact D; apply decimal_zeros).
  destruct (Nat.ltb_spec (a + b) (List.length num)); [lia|].
  replace (zeros (a + b)) with (zeros (a + b - List.length num) ++ zeros (List.length num)) by (rewrite zeros_app; f_equal; lia).
  replace (a + b - List.length num) with (blen (zeros (a + b - List.length num))) at 2 by (rewrite decimal_blen, zeros_length by apply decimal_zeros; reflexivity).
  rewrite str_to_app. reflexivity.
Qed.

Lemma adjust_ok_0 num e : is_decimal num -> List.length num <= e -> adjust_digits num [] (zeros e) = Ok (zeros (0 + e - List.length num) ++ num).
Proof. intros D L. apply (adjust_ok num 0 e D L). Qed.

(** * Glyphs *)

Definition all_units : list char := [JU; JU2; HYAKU; SEN; MAN; OKU; CHO; KEI; GAI].

Lemma glyph_facts d c : glyph d c -> digit_char c = Some (48 + d)%N /\ (d <= 9)%N /\ mem c all_units = false.
Proof.
  intros (cs & I1 & I2). unfold digit_glyphs in I1. cbn [In] in I1.
  repeat (destruct I1 as [E|I1]; [injection E as <- <-; cbn [In] in I2; repeat (destruct I2 as [<-|I2]; [repeat split; vm_compute; congruence|]); contradiction|]).
  contradiction.
Qed.

Lemma digit_char_glyph c d : digit_char c = Some d -> glyph (d - 48) c /\ (48 <= d)%N.
Proof.
  unfold digit_char, mem. cbn [existsb].
  repeat match goal with
  | |- context [if ?b then _ else _] => let E := fresh in destruct b eqn:E; [intros X; injection X as <-; split; [|lia]; eexists; split;
      [unfold digit_glyphs; cbn [In]; repeat (try (left; reflexivity); right)|cbn [In]; rewrite ?orb_true_iff, ?N.eqb_eq in E; intuition congruence]|]
  end. discriminate.
Qed.

Lemma mem_in c l : mem c l = true <-> In c l.
Proof. unfold mem. rewrite existsb_exists. split; [intros (x & I1 & E); apply N.eqb_eq in E; subst; exact I1|intros I1; exists c; split; [exact I1|apply N.eqb_refl]]. Qed.

Lemma mem_incl c l l' : mem c l' = false -> incl l l' -> mem c l = false.
Proof. intros M I1. destruct (mem c l) eqn:E; [|reflexivity]. apply mem_in in E. apply I1 in E. apply mem_in in E. congruence. Qed.

(* the units that may come before *)
Definition after_ju : list char := [HYAKU; SEN; MAN; OKU; CHO; KEI; GAI].
Definition after_hyaku : list char := [SEN; MAN; OKU; CHO; KEI; GAI].
Definition after_sen : list char := [MAN; OKU; CHO; KEI; GAI].

(* what comes next, to the left, is nothing or one of these *)
Definition begins (us : list char) (rest : list char) : Prop := match rest with [] => True | c :: _ => In c us end.

Lemma insert_begins us rest num : begins us rest -> insert_one (hd_error rest) us num = 0x31%N :: num.
Proof. destruct rest as [|c rest]; cbn; [reflexivity|]. intros I1. apply mem_in in I1. rewrite I1. reflexivity. Qed.

Lemma insert_none c us num : mem c us = false -> insert_one (Some c) us num = num.
Proof. cbn. intros ->. reflexivity. Qed.

Lemma begins_incl us us' rest : begins us rest -> incl us us' -> begins us' rest.
Proof. destruct rest; cbn; auto. Qed.

(* a number of length at most L and of value v *)
Definition reads (num : str) (v : N) (L : nat) : Prop := is_decimal num /\ decimal_value num = v /\ List.length num <= L.
Definition starts_high (num : str) : Prop := match num with c :: _ => (49 <= c)%N | [] => False end.

Lemma reads_cons num v L d : is_decimal num -> decimal_value num = v -> List.length num = L -> (1 <= d <= 9)%N ->
  reads ((48 + d)%N :: num) (d * 10 ^ N.of_nat L + v) (S L) /\ starts_high ((48 + d)%N :: num).
Proof.
  intros D V E B. split; [|cbn [starts_high]; lia]. split; [constructor; [lia|exact D]|]. split; [rewrite value_cons, V, E; f_equal; f_equal; lia|cbn [List.length]; lia].
Qed.

Lemma reads_more num v L L' : reads num v L -> L <= L' -> reads num v L'.
Proof. intros (A & B & C) H. repeat split; auto. lia. Qed.

Lemma step_glyph d g rest num digit : glyph d g -> numeral_loop (g :: rest) (num, digit) = numeral_loop rest ((48 + d)%N :: num, digit).
Proof. intros G. destruct (glyph_facts d g G) as (E & _). cbn [numeral_loop numeral_step]. rewrite E. reflexivity. Qed.

(** * Small units *)

(* one of 十 百 千 *)
Definition small_step (us : list char) (k : nat) (after : list char) : Prop :=
  (forall u next num digit, In u us -> numeral_step u next (num, digit) = do n <- adjust_digits num (zeros k) digit; Ok (insert_one next after n, digit)) /\
  incl after all_units.

Lemma part_step us k after w s v rest num D x : small_step us k after -> w = (10 ^ N.of_nat k)%N ->
  part us w s v -> reads num x (D + k) -> begins after rest ->
  exists num', numeral_loop (rev s ++ rest) (num, zeros D) = numeral_loop rest (num', zeros D) /\
    reads num' (v * 10 ^ N.of_nat D + x) (D + k + 1) /\ (s = [] -> num' = num) /\ (s <> [] -> starts_high num').
Proof.
  intros [ST IN] -> P (RD & RV & RL) B. inversion P as [|u I1|u g d I1 G H]; subst; clear P.
  - exists num. cbn [rev app]. split; [reflexivity|]. split; [repeat split; auto; lia|]. split; [reflexivity|congruence].
  - set (n := zeros (k + D - List.length num) ++ num).
    assert (DN : is_decimal n) by (apply decimal_app; [apply decimal_zeros|exact RD]).
    assert (LN : List.length n = D + k) by (unfold n; rewrite app_length, zeros_length; lia).
    assert (VN : decimal_value n = decimal_value num) by apply value_zeros.
    destruct (reads_cons n _ _ 1 DN VN LN ltac:(lia)) as [R1 R2]. exists ((48 + 1)%N :: n). cbn [rev app numeral_loop].
    rewrite ST by exact I1. rewrite adjust_ok by (try exact RD; lia). cbn [bind]. fold n. rewrite (insert_begins after rest n B).
    split; [reflexivity|]. split.
    + destruct R1 as (A1 & A2 & A3). split; [exact A1|]. split; [rewrite A2, Nat2N.inj_add, N.pow_add_r; lia|lia].
    + split; [discriminate|]. intros _. exact R2.
  - set (n := zeros (k + D - List.length num) ++ num).
    assert (DN : is_decimal n) by (apply decimal_app; [apply decimal_zeros|exact RD]).
    assert (LN : List.length n = D + k) by (unfold n; rewrite app_length, zeros_length; lia).
    assert (VN : decimal_value n = decimal_value num) by apply value_zeros.
    destruct (glyph_facts d g G) as (_ & D9 & M).
    destruct (reads_cons n _ _ d DN VN LN ltac:(lia)) as [R1 R2]. exists ((48 + d)%N :: n). cbn [rev app]. cbn [numeral_loop hd_error].
    rewrite ST by exact I1. rewrite adjust_ok by (try exact RD; lia). cbn [bind]. fold n. rewrite insert_none by (eapply mem_incl; eauto).
    change (do st' <- numeral_step g (hd_error rest) (n, zeros D); numeral_loop rest st') with (numeral_loop (g :: rest) (n, zeros D)).
    rewrite (step_glyph d g) by exact G. split; [reflexivity|]. split.
    + destruct R1 as (A1 & A2 & A3). split; [exact A1|]. split; [rewrite A2, Nat2N.inj_add, N.pow_add_r; lia|lia].
    + split; [discriminate|]. intros _. exact R2.
Qed.

Lemma ju_step : small_step [0x5341%N; 0x62FE%N] 1 after_ju.
Proof. split; [|intros x; cbn; intuition]. intros u next num digit [<-|[<-|[]]]; reflexivity. Qed.
Lemma hyaku_step : small_step [0x767E%N] 2 after_hyaku.
Proof. split; [|intros x; cbn; intuition]. intros u next num digit [<-|[]]; reflexivity. Qed.
Lemma sen_step : small_step [0x5343%N] 3 after_sen.
Proof. split; [|intros x; cbn; intuition]. intros u next num digit [<-|[]]; reflexivity. Qed.

Lemma part_begins us w s v after rest : part us w s v -> incl us after -> begins after rest -> begins after (rev s ++ rest).
Proof. intros P I1 B. inversion P; subst; cbn; auto. Qed.

Lemma digits_step ds gs : Forall2 glyph ds gs -> forall rest num digit,
  numeral_loop (rev gs ++ rest) (num, digit) = numeral_loop rest (map (fun d => 48 + d)%N ds ++ num, digit).
Proof.
  induction 1 as [|d g ds gs G F IH]; intros rest num digit; [reflexivity|]. cbn [rev map app].
  rewrite <- app_assoc, IH. cbn [app]. rewrite (step_glyph d g) by exact G. reflexivity.
Qed.

Lemma digits_value ds : Forall (fun d => d <= 9)%N ds -> forall num,
  is_decimal num -> is_decimal (map (fun d => 48 + d)%N ds ++ num) /\
  decimal_value (map (fun d => 48 + d)%N ds ++ num) = (fold_left (fun v d => 10 * v + d)%N ds 0 * 10 ^ N.of_nat (List.length num) + decimal_value num)%N.
Proof.
  intros F num DN. induction F as [|d ds H F [IH1 IH2]]; cbn [map app fold_left]; [split; [exact DN|lia]|]. split.
  - constructor; [lia|exact IH1].
  - rewrite value_cons, IH2, app_length, map_length. rewrite (fold_value (fun d => d) ds (10 * 0 + d)%N). rewrite Nat2N.inj_add, N.pow_add_r.
    replace (48 + d - 48)%N with d by lia. set (p := (10 ^ N.of_nat (List.length ds))%N). set (q := (10 ^ N.of_nat (List.length num))%N). generalize (fold_left (fun v d0 : N => 10 * v + d0)%N ds 0%N). intros y. change (@List.length N num) with (@List.length char num). fold q. ring.
Qed.

Lemma section_step s v rest num D x : section s v -> is_decimal num -> decimal_value num = x -> List.length num = D -> begins after_sen rest ->
  exists num', numeral_loop (rev s ++ rest) (num, zeros D) = numeral_loop rest (num', zeros D) /\
    reads num' (v * 10 ^ N.of_nat D + x) (D + 4) /\ (s = [] -> num' = num) /\ (s <> [] -> starts_high num').
Proof.
  intros SEC DN VN LN B. inversion SEC as [s3 v3 s2 v2 s1 v1 s0 v0 P3 P2 P1 P0|ds gs F L4 H1]; subst s v; clear SEC.
  - rewrite !rev_app_distr, <- !app_assoc.
    assert (B2 : begins after_hyaku (rev s3 ++ rest)).
    { eapply part_begins; [exact P3|intros c; cbn; intuition|]. eapply begins_incl; [exact B|]. intros c. cbn. intuition. }
    assert (B1 : begins after_ju (rev s2 ++ rev s3 ++ rest)).
    { eapply part_begins; [exact P2|intros c; cbn; intuition|]. eapply begins_incl; [exact B2|]. intros c. cbn. intuition. }
    (* the digit *)
    assert (X0 : exists n0, numeral_loop (rev s0 ++ rev s1 ++ rev s2 ++ rev s3 ++ rest) (num, zeros D) = numeral_loop (rev s1 ++ rev s2 ++ rev s3 ++ rest) (n0, zeros D) /\
      reads n0 (v0 * 10 ^ N.of_nat D + x) (D + 1) /\ (s0 = [] -> n0 = num) /\ (s0 <> [] -> starts_high n0)).
    { inversion P0 as [|g d G H]; subst.
      - exists num. cbn [rev app]. split; [reflexivity|]. split; [repeat split; auto; lia|]. split; [reflexivity|congruence].
      - destruct (glyph_facts v0 g G) as (_ & D9 & _). destruct (reads_cons num _ _ v0 DN eq_refl eq_refl ltac:(lia)) as [R1 R2].
        exists ((48 + v0)%N :: num). cbn [rev app]. rewrite (step_glyph v0 g) by exact G. split; [reflexivity|]. split; [eapply reads_more; [exact R1|lia]|].
        split; [discriminate|auto]. }
    destruct X0 as (n0 & E0 & R0 & Z0 & H0). rewrite E0.
    destruct (part_step _ 1 _ 10 s1 v1 (rev s2 ++ rev s3 ++ rest) n0 D _ ju_step eq_refl P1 R0 B1) as (n1 & E1 & R1 & Z1 & H1). rewrite E1.
    replace (D + 1 + 1) with (D + 2) in R1 by lia.
    destruct (part_step _ 2 _ 100 s2 v2 (rev s3 ++ rest) n1 D _ hyaku_step eq_refl P2 R1 B2) as (n2 & E2 & R2 & Z2 & H2). rewrite E2.
    replace (D + 2 + 1) with (D + 3) in R2 by lia.
    destruct (part_step _ 3 _ 1000 s3 v3 rest n2 D _ sen_step eq_refl P3 R2 B) as (n3 & E3 & R3 & Z3 & H3). rewrite E3.
    exists n3. split; [reflexivity|]. split.
    + destruct R3 as (A1 & A2 & A3). split; [exact A1|]. split; [rewrite A2; lia|lia].
    + split.
      * intros Z. apply app_eq_nil in Z. destruct Z as [-> Z]. apply app_eq_nil in Z. destruct Z as [-> Z]. apply app_eq_nil in Z. destruct Z as [-> ->].
        rewrite Z3, Z2, Z1, Z0 by reflexivity. reflexivity.
      * intros NE. destruct s3; [rewrite Z3 by reflexivity|apply H3; discriminate]. destruct s2; [rewrite Z2 by reflexivity|apply H2; discriminate].
        destruct s1; [rewrite Z1 by reflexivity|apply H1; discriminate]. apply H0. exact NE.
  - assert (D9 : Forall (fun d => d <= 9)%N ds).
    { clear - F. induction F as [|d g ds gs G F IH]; constructor; [apply (glyph_facts d g G)|exact IH]. }
    destruct (digits_value ds D9 num DN) as [A1 A2]. eexists. split; [apply digits_step; exact F|]. split.
    + split; [exact A1|]. split; [rewrite A2, LN, VN; reflexivity|]. rewrite app_length, map_length. change (@List.length N num) with (@List.length char num). lia.
    + destruct ds as [|d ds]; [contradiction|]. inversion F; subst. split; [discriminate|]. intros _. cbn [map app starts_high]. lia.
Qed.

(** * Large units *)

Definition large_step (u : char) (e : nat) (after : list char) : Prop :=
  (forall next num digit, numeral_step u next (num, digit) = do n <- adjust_digits num [] (zeros e); Ok (insert_one next after n, zeros e)) /\ incl after after_sen.

Lemma section_last s v c s' : section s v -> s = s' ++ [c] -> mem c after_sen = false.
Proof.
  assert (G : forall d g, glyph d g -> mem g after_sen = false).
  { intros d g G. destruct (glyph_facts d g G) as (_ & _ & M). eapply mem_incl; [exact M|]. intros x. cbn. intuition. }
  assert (U : forall us x, In x us -> incl us small_units -> mem x after_sen = false).
  { intros us x X I1. apply I1 in X. repeat (destruct X as [<-|X]; [reflexivity|]). contradiction. }
  assert (PT : forall us w p x, part us w p x -> incl us small_units -> Forall (fun b => mem b after_sen = false) p).
  { intros us w p x P I1. inversion P; subst; repeat constructor; eauto. }
  intros SEC ->.
  assert (A : Forall (fun b => mem b after_sen = false) (s' ++ [c])).
  { inversion SEC as [s3 v3 s2 v2 s1 v1 s0 v0 P3 P2 P1 P0|ds gs F L4 H1]; subst.
    - repeat (apply Forall_app; split).
      + eapply PT; [exact P3|]. intros x. cbn. intuition.
      + eapply PT; [exact P2|]. intros x. cbn. intuition.
      + eapply PT; [exact P1|]. intros x. cbn. intuition.
      + inversion P0; subst; repeat constructor; eauto.
    - clear - F G. induction F; constructor; eauto. }
  apply Forall_app in A. destruct A as [_ A]. exact (Forall_inv A).
Qed.

Lemma large_piece u e after s v rest num D x : large_step u e after -> large u (10 ^ N.of_nat e) s v ->
  reads num x (D + 4) -> D + 4 <= e -> begins after rest ->
  exists num' D', numeral_loop (rev s ++ rest) (num, zeros D) = numeral_loop rest (num', zeros D') /\ D <= D' <= e /\
    reads num' (v + x) (D' + 4) /\ (s = [] -> num' = num) /\ (s <> [] -> starts_high num').
Proof.
  intros [ST IN] LG (RD & RV & RL) LE B. inversion LG as [| |s1 v1 SEC NE]; subst; clear LG.
  - exists num, D. cbn [rev app]. split; [reflexivity|]. split; [lia|]. split; [repeat split; auto|]. split; [reflexivity|congruence].
  - set (n := zeros (0 + e - List.length num) ++ num).
    assert (DN : is_decimal n) by (apply decimal_app; [apply decimal_zeros|exact RD]).
    assert (LN : List.length n = e) by (unfold n; rewrite app_length, zeros_length; lia).
    assert (VN : decimal_value n = decimal_value num) by apply value_zeros.
    destruct (reads_cons n _ _ 1 DN VN LN ltac:(lia)) as [R1 R2]. exists ((48 + 1)%N :: n), e. cbn [rev app numeral_loop].
    rewrite ST. rewrite (adjust_ok_0 num e) by (try exact RD; lia). cbn [bind]. fold n. rewrite (insert_begins after rest n B).
    split; [reflexivity|]. split; [lia|]. split.
    + destruct R1 as (A1 & A2 & A3). split; [exact A1|]. split; [rewrite A2; lia|lia].
    + split; [discriminate|]. intros _. exact R2.
  - set (n := zeros (0 + e - List.length num) ++ num).
    assert (DN : is_decimal n) by (apply decimal_app; [apply decimal_zeros|exact RD]).
    assert (LN : List.length n = e) by (unfold n; rewrite app_length, zeros_length; lia).
    assert (VN : decimal_value n = decimal_value num) by apply value_zeros.
    rewrite rev_app_distr. cbn [rev app]. cbn [numeral_loop]. rewrite ST. rewrite (adjust_ok_0 num e) by (try exact RD; lia). cbn [bind]. fold n.
    assert (H : insert_one (hd_error (rev s1 ++ rest)) after n = n).
    { destruct (rev s1) as [|c r] eqn:R.
      - exfalso. apply NE. rewrite <- (rev_involutive s1), R. reflexivity.
      - cbn [app hd_error]. apply insert_none. eapply mem_incl; [|exact IN]. apply (section_last s1 v1 c (rev r)); [exact SEC|].
        rewrite <- (rev_involutive s1), R. reflexivity. }
    rewrite H.
    destruct (section_step s1 v1 rest n e _ SEC DN VN LN) as (num' & E & R & Z & HI); [eapply begins_incl; [exact B|exact IN]|].
    exists num', e. split; [exact E|]. split; [lia|]. split; [exact R|]. split; [intros X; destruct s1; discriminate|]. intros _. apply HI. exact NE.
Qed.

Lemma large_begins u w s v after rest : large u w s v -> In u after -> begins after rest -> begins after (rev s ++ rest).
Proof. intros P I1 B. inversion P; subst; cbn; auto. rewrite rev_app_distr. cbn. exact I1. Qed.

Lemma man_step : large_step MAN 4 [OKU; CHO; KEI; GAI].
Proof. split; [reflexivity|intros c; cbn; intuition]. Qed.
Lemma oku_step : large_step OKU 8 [CHO; KEI; GAI].
Proof. split; [reflexivity|intros c; cbn; intuition]. Qed.
Lemma cho_step : large_step CHO 12 [KEI; GAI].
Proof. split; [reflexivity|intros c; cbn; intuition]. Qed.
Lemma kei_step : large_step KEI 16 [GAI].
Proof. split; [reflexivity|intros c; cbn; intuition]. Qed.
Lemma gai_step : large_step GAI 20 [].
Proof. split; [reflexivity|intros c; cbn; intuition]. Qed.

Lemma numeral_value s v : numeral s v ->
  exists r, to_arabic_numerals s = Ok r /\ is_decimal r /\ decimal_value r = v /\ match r with c :: _ => (49 <= c)%N | [] => False end.
Proof.
  intros (s1 & v1 & s0 & v0 & LS & SEC & -> & -> & NE).
  unfold large_units in LS.
  inversion LS as [|u5 e5 us5 t5 w5 t5' w5' L5 LS5]; subst; clear LS. inversion LS5 as [|u4 e4 us4 t4 w4 t4' w4' L4 LS4]; subst; clear LS5.
  inversion LS4 as [|u3 e3 us3 t3 w3 t3' w3' L3 LS3]; subst; clear LS4. inversion LS3 as [|u2 e2 us2 t2 w2 t2' w2' L2 LS2]; subst; clear LS3.
  inversion LS2 as [|u1 e1 us1 t1 w1 t1' w1' L1 LS1]; subst; clear LS2. inversion LS1; subst; clear LS1.
  unfold to_arabic_numerals. rewrite app_nil_r in *. rewrite !rev_app_distr, <- !app_assoc.
  assert (B5 : begins [] (@nil char)) by exact I.
  assert (B4 : begins [GAI] (rev t5)) by (rewrite <- (app_nil_r (rev t5)); eapply large_begins; [exact L5|cbn; auto|exact I]).
  assert (B3 : begins [KEI; GAI] (rev t4 ++ rev t5)) by (eapply large_begins; [exact L4|cbn; auto|eapply begins_incl; [exact B4|intros c; cbn; intuition]]).
  assert (B2 : begins [CHO; KEI; GAI] (rev t3 ++ rev t4 ++ rev t5)) by (eapply large_begins; [exact L3|cbn; auto|eapply begins_incl; [exact B3|intros c; cbn; intuition]]).
  assert (B1 : begins [OKU; CHO; KEI; GAI] (rev t2 ++ rev t3 ++ rev t4 ++ rev t5)) by (eapply large_begins; [exact L2|cbn; auto|eapply begins_incl; [exact B2|intros c; cbn; intuition]]).
  assert (B0 : begins after_sen (rev t1 ++ rev t2 ++ rev t3 ++ rev t4 ++ rev t5)) by (eapply large_begins; [exact L1|cbn; auto|eapply begins_incl; [exact B1|intros c; cbn; intuition]]).
  destruct (section_step s0 v0 _ [] 0 0 SEC ltac:(constructor) eq_refl eq_refl B0) as (n0 & E0 & R0 & Z0 & H0).
  destruct (large_piece _ _ _ _ _ _ _ _ _ man_step L1 R0 ltac:(lia) B1) as (n1 & D1 & E1 & DD1 & R1 & Z1 & H1).
  destruct (large_piece _ _ _ _ _ _ _ _ _ oku_step L2 R1 ltac:(lia) B2) as (n2 & D2 & E2 & DD2 & R2 & Z2 & H2).
  destruct (large_piece _ _ _ _ _ _ _ _ _ cho_step L3 R2 ltac:(lia) B3) as (n3 & D3 & E3 & DD3 & R3 & Z3 & H3).
  destruct (large_piece _ _ _ _ _ _ _ _ _ kei_step L4 R3 ltac:(lia) B4) as (n4 & D4 & E4 & DD4 & R4 & Z4 & H4).
  destruct (large_piece _ _ _ _ _ _ _ _ _ gai_step L5 R4 ltac:(lia) B5) as (n5 & D5 & E5 & DD5 & R5 & Z5 & H5).
  rewrite app_nil_r in E5. exists n5. split; [exact (eq_trans E0 (eq_trans E1 (eq_trans E2 (eq_trans E3 (eq_trans E4 E5)))))|]. destruct R5 as (A1 & A2 & A3). split; [exact A1|]. split; [rewrite A2; change (N.of_nat 0) with 0%N; rewrite N.pow_0_r; lia|].
  change (starts_high n5).
  destruct t5; [rewrite Z5 by reflexivity|apply H5; discriminate]. destruct t4; [rewrite Z4 by reflexivity|apply H4; discriminate].
  destruct t3; [rewrite Z3 by reflexivity|apply H3; discriminate]. destruct t2; [rewrite Z2 by reflexivity|apply H2; discriminate].
  destruct t1; [rewrite Z1 by reflexivity|apply H1; discriminate]. apply H0. exact NE.
Qed.

(** * Text without units *)

Lemma plain_step c next num digit : ~ is_unit c -> exists c' digit', numeral_step c next (num, digit) = Ok (c' :: num, digit') /\ glyph_image c c'.
Proof.
  intros NU. unfold numeral_step. destruct (digit_char c) as [d|] eqn:E.
  - exists d, digit. split; [reflexivity|]. destruct (digit_char_glyph c d E) as [G L]. left. exists (d - 48)%N. split; [exact G|lia].
  - assert (NG : forall d, ~ glyph d c) by (intros d G; destruct (glyph_facts d c G) as [X _]; congruence).
    assert (X : forall u, In u all_units -> (c =? u)%N = false).
    { intros u I1. apply N.eqb_neq. intros ->. apply NU. unfold is_unit. clear - I1. cbn in *. unfold JU, JU2, HYAKU, SEN, MAN, OKU, CHO, KEI, GAI in I1. intuition. }
    rewrite !X by (cbn; auto 12). cbn [orb]. exists c, []. split; [reflexivity|]. right. auto.
Qed.

Lemma plain_loop chars : Forall (fun c => ~ is_unit c) chars -> forall num digit,
  exists out, numeral_loop chars (num, digit) = Ok (rev out ++ num) /\ Forall2 glyph_image chars out.
Proof.
  induction 1 as [|c chars NU F IH]; intros num digit; cbn [numeral_loop]; [exists []; split; [reflexivity|constructor]|].
  destruct (plain_step c (hd_error chars) num digit NU) as (c' & digit' & E & G). rewrite E. cbn [bind].
  destruct (IH (c' :: num) digit') as (out & E2 & F2). exists (c' :: out). cbn [rev]. rewrite <- app_assoc. split; [exact E2|constructor; auto].
Qed.

Lemma Forall2_rev' {A B} (R : A -> B -> Prop) l l' : Forall2 R l l' -> Forall2 R (rev l) (rev l').
Proof. induction 1; cbn; [constructor|]. apply Forall2_app; auto. Qed.

Lemma plain_text s : Forall (fun c => ~ is_unit c) s -> exists r, to_arabic_numerals s = Ok r /\ Forall2 glyph_image s r.
Proof.
  intros F. unfold to_arabic_numerals. destruct (plain_loop (rev s) ltac:(apply Forall_rev; exact F) [] []) as (out & E & G).
  exists (rev out). rewrite app_nil_r in E. split; [exact E|]. rewrite <- (rev_involutive s). apply Forall2_rev'. exact G.
Qed.

(* other text before a numeral that starts with a digit *)
Lemma numeral_loop_app c d l2 : digit_char c = Some d -> forall l st r, numeral_loop (l ++ [c]) st = Ok r ->
  exists digit, numeral_loop (l ++ c :: l2) st = numeral_loop l2 (r, digit).
Proof.
  intros D. induction l as [|x l IH]; intros [num digit] r H; cbn [app numeral_loop hd_error] in *.
  - unfold numeral_step in *. rewrite D in *. cbn [bind fst] in *. injection H as <-. exists digit. reflexivity.
  - replace (hd_error (l ++ c :: l2)) with (hd_error (l ++ [c])) by (destruct l; reflexivity).
    destruct (numeral_step x (hd_error (l ++ [c])) (num, digit)) as [st'| |]; cbn [bind] in *; try discriminate. apply IH. exact H.
Qed.

Lemma prefixed g d s t r : glyph d g -> to_arabic_numerals (g :: s) = Ok r -> Forall (fun c => ~ is_unit c) t ->
  exists t', to_arabic_numerals (t ++ g :: s) = Ok (t' ++ r) /\ Forall2 glyph_image t t'.
Proof.
  intros G E F. unfold to_arabic_numerals in *. destruct (glyph_facts d g G) as (D & _). cbn [rev] in E. rewrite rev_app_distr. cbn [rev]. rewrite <- app_assoc. cbn [app].
  destruct (numeral_loop_app g _ (rev t) D _ _ _ E) as (digit & ->).
  destruct (plain_loop (rev t) ltac:(apply Forall_rev; exact F) r digit) as (out & -> & G2). exists (rev out). split; [reflexivity|].
  rewrite <- (rev_involutive t). apply Forall2_rev'. exact G2.
Qed.

Lemma prefixed_numeral g d s t v : glyph d g -> numeral (g :: s) v -> Forall (fun c => ~ is_unit c) t ->
  exists r t', to_arabic_numerals (t ++ g :: s) = Ok (t' ++ r) /\ Forall2 glyph_image t t' /\ is_decimal r /\ decimal_value r = v.
Proof.
  intros G N F. destruct (numeral_value _ _ N) as (r & E & D & V & _). destruct (prefixed g d s t r G E F) as (t' & E' & F').
  exists r, t'. auto.
Qed.

(** * Every number can be written *)

Lemma a_glyph d : (d <= 9)%N -> exists g, glyph d g.
Proof.
  intros H. assert (X : (d = 0 \/ d = 1 \/ d = 2 \/ d = 3 \/ d = 4 \/ d = 5 \/ d = 6 \/ d = 7 \/ d = 8 \/ d = 9)%N) by lia.
  repeat (destruct X as [->|X]; [eexists; eexists; split; [unfold digit_glyphs; cbn [In]; repeat (try (left; reflexivity); right)|left; reflexivity]|]).
  subst. eexists; eexists; split; [unfold digit_glyphs; cbn [In]; repeat (try (left; reflexivity); right)|left; reflexivity].
Qed.

Lemma a_part us w u d : In u us -> (d <= 9)%N -> exists s, part us w s (d * w).
Proof.
  intros I1 H. destruct (N.eq_dec d 0) as [->|N]; [exists []; constructor|]. destruct (a_glyph d H) as [g G].
  exists [g; u]. apply part_digit; auto. lia.
Qed.

Lemma a_section v : (v < 10000)%N -> exists s, section s v /\ (s = [] -> v = 0%N).
Proof.
  intros H.
  set (d3 := (v / 1000)%N). set (r3 := (v mod 1000)%N). set (d2 := (r3 / 100)%N). set (r2 := (r3 mod 100)%N). set (d1 := (r2 / 10)%N). set (d0 := (r2 mod 10)%N).
  assert (E3 : v = (1000 * d3 + r3)%N) by (apply N.div_mod; lia). assert (E2 : r3 = (100 * d2 + r2)%N) by (apply N.div_mod; lia).
  assert (E1 : r2 = (10 * d1 + d0)%N) by (apply N.div_mod; lia).
  assert (L3 : (r3 < 1000)%N) by (apply N.mod_lt; lia). assert (L2 : (r2 < 100)%N) by (apply N.mod_lt; lia). assert (L1 : (d0 < 10)%N) by (apply N.mod_lt; lia).
  clearbody d3 r3 d2 r2 d1 d0.
  destruct (a_part [0x5343%N] 1000 0x5343%N d3) as [s3 P3]; [cbn; auto|lia|]. destruct (a_part [0x767E%N] 100 0x767E%N d2) as [s2 P2]; [cbn; auto|lia|].
  destruct (a_part [0x5341%N; 0x62FE%N] 10 0x5341%N d1) as [s1 P1]; [cbn; auto|lia|].
  assert (P0 : exists s0, ones s0 d0).
  { destruct (N.eq_dec d0 0) as [->|N]; [exists []; constructor|]. destruct (a_glyph d0) as [g G]; [lia|]. exists [g]. constructor; [exact G|lia]. }
  destruct P0 as [s0 P0]. exists (s3 ++ s2 ++ s1 ++ s0). split.
  - replace v with (d3 * 1000 + d2 * 100 + d1 * 10 + d0)%N by lia. constructor; assumption.
  - intros Z. apply app_eq_nil in Z. destruct Z as [-> Z]. apply app_eq_nil in Z. destruct Z as [-> Z]. apply app_eq_nil in Z. destruct Z as [-> ->].
    inversion P3; inversion P2; inversion P1; inversion P0; subst; lia.
Qed.

Lemma a_large u w v : (v < 10000)%N -> exists s, large u w s (v * w) /\ (s = [] -> v = 0%N).
Proof.
  intros H. destruct (N.eq_dec v 0) as [->|N]; [exists []; split; [constructor|reflexivity]|].
  destruct (a_section v H) as (s & SEC & NE). exists (s ++ [u]). split.
  - constructor; [exact SEC|]. intros ->. apply N. apply NE. reflexivity.
  - intros Z. destruct s; discriminate.
Qed.

Lemma a_larges us : forall v, (v < 10 ^ (4 * N.of_nat (List.length us)))%N ->
  (forall i, nth_error (map snd us) i = None \/ nth_error (map snd us) i = Some (4 * (List.length us - i))) ->
  exists s, larges us s (v * 10000) /\ (s = [] -> v = 0%N).
Proof.
  induction us as [|[u e] us IH]; intros v H E.
  - cbn in H. assert (v = 0%N) by lia. subst. exists []. split; [constructor|reflexivity].
  - cbn [List.length] in *. set (p := (10 ^ (4 * N.of_nat (List.length us)))%N) in *.
    assert (PP : (0 < p)%N) by (unfold p; apply N.neq_0_lt_0; apply N.pow_nonzero; lia).
    assert (P1 : (10 ^ (4 * N.of_nat (S (List.length us))) = 10000 * p)%N).
    { unfold p. rewrite Nat2N.inj_succ. replace (4 * N.succ (N.of_nat (List.length us)))%N with (4 + 4 * N.of_nat (List.length us))%N by lia. rewrite N.pow_add_r. reflexivity. }
    rewrite P1 in H.
    assert (DM : v = (p * (v / p) + v mod p)%N) by (apply N.div_mod; lia). assert (LT : (v mod p < p)%N) by (apply N.mod_lt; lia).
    assert (QL : (v / p < 10000)%N) by (apply N.div_lt_upper_bound; lia).
    destruct (IH (v mod p)%N LT) as (s' & L' & NE').
    { intros i. specialize (E (S i)). cbn [map nth_error] in E. destruct E as [E|E]; [left; exact E|right; rewrite E; f_equal; lia]. }
    destruct (a_large u (10 ^ N.of_nat e) (v / p) QL) as (s & L & NE).
    assert (EE : e = 4 * S (List.length us)). { destruct (E 0) as [X|X]; cbn in X; [discriminate|]. injection X as ->. lia. }
    assert (P2 : (10 ^ N.of_nat e = 10000 * p)%N) by (rewrite <- P1; f_equal; lia).
    exists (s ++ s'). split.
    + replace (v * 10000)%N with ((v / p) * 10 ^ N.of_nat e + (v mod p) * 10000)%N by (rewrite P2; lia). constructor; assumption.
    + intros Z. apply app_eq_nil in Z. destruct Z as [-> ->]. rewrite NE, NE' in DM by reflexivity. lia.
Qed.

Lemma every_number v : (0 < v < 10 ^ 24)%N -> exists s, numeral s v.
Proof.
  intros H. assert (DM : v = (10000 * (v / 10000) + v mod 10000)%N) by (apply N.div_mod; lia).
  assert (LT : (v mod 10000 < 10000)%N) by (apply N.mod_lt; lia).
  destruct (a_larges large_units (v / 10000)%N) as (s1 & L1 & N1).
  - apply N.div_lt_upper_bound; [lia|]. cbn [List.length large_units]. change (10000 * 10 ^ (4 * N.of_nat 5))%N with (10 ^ 24)%N. lia.
  - intros i. do 5 (destruct i as [|i]; [right; reflexivity|]). left. destruct i; reflexivity.
  - destruct (a_section (v mod 10000) LT) as (s0 & S0 & N0). exists (s1 ++ s0), s1, (v / 10000 * 10000)%N, s0, (v mod 10000)%N.
    split; [exact L1|]. split; [exact S0|]. split; [reflexivity|]. split; [lia|].
    intros Z. apply app_eq_nil in Z. destruct Z as [-> ->]. rewrite N1, N0 in DM by reflexivity. lia.
Qed.

(** * Digit strings *)

Lemma digit_string ds gs : Forall2 glyph ds gs -> to_arabic_numerals gs = Ok (map (fun d => 48 + d)%N ds).
Proof.
  intros F. unfold to_arabic_numerals. rewrite <- (app_nil_r (rev gs)). etransitivity; [apply (digits_step ds gs F [] [] [])|].
  cbn. rewrite app_nil_r. reflexivity.
Qed.
