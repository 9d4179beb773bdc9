(** What the number filter makes of any text. *)
From Coq Require Import List NArith ZArith Bool Lia ZifyBool ZifyNat ZifyN.
From Verif Require Import MBase MUtf8 MText MBuild MAnalyzer MTokenFilter STokenFilter SNumber LBase LUtf8 LNumeral.
Import ListNotations.
Local Open Scope list_scope.

(** ** Units *)

Lemma unit_cases c e : unit_of c e -> (c, e) = (JU, 1) \/ (c, e) = (JU2, 1) \/ (c, e) = (HYAKU, 2) \/ (c, e) = (SEN, 3) \/ (c, e) = (MAN, 4) \/
  (c, e) = (OKU, 8) \/ (c, e) = (CHO, 12) \/ (c, e) = (KEI, 16) \/ (c, e) = (GAI, 20).
Proof. unfold unit_of, unit_exponents. cbn [In]. intros H. repeat (destruct H as [H|H]; [rewrite <- H; auto 12|]). destruct H. Qed.

Lemma unit_fun c e e' : unit_of c e -> unit_of c e' -> e = e'.
Proof.
  intros H H'. apply unit_cases in H. apply unit_cases in H'.
  repeat (destruct H as [H|H]); injection H as -> ->; repeat (destruct H' as [H'|H']); try (injection H' as <-; reflexivity); discriminate H'.
Qed.
Lemma unit_is c e : unit_of c e -> is_unit c.
Proof.
  intros H. unfold is_unit, small_units, large_units. apply unit_cases in H.
  repeat (destruct H as [H|H]); injection H as -> ->; cbn; auto 12.
Qed.
Lemma is_unit_of c : is_unit c -> exists e, unit_of c e.
Proof.
  intros [H|H]; cbn in H; repeat (destruct H as [H|H]; [subst c; eexists; unfold unit_of; cbn; auto 12|]); destruct H.
Qed.
Lemma unit_dec c : (exists e, unit_of c e) \/ ~ is_unit c.
Proof.
  destruct (mem c (map fst unit_exponents)) eqn:E.
  - left. apply mem_in in E. apply in_map_iff in E as ([u e] & <- & H). exists e. exact H.
  - right. intros U. apply is_unit_of in U as (e & U). assert (X : mem c (map fst unit_exponents) = true) by (apply mem_in, in_map_iff; exists (c, e); split; [reflexivity|exact U]). congruence.
Qed.
Lemma unit_no_digit c e : unit_of c e -> digit_char c = None.
Proof. intros H. apply unit_cases in H. repeat (destruct H as [H|H]); injection H as -> ->; reflexivity. Qed.

Lemma force_fun s g : in_force s g -> forall g', in_force s g' -> g = g'.
Proof.
  assert (NG : forall c e d, unit_of c e -> glyph d c -> False).
  { intros c e d U G. apply unit_no_digit in U. apply glyph_facts in G as (G & _). congruence. }
  induction 1 as [|c e s U L|c e s g U L F IH|c d s g G F IH|c s NU N]; intros g' H'; inversion H'; subst;
    repeat match goal with
    | U1 : unit_of ?c ?e1, U2 : unit_of ?c ?e2 |- _ => assert (e1 = e2) by (apply (unit_fun c); assumption); clear U2; subst
    | U1 : unit_of ?c ?e1, U2 : ~ is_unit ?c |- _ => exfalso; exact (U2 (unit_is c e1 U1))
    | U1 : unit_of ?c ?e1, U2 : glyph ?d ?c |- _ => exfalso; exact (NG c e1 d U1 U2)
    | U1 : forall d, ~ glyph d ?c, U2 : glyph ?d ?c |- _ => exfalso; exact (U1 d U2)
    end; try lia; try reflexivity; auto.
Qed.
Lemma force_ex s : exists g, in_force s g.
Proof.
  induction s as [|c s (g & IH)]; [exists 0; constructor|]. destruct (unit_dec c) as [(e & U)|NU].
  - destruct (le_lt_dec 4 e); [exists e; constructor; assumption|exists g; eapply force_small; eassumption].
  - destruct (digit_char c) as [d|] eqn:D; [exists g; apply digit_char_glyph in D as [D _]; eapply force_digit; eassumption|].
    exists 0. apply force_other; [exact NU|]. intros d G. apply glyph_facts in G as (G & _). congruence.
Qed.
Lemma room_fun c s n n' : room c s n -> room c s n' -> n = n'.
Proof.
  intros (e & U & H) (e' & U' & H'). assert (e = e') by (apply (unit_fun c); assumption). subst e'.
  destruct H as [[L ->]|[L (g & F & ->)]]; destruct H' as [[L' ->]|[L' (g' & F' & ->)]]; try lia. rewrite (force_fun _ _ F _ F'). reflexivity.
Qed.
Lemma room_ex c s : is_unit c -> exists n, room c s n.
Proof.
  intros U. apply is_unit_of in U as (e & U). destruct (force_ex s) as (g & F). destruct (le_lt_dec 4 e); [exists e|exists (e + g)]; exists e; split; auto. right. split; [lia|]. exists g. auto.
Qed.

(* the test for a missing one *)
Definition alone_b (b : option char) (e : nat) : bool :=
  match b with None => true | Some x => existsb (fun '(u, e') => (x =? u)%N && Nat.ltb e e') unit_exponents end.
Lemma alone_spec b c e : unit_of c e -> alone_b b e = true <-> stands_alone b c.
Proof.
  intros U. destruct b as [x|]; cbn [alone_b stands_alone]; [|tauto]. rewrite existsb_exists. split.
  - intros ([u e'] & I & H). apply andb_true_iff in H as [H L]. apply N.eqb_eq in H. subst u. exists e, e'. apply Nat.ltb_lt in L. auto.
  - intros (e1 & e' & U1 & I & L). rewrite (unit_fun _ _ _ U1 U) in L. exists (x, e'). split; [exact I|]. rewrite N.eqb_refl. apply Nat.ltb_lt, L.
Qed.
Definition ones_of (b : option char) (e : nat) : str := if alone_b b e then [49%N] else [].
Lemma leading_ones b c e x : unit_of c e -> leading b c x <-> x = ones_of b e.
Proof.
  intros U. assert (S := alone_spec b c e U). unfold ones_of. split.
  - intros [H|H]; [apply S in H; rewrite H; reflexivity|]. destruct (alone_b b e); [exfalso; apply H, S; reflexivity|reflexivity].
  - intros ->. destruct (alone_b b e); constructor; [apply S; reflexivity|]. intros H. apply S in H. discriminate.
Qed.
Lemma leading_fun b c x x' : is_unit c -> leading b c x -> leading b c x' -> x = x'.
Proof. intros U H H'. apply is_unit_of in U as (e & U). apply (leading_ones b c e x U) in H. apply (leading_ones b c e x' U) in H'. congruence. Qed.
Lemma leading_ex b c : is_unit c -> exists x, leading b c x.
Proof. intros U. apply is_unit_of in U as (e & U). exists (ones_of b e). apply (leading_ones b c e _ U). reflexivity. Qed.

(** ** Padding *)

Lemma blen_zeros n : blen (zeros n) = n.
Proof. rewrite decimal_blen, zeros_length by apply decimal_zeros. reflexivity. Qed.
Lemma adjust_exact num a b : adjust_digits num (zeros a) (zeros b) = if Nat.ltb (a + b) (blen num) then Panic else Ok (zeros (a + b - blen num) ++ num).
Proof.
  unfold adjust_digits. rewrite zeros_app, blen_zeros. destruct (Nat.ltb_spec (a + b) (blen num)) as [L|L]; [reflexivity|].
  replace (zeros (a + b)) with (zeros (a + b - blen num) ++ zeros (blen num)) by (rewrite zeros_app; f_equal; lia).
  replace (a + b - blen num) with (blen (zeros (a + b - blen num))) at 2 by apply blen_zeros. rewrite str_to_app. reflexivity.
Qed.

Lemma insert_exact b e us num : (forall x, mem x us = existsb (fun '(u, e') => (x =? u)%N && Nat.ltb e e') unit_exponents) -> insert_one b us num = ones_of b e ++ num.
Proof. intros H. unfold ones_of. destruct b as [x|]; cbn [insert_one alone_b]; [|reflexivity]. rewrite H. destruct (existsb _ _); reflexivity. Qed.

Ltac which_unit := let x := fresh "x" in intros x; unfold mem, unit_exponents; cbn [existsb Nat.ltb Nat.leb];
  unfold HYAKU, SEN, MAN, OKU, CHO, KEI, GAI; rewrite ?andb_false_r, ?andb_true_r, ?orb_false_l, ?orb_false_r; reflexivity.

Lemma step_unit c e b num g : unit_of c e ->
  numeral_step c b (num, zeros g) =
    let n := if Nat.leb 4 e then e else e + g in
    if Nat.ltb n (blen num) then Panic else Ok (ones_of b e ++ zeros (n - blen num) ++ num, zeros (if Nat.leb 4 e then e else g)).
Proof.
  intros U. unfold numeral_step. rewrite (unit_no_digit c e U). apply unit_cases in U.
  repeat (destruct U as [U|U]); injection U as -> ->; cbn [N.eqb JU JU2 HYAKU SEN MAN OKU CHO KEI GAI Pos.eqb orb Nat.leb]; cbv zeta;
    try (rewrite adjust_exact; destruct (Nat.ltb _ _); cbn [bind]; [reflexivity|]);
    try (change (@nil char) with (zeros 0); rewrite adjust_exact; cbn [Nat.add]; destruct (Nat.ltb _ _); cbn [bind]; [reflexivity|]; change (zeros 0) with (@nil char)).
  all: match goal with |- context [insert_one ?b ?us ?num] => first
    [ rewrite (insert_exact b 1 us num) by which_unit | rewrite (insert_exact b 2 us num) by which_unit | rewrite (insert_exact b 3 us num) by which_unit
    | rewrite (insert_exact b 4 us num) by which_unit | rewrite (insert_exact b 8 us num) by which_unit | rewrite (insert_exact b 12 us num) by which_unit
    | rewrite (insert_exact b 16 us num) by which_unit | rewrite (insert_exact b 20 us num) by which_unit ] end; reflexivity.
Qed.

(** ** The loop *)

Fixpoint steps (chars : list char) (b : option char) (st : str * str) : res (str * str) :=
  match chars with
  | [] => Ok st
  | c :: r => do st' <- numeral_step c (match r with [] => b | x :: _ => Some x end) st; steps r b st'
  end.
Lemma loop_steps chars st : numeral_loop chars st = do st' <- steps chars None st; Ok (fst st').
Proof.
  revert st. induction chars as [|c r IH]; intros st; cbn [numeral_loop steps]; [reflexivity|].
  replace (hd_error r) with (match r with [] => None | x :: _ => Some x end) by (destruct r; reflexivity).
  destruct (numeral_step c _ st); cbn [bind]; auto.
Qed.
Lemma steps_app l c b st : steps (l ++ [c]) b st = do st' <- steps l (Some c) st; numeral_step c b st'.
Proof.
  revert st. induction l as [|x l IH]; intros st; cbn [app steps bind]; [destruct (numeral_step c b st); reflexivity|].
  replace (match l ++ [c] with [] => b | y :: _ => Some y end) with (match l with [] => Some c | y :: _ => Some y end) by (destruct l; reflexivity).
  destruct (numeral_step x _ st); cbn [bind]; auto.
Qed.

Lemma read_det b s r : read_as b s r -> forall r', read_as b s r' -> r = r'.
Proof.
  induction 1 as [b|b c s c' r NU G H IH|b c s n r x H IH R L X]; intros r0 H'; inversion H' as [|? ? ? c2 r2 NU2 G2 H2|? ? ? n2 r2 x2 H2 R2 L2 X2]; subst; auto.
  - f_equal; [|auto]. destruct G as [(d & G & ->)|[N ->]], G2 as [(d2 & G2 & ->)|[N2 ->]]; auto; [|destruct (N2 d G)|destruct (N d2 G2)].
    apply glyph_facts in G as (G & _). apply glyph_facts in G2 as (G2 & _). congruence.
  - exfalso. apply NU. destruct R2 as (e & U & _). exact (unit_is _ _ U).
  - exfalso. apply NU2. destruct R as (e & U & _). exact (unit_is _ _ U).
  - assert (U : is_unit c) by (destruct R as (e & U & _); exact (unit_is _ _ U)).
    rewrite (leading_fun _ _ _ _ U X X2), (IH _ H2), (room_fun _ _ _ _ R R2). reflexivity.
Qed.

Lemma steps_exact s g : in_force s g -> forall b,
  (exists r, read_as b s r /\ steps (rev s) b ([], []) = Ok (r, zeros g)) \/ ((forall r, ~ read_as b s r) /\ steps (rev s) b ([], []) = Panic).
Proof.
  revert g. induction s as [|c s IH]; intros g F b.
  - left. exists []. inversion F. split; [constructor|reflexivity].
  - cbn [rev]. rewrite steps_app. destruct (force_ex s) as (g0 & F0). destruct (IH g0 F0 (Some c)) as [(r & R & E)|[N E]]; rewrite E; cbn [bind].
    + destruct (unit_dec c) as [(e & U)|NU].
      * rewrite (step_unit c e b r g0 U). cbv zeta.
        assert (RM : room c s (if Nat.leb 4 e then e else e + g0)).
        { exists e. split; [exact U|]. destruct (Nat.leb_spec 4 e); [left; auto|right; split; [lia|]; exists g0; auto]. }
        assert (G : (if Nat.leb 4 e then e else g0) = g).
        { apply (force_fun (c :: s)); [|exact F]. destruct (Nat.leb_spec 4 e); [constructor; assumption|eapply force_small; eassumption]. }
        remember (if Nat.leb 4 e then e else e + g0) as n. destruct (Nat.ltb_spec n (blen r)) as [L|L].
        -- right. split; [|reflexivity]. intros r' H. inversion H as [|? ? ? c2 r2 NU2 G2 H2|? ? ? n2 r2 x2 H2 R2 L2 X2]; subst; [exact (NU2 (unit_is c e U))|].
           rewrite (read_det _ _ _ H2 _ R) in L2. rewrite (room_fun _ _ _ _ R2 RM) in L2. lia.
        -- left. exists (ones_of b e ++ zeros (n - blen r) ++ r). rewrite G. split; [|reflexivity]. apply read_unit; auto. apply (leading_ones b c e _ U). reflexivity.
      * left. unfold numeral_step. destruct (digit_char c) as [d|] eqn:D.
        -- apply digit_char_glyph in D as [D L]. exists (d :: r). assert (g0 = g) as -> by (apply (force_fun (c :: s)); [eapply force_digit; eassumption|exact F]).
           split; [|reflexivity]. apply read_char; [exact NU| |exact R]. left. exists (d - 48)%N. split; [exact D|lia].
        -- assert (NG : forall d, ~ glyph d c) by (intros d G; destruct (glyph_facts d c G) as [X _]; congruence).
           assert (X : forall u, In u all_units -> (c =? u)%N = false).
           { intros u I1. apply N.eqb_neq. intros ->. apply NU. unfold is_unit. clear - I1. cbn in *. unfold JU, JU2, HYAKU, SEN, MAN, OKU, CHO, KEI, GAI in I1. intuition. }
           rewrite !X by (cbn; auto 12). cbn [orb]. exists (c :: r). assert (0 = g) as <- by (apply (force_fun (c :: s)); [apply force_other; assumption|exact F]).
           split; [|reflexivity]. apply read_char; [exact NU| |exact R]. right. auto.
    + right. split; [|reflexivity]. intros r H. inversion H; subst; eapply N; eassumption.
Qed.

Theorem number_exact s r : to_arabic_numerals s = Ok r <-> read_as None s r.
Proof.
  unfold to_arabic_numerals. rewrite loop_steps. destruct (force_ex s) as (g & F). destruct (steps_exact s g F None) as [(r0 & R & E)|[N E]]; rewrite E; cbn [bind fst].
  - split; [intros H; injection H as <-; exact R|intros H; rewrite (read_det _ _ _ R _ H); reflexivity].
  - split; [discriminate|]. intros H. destruct (N r H).
Qed.
Theorem number_else s : to_arabic_numerals s = Panic \/ exists r, to_arabic_numerals s = Ok r.
Proof.
  unfold to_arabic_numerals. rewrite loop_steps. destruct (force_ex s) as (g & F). destruct (steps_exact s g F None) as [(r0 & R & E)|[N E]]; rewrite E; cbn [bind fst]; eauto.
Qed.

(** ** When the filter stops the program *)

Lemma last_cons {X} (c u : X) m : last (c :: m) u = last m c.
Proof. revert c u. induction m as [|x m IH]; intros c u; [reflexivity|]. change (last (c :: x :: m) u) with (last (x :: m) u). rewrite !IH. reflexivity. Qed.

Lemma read_plain m : Forall (fun c => ~ is_unit c) m -> forall u rest r, read_as (Some u) (m ++ rest) r ->
  exists m' r', Forall2 glyph_image m m' /\ read_as (Some (last m u)) rest r' /\ r = m' ++ r'.
Proof.
  induction 1 as [|c m NU F IH]; intros u rest r H; cbn [app] in H; [exists [], r; repeat split; [constructor|exact H]|].
  inversion H as [|? ? ? c2 r2 NU2 G2 H2|? ? ? n2 r2 x2 H2 R2 L2 X2]; subst; [|exfalso; apply NU; destruct R2 as (e & U & _); exact (unit_is _ _ U)].
  destruct (IH _ _ _ H2) as (m' & r' & F' & R' & ->). exists (c2 :: m'), r'. split; [constructor; assumption|]. split; [rewrite last_cons; exact R'|reflexivity].
Qed.

Lemma read_size b c s r n x : read_as b (c :: s) r -> room c s n -> leading b c x -> blen r = List.length x + n.
Proof.
  intros H R X. assert (U : is_unit c) by (destruct R as (e & U & _); exact (unit_is _ _ U)).
  inversion H as [|? ? ? c2 r2 NU2 G2 H2|? ? ? n2 r2 x2 H2 R2 L2 X2]; subst; [contradiction|].
  rewrite (room_fun _ _ _ _ R2 R) in *. rewrite (leading_fun _ _ _ _ U X2 X). rewrite !blen_app. fold (zeros (n - blen r2)). rewrite blen_zeros.
  destruct X; cbn [List.length blen]; [change (width 49%N) with 1|]; lia.
Qed.

Lemma images_fun m m' : Forall2 glyph_image m m' -> forall m2, Forall2 glyph_image m m2 -> m' = m2.
Proof.
  induction 1 as [|c c' m m' G F IH]; intros m2 H; inversion H as [|? c2 ? m3 G2 F2]; subst; [reflexivity|]. f_equal; [|auto].
  destruct G as [(d & G & ->)|[N ->]], G2 as [(d2 & G2 & ->)|[N2 ->]]; auto; [|destruct (N2 d G)|destruct (N d2 G2)].
  apply glyph_facts in G as (G & _). apply glyph_facts in G2 as (G2 & _). congruence.
Qed.

Lemma read_suffix a u s : forall b r, read_as b (a ++ u :: s) r -> exists b' r', read_as b' (u :: s) r'.
Proof. induction a as [|c a IH]; intros b r H; cbn [app] in H; [eauto|]. inversion H; subst; eapply IH; eassumption. Qed.

Lemma crowded_stops s : crowded s -> forall b r, ~ read_as b s r.
Proof.
  assert (UI : forall u s n, room u s n -> is_unit u) by (intros u s' n (e & U & _); exact (unit_is _ _ U)).
  intros [a u m m' n NU F R L|a u m m' u' s' n n' x NU F R R' X L] b r H; apply read_suffix in H as (b' & r' & H);
    (inversion H as [|? ? ? c2 r2 NU2 G2 H2|? ? ? n2 r2 x2 H2 R2 L2 X2]; subst; [exact (NU2 (UI _ _ _ R))|]); rewrite (room_fun _ _ _ _ R2 R) in L2.
  - rewrite <- (app_nil_r m) in H2. destruct (read_plain m NU _ _ _ H2) as (m2 & r3 & F2 & H3 & ->). inversion H3; subst. rewrite app_nil_r in L2. rewrite (images_fun _ _ F2 _ F) in L2. lia.
  - destruct (read_plain m NU _ _ _ H2) as (m2 & r3 & F2 & H3 & ->). rewrite (images_fun _ _ F2 _ F) in L2. rewrite blen_app, (read_size _ _ _ _ _ _ H3 R' X) in L2. lia.
Qed.

Lemma crowded_cons c s : crowded s -> crowded (c :: s).
Proof. intros [a u m m' n NU F R L|a u m m' u' s' n n' x NU F R R' X L]; [apply (crowded_end (c :: a) u m m' n)|apply (crowded_unit (c :: a) u m m' u' s' n n' x)]; assumption. Qed.

Lemma first_unit s : exists m rest, s = m ++ rest /\ Forall (fun c => ~ is_unit c) m /\ match rest with [] => True | u :: _ => is_unit u end.
Proof.
  induction s as [|c s (m & rest & -> & F & H)]; [exists [], []; repeat split; constructor|].
  destruct (unit_dec c) as [(e & U)|NU].
  - exists [], (c :: m ++ rest). split; [reflexivity|]. split; [constructor|exact (unit_is _ _ U)].
  - exists (c :: m), rest. split; [reflexivity|]. split; [constructor; assumption|exact H].
Qed.

Lemma read_or_crowded s : forall b, (exists r, read_as b s r) \/ crowded s.
Proof.
  induction s as [|c s IH]; intros b; [left; exists []; constructor|]. destruct (IH (Some c)) as [(r & R)|C]; [|right; apply crowded_cons, C].
  destruct (unit_dec c) as [(e & U)|NU].
  - assert (IU := unit_is _ _ U). destruct (room_ex c s IU) as (n & RM). destruct (leading_ex b c IU) as (x & X).
    destruct (le_lt_dec (blen r) n) as [L|L]; [left; eexists; eapply read_unit; eassumption|]. right.
    destruct (first_unit s) as (m & rest & -> & F & H). destruct (read_plain m F _ _ _ R) as (m' & r' & F' & R' & ->). rewrite blen_app in L.
    destruct rest as [|u' s'].
    + inversion R'; subst. rewrite app_nil_r in *. apply (crowded_end [] c m m' n); auto. cbn [blen] in L. lia.
    + destruct (room_ex u' s' H) as (n' & RM'). destruct (leading_ex (Some (last m c)) u' H) as (x' & X').
      apply (crowded_unit [] c m m' u' s' n n' x'); auto. rewrite (read_size _ _ _ _ _ _ R' RM' X') in L. lia.
  - left. destruct (digit_char c) as [d|] eqn:D.
    + apply digit_char_glyph in D as [D L]. exists (d :: r). apply read_char; auto. left. exists (d - 48)%N. split; [exact D|lia].
    + exists (c :: r). apply read_char; auto. right. split; [|reflexivity]. intros d G. destruct (glyph_facts d c G) as [X _]. congruence.
Qed.

Theorem number_panics s : to_arabic_numerals s = Panic <-> crowded s.
Proof.
  split.
  - intros E. destruct (read_or_crowded s None) as [(r & R)|C]; [|exact C]. apply number_exact in R. congruence.
  - intros C. destruct (number_else s) as [E|(r & E)]; [exact E|]. apply number_exact in E. destruct (crowded_stops s C _ _ E).
Qed.

(** ** Text after a unit *)

Lemma force_app s g t : in_force s g -> Forall (fun c => ~ is_unit c) t -> in_force (s ++ t) g.
Proof.
  intros H F. induction H as [|c e s U L|c e s g U L H IH|c d s g G H IH|c s NU N]; cbn [app];
    [|constructor; assumption|eapply force_small; eassumption|eapply force_digit; eassumption|apply force_other; assumption].
  induction F as [|c t NU F IH]; [constructor|]. destruct (digit_char c) as [d|] eqn:D.
  - apply digit_char_glyph in D as [D L]. eapply force_digit; eassumption.
  - apply force_other; [exact NU|]. intros d G. destruct (glyph_facts d c G) as [X _]. congruence.
Qed.
Lemma room_app c s t n : room c s n -> Forall (fun c => ~ is_unit c) t -> room c (s ++ t) n.
Proof. intros (e & U & H) F. exists e. split; [exact U|]. destruct H as [H|[L (g & G & ->)]]; [auto|]. right. split; [exact L|]. exists g. split; [apply force_app; assumption|reflexivity]. Qed.

Lemma read_after s t : Forall (fun c => ~ is_unit c) t -> Exists is_unit s -> forall b r r', read_as b s r -> read_as b (s ++ t) r' -> blen r' = blen r.
Proof.
  intros F E. induction s as [|c s IH]; intros b r r' H H'; [inversion E|]. cbn [app] in H'. destruct (unit_dec c) as [(e & U)|NU].
  - assert (IU := unit_is _ _ U). destruct (room_ex c s IU) as (n & RM). destruct (leading_ex b c IU) as (x & X).
    rewrite (read_size _ _ _ _ _ _ H RM X), (read_size _ _ _ _ _ _ H' (room_app _ _ _ _ RM F) X). reflexivity.
  - inversion H as [|? ? ? c2 r2 NU2 G2 H2|? ? ? n2 r2 x2 H2 (e2 & R2 & _) L2 X2]; subst; [|destruct (NU (unit_is _ _ R2))].
    inversion H' as [|? ? ? c3 r3 NU3 G3 H3|? ? ? n3 r3 x3 H3 (e3 & R3 & _) L3 X3]; subst; [|destruct (NU (unit_is _ _ R3))].
    assert (c2 = c3) as ->.
    { assert (X : [c2] = [c3]) by (apply (images_fun [c] [c2]); (constructor; [assumption|constructor])). congruence. }
    cbn [blen]. f_equal.
    apply (IH ltac:(inversion E; [contradiction|assumption]) _ _ _ H2 H3).
Qed.

Theorem suffix_same_size s t r r' : Exists is_unit s -> Forall (fun c => ~ is_unit c) t -> to_arabic_numerals s = Ok r -> to_arabic_numerals (s ++ t) = Ok r' -> blen r' = blen r.
Proof. intros U F E E'. apply number_exact in E. apply number_exact in E'. exact (read_after s t F U None r r' E E'). Qed.

Theorem suffix_never s t t' r : Exists is_unit s -> Forall (fun c => ~ is_unit c) t -> t' <> [] -> to_arabic_numerals s = Ok r -> to_arabic_numerals (s ++ t) <> Ok (r ++ t').
Proof.
  intros U F N E E'. assert (X := suffix_same_size s t r (r ++ t') U F E E'). rewrite blen_app in X. destruct t' as [|c t']; [congruence|]. cbn [blen] in X. assert (0 < width c) by (apply width_pos). lia.
Qed.

(** ** Text before *)

Lemma images_ex m : exists m', Forall2 glyph_image m m'.
Proof.
  induction m as [|c m (m' & IH)]; [exists []; constructor|]. destruct (digit_char c) as [d|] eqn:D.
  - apply digit_char_glyph in D as [D L]. exists (d :: m'). constructor; [|exact IH]. left. exists (d - 48)%N. split; [exact D|lia].
  - exists (c :: m'). constructor; [|exact IH]. right. split; [|reflexivity]. intros d G. destruct (glyph_facts d c G) as [X _]. congruence.
Qed.
Lemma read_before t t' : Forall2 glyph_image t t' -> Forall (fun c => ~ is_unit c) t -> forall u s r, read_as (Some (last t u)) s r -> forall b, t <> [] -> read_as b (t ++ s) (t' ++ r).
Proof.
  induction 1 as [|c c' t t' G F IH]; intros NU u s r R b N; [congruence|]. inversion NU; subst. cbn [app]. apply read_char; [assumption|exact G|].
  rewrite last_cons in R. destruct t as [|x t]; [inversion F; subst; exact R|]. apply (IH ltac:(assumption) c); [|discriminate]. rewrite last_cons in *. exact R.
Qed.

Theorem prefix_plain t s r : Forall (fun c => ~ is_unit c) t -> match s with c :: _ => ~ is_unit c | [] => True end -> to_arabic_numerals s = Ok r ->
  exists t', Forall2 glyph_image t t' /\ to_arabic_numerals (t ++ s) = Ok (t' ++ r).
Proof.
  intros F NU E. destruct (images_ex t) as (t' & G). exists t'. split; [exact G|]. apply number_exact. apply number_exact in E.
  destruct t as [|c0 t]; [inversion G; subst; exact E|]. apply (read_before _ _ G F c0); [|discriminate].
  inversion E as [|? ? ? c2 r2 NU2 G2 H2|? ? ? n2 r2 x2 H2 (e2 & R2 & _) L2 X2]; subst; [constructor|apply read_char; assumption|destruct (NU (unit_is _ _ R2))].
Qed.
Theorem prefix_unit t u s r : t <> [] -> Forall (fun c => ~ is_unit c) t -> is_unit u -> to_arabic_numerals (u :: s) = Ok r ->
  exists t' r', Forall2 glyph_image t t' /\ r = 49%N :: r' /\ to_arabic_numerals (t ++ u :: s) = Ok (t' ++ r').
Proof.
  intros N F U E. destruct (images_ex t) as (t' & G). apply number_exact in E.
  inversion E as [|? ? ? c2 r2 NU2 G2 H2|? ? ? n2 r2 x2 H2 R2 L2 X2]; subst; [contradiction|].
  inversion X2 as [_ E2|H3 E2]; subst; [|destruct (H3 I)].
  exists t', (repeat 48%N (n2 - blen r2) ++ r2). split; [exact G|]. split; [reflexivity|]. apply number_exact. apply (read_before _ _ G F u); [|exact N].
  apply (read_unit _ u s n2 r2 []); auto. constructor. intros (e & e' & _ & U' & _). apply unit_is in U'.
  rewrite Forall_forall in F. apply (F (last t u)); [|exact U']. clear - N. destruct t as [|c t]; [congruence|]. rewrite last_cons. clear N. revert c. induction t as [|x t IH]; intros c; [left; reflexivity|].
  rewrite last_cons. right. apply IH.
Qed.
