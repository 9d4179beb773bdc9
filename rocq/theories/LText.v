(** The standard library's text functions meet their description. *)
From Coq Require Import List NArith ZArith Bool Lia ZifyBool ZifyNat ZifyN.
From Verif Require Import MBase MUtf8 MText SText LBase.
Import ListNotations.
Local Open Scope list_scope.

(** * Numbers *)

Lemma to_digit_spec radix c d : to_digit radix c = Some d <-> digit_is c d /\ (d < radix)%Z.
Proof.
  unfold to_digit, digit_is.
  destruct (N.leb_spec 48 c), (N.leb_spec c 57), (N.leb_spec 97 c), (N.leb_spec c 122), (N.leb_spec 65 c), (N.leb_spec c 90); cbn [andb]; try lia;
  try (match goal with |- context [(?v <? radix)%Z] => destruct (Z.ltb_spec v radix) end);
  (split; [intros E; try discriminate E; injection E as <-; split; lia|intros [X Y]; try (f_equal; lia); exfalso; lia]).
Qed.

Lemma digits_value_snoc radix c : forall s acc, digits_value radix acc (s ++ [c]) =
  match digits_value radix acc s with Some v => match to_digit radix c with Some d => Some (v * radix + d)%Z | None => None end | None => None end.
Proof.
  induction s as [|x s IH]; intros acc; cbn [app digits_value]; [destruct (to_digit radix c); reflexivity|].
  destruct (to_digit radix x); [apply IH|reflexivity].
Qed.

Lemma digits_head radix s v : digits radix s v -> exists c r d, s = c :: r /\ digit_is c d.
Proof. induction 1 as [c d D _|s v c d _ (c' & r & d' & -> & D) _ _]; [exists c, [], d; auto|exists c', (r ++ [c]), d'; auto]. Qed.
Lemma digits_not_nil radix s v : digits radix s v -> s <> [].
Proof. intros H. apply digits_head in H. destruct H as (c & r & d & -> & _). discriminate. Qed.
Lemma digits_not radix c r v : digits radix (c :: r) v -> (c = 43 \/ c = 45)%N -> False.
Proof. intros H E. apply digits_head in H. destruct H as (c' & r' & d & E' & D). injection E' as <- <-. destruct D as [[? ?]|[? [?|?]]]; lia. Qed.

Lemma digits_value_spec radix s : forall v, s <> [] -> (digits_value radix 0 s = Some v <-> digits radix s v).
Proof.
  induction s as [|c s IH] using rev_ind; intros v N; [congruence|]. rewrite digits_value_snoc. destruct s as [|x s].
  - cbn [digits_value app]. split.
    + destruct (to_digit radix c) as [d|] eqn:E; [|discriminate]. intros H. injection H as <-. apply to_digit_spec in E. destruct E.
      replace (0 * radix + d)%Z with d by lia. constructor; assumption.
    + intros H. inversion H as [c' d D R E|s v0 c' d DS D R E].
      * subst. rewrite (proj2 (to_digit_spec radix c v) (conj D R)). reflexivity.
      * destruct s as [|y s]; [apply digits_not_nil in DS; congruence|]. destruct s; discriminate.
  - specialize (IH) with (1 := ltac:(discriminate) : x :: s <> []). split.
    + destruct (digits_value radix 0 (x :: s)) as [w|] eqn:E; [|discriminate]. destruct (to_digit radix c) as [d|] eqn:E'; [|discriminate].
      intros H. injection H as <-. apply to_digit_spec in E'. destruct E'. constructor; try assumption. apply IH. reflexivity.
    + intros H. inversion H as [c' d D R E|s' v0 c' d DS D R E].
      * exfalso. destruct s; discriminate.
      * apply (app_inj_tail s' (x :: s)) in E. destruct E as [-> ->]. apply IH in DS. rewrite DS. rewrite (proj2 (to_digit_spec radix c d) (conj D R)). reflexivity.
Qed.

Lemma parse_int_shape radix lo hi c r : c <> 43%N -> c <> 45%N -> parse_int radix lo hi (c :: r) =
  match digits_value radix 0 (c :: r) with Some z => if ((lo <=? z) && (z <=? hi))%Z%bool then Some z else None | None => None end.
Proof.
  intros H1 H2. unfold parse_int. destruct c as [|p]; [reflexivity|].
  do 6 (destruct p as [p|p|]; try reflexivity; try congruence).
Qed.

Definition ranged lo hi (z : Z) := (lo <= z <= hi)%Z.
Lemma guard_some lo hi z v : (if ((lo <=? z) && (z <=? hi))%Z%bool then Some z else None) = Some v <-> z = v /\ ranged lo hi v.
Proof. unfold ranged. destruct (Z.leb_spec lo z), (Z.leb_spec z hi); cbn [andb]; split; (intros E; try discriminate E; try injection E as <-; try (split; lia); try (destruct E; exfalso; lia)). destruct E as [-> _]. reflexivity. Qed.

Lemma digits_unique radix s v w : digits radix s v -> digits radix s w -> v = w.
Proof.
  intros A B. assert (N := digits_not_nil _ _ _ A). apply digits_value_spec in A; [|exact N]. apply digits_value_spec in B; [|exact N]. congruence.
Qed.

Lemma parse_int_spec radix lo hi s z :
  parse_int radix lo hi s = Some z <-> (if (lo <? 0)%Z then signed radix s z else unsigned radix s z) /\ (lo <= z <= hi)%Z.
Proof.
  change (lo <= z <= hi)%Z with (ranged lo hi z).
  assert (D : forall r, r <> [] -> match digits_value radix 0 r with Some z => if ((lo <=? z) && (z <=? hi))%Z%bool then Some z else None | None => None end = Some z
    <-> digits radix r z /\ ranged lo hi z).
  { intros r N. destruct (digits_value radix 0 r) as [v|] eqn:E.
    - rewrite guard_some. apply digits_value_spec in E; [|exact N]. split; [intros [<- R]; auto|]. intros [D R]. split; [|exact R].
      apply (digits_value_spec radix r v N) in E. apply (digits_value_spec radix r z N) in D. congruence.
    - split; [discriminate|]. intros [X _]. apply (digits_value_spec radix r z N) in X. congruence. }
  assert (M : forall r, r <> [] -> match option_map Z.opp (digits_value radix 0 r) with Some z => if ((lo <=? z) && (z <=? hi))%Z%bool then Some z else None | None => None end = Some z
    <-> digits radix r (- z) /\ ranged lo hi z).
  { intros r N. destruct (digits_value radix 0 r) as [v|] eqn:E; cbn [option_map].
    - rewrite guard_some. apply digits_value_spec in E; [|exact N]. split.
      + intros [<- R]. split; [|exact R]. replace (- - v)%Z with v by lia. exact E.
      + intros [X R]. split; [|exact R]. apply (digits_value_spec radix r v N) in E. apply (digits_value_spec radix r (-z) N) in X.
        assert (v = - z)%Z by congruence. lia.
    - split; [discriminate|]. intros [X _]. apply (digits_value_spec radix r _ N) in X. congruence. }
  assert (U : forall r, unsigned radix (43%N :: r) z <-> digits radix r z).
  { intros r. split; [intros [X|(r' & E & X)]; [exfalso; eapply digits_not; eauto|injection E as <-; exact X]|]. intros X. right. eauto. }
  assert (P : forall r, signed radix (43%N :: r) z <-> digits radix r z).
  { intros r. split; [intros [X|(r' & E & X)]; [apply U; exact X|discriminate]|]. intros X. left. apply U. exact X. }
  assert (Q : forall r, signed radix (45%N :: r) z <-> digits radix r (- z)).
  { intros r. split; [intros [[X|(r' & E & X)]|(r' & E & X)]; [exfalso; eapply digits_not; eauto|discriminate|injection E as <-; exact X]|]. intros X. right. eauto. }
  assert (NU : forall r, ~ unsigned radix (45%N :: r) z).
  { intros r [X|(r' & E & X)]; [eapply digits_not; eauto|discriminate]. }
  assert (NN : forall w, ~ digits radix [] w) by (intros w X; apply digits_not_nil in X; congruence).
  destruct s as [|c r].
  - cbn [parse_int]. split; [discriminate|]. intros [X _]. exfalso. destruct (lo <? 0)%Z; [destruct X as [[X|(r & E & _)]|(r & E & _)]|destruct X as [X|(r & E & _)]]; try discriminate; exact (NN _ X).
  - destruct (N.eq_dec c 43) as [->|C1]; [|destruct (N.eq_dec c 45) as [->|C2]].
    + assert (W : (if (lo <? 0)%Z then signed radix (43%N :: r) z else unsigned radix (43%N :: r) z) <-> digits radix r z) by (destruct (lo <? 0)%Z; auto).
      rewrite W. destruct r as [|x r]; [cbn; split; [discriminate|intros [X _]; exfalso; exact (NN _ X)]|]. apply D. discriminate.
    + destruct r as [|x r].
      * cbn. split; [discriminate|]. intros [X _]. exfalso. destruct (lo <? 0)%Z; [apply Q in X; exact (NN _ X)|exact (NU _ X)].
      * unfold parse_int. destruct (lo <? 0)%Z.
        -- rewrite Q. apply M. discriminate.
        -- split; [discriminate|]. intros [X _]. exfalso. exact (NU _ X).
    + rewrite parse_int_shape by assumption. rewrite D by discriminate.
      assert (W : (if (lo <? 0)%Z then signed radix (c :: r) z else unsigned radix (c :: r) z) <-> digits radix (c :: r) z).
      { assert (X1 : unsigned radix (c :: r) z <-> digits radix (c :: r) z) by (split; [intros [X|(r' & E & X)]; [exact X|congruence]|left; assumption]).
        destruct (lo <? 0)%Z; [|exact X1]. rewrite <- X1. split; [intros [X|(r' & E & X)]; [exact X|congruence]|left; assumption]. }
      rewrite W. reflexivity.
Qed.

Lemma parse_unsigned_spec radix hi s n : option_map Z.to_N (parse_int radix 0 hi s) = Some n <-> unsigned radix s (Z.of_N n) /\ (Z.of_N n <= hi)%Z.
Proof.
  split.
  - destruct (parse_int radix 0 hi s) as [z|] eqn:E; [|discriminate]. cbn [option_map]. intros H. injection H as <-. apply parse_int_spec in E.
    cbn in E. destruct E as [U R]. rewrite Z2N.id by lia. split; [exact U|lia].
  - intros [U R]. assert (E : parse_int radix 0 hi s = Some (Z.of_N n)) by (apply parse_int_spec; cbn; split; [exact U|lia]). rewrite E. cbn. f_equal. lia.
Qed.

Theorem parse_i16_spec s z : parse_i16 s = Some z <-> signed 10 s z /\ (-32768 <= z <= 32767)%Z.
Proof. exact (parse_int_spec 10 (-32768) 32767 s z). Qed.
Theorem parse_i32_spec s z : parse_i32 s = Some z <-> signed 10 s z /\ (-2147483648 <= z <= 2147483647)%Z.
Proof. exact (parse_int_spec 10 (-2147483648) 2147483647 s z). Qed.
Theorem parse_u16_spec s n : parse_u16 s = Some n <-> unsigned 10 s (Z.of_N n) /\ (n <= 65535)%N.
Proof. unfold parse_u16. rewrite parse_unsigned_spec. split; intros [U R]; (split; [exact U|lia]). Qed.
Theorem parse_u32_spec s n : parse_u32 s = Some n <-> unsigned 10 s (Z.of_N n) /\ (n <= 4294967295)%N.
Proof. unfold parse_u32. rewrite parse_unsigned_spec. split; intros [U R]; (split; [exact U|lia]). Qed.
Theorem parse_hex_spec s n : parse_u16_hex s = Some n <-> unsigned 16 s (Z.of_N n) /\ (n <= 65535)%N.
Proof. unfold parse_u16_hex. rewrite parse_unsigned_spec. split; intros [U R]; (split; [exact U|lia]). Qed.

(** * Lines *)

Lemma split_inclusive_closed f c rest : forall l, Forall (fun x => f x = false) l -> f c = true ->
  split_inclusive f (l ++ c :: rest) = (l ++ [c]) :: split_inclusive f rest.
Proof.
  induction l as [|x l IH]; intros F C; cbn [app split_inclusive]; [rewrite C; reflexivity|]. inversion F; subst. rewrite H1, IH by assumption. reflexivity.
Qed.
Lemma split_inclusive_open f : forall l, l <> [] -> Forall (fun x => f x = false) l -> split_inclusive f l = [l].
Proof.
  induction l as [|x l IH]; intros N F; [congruence|]. inversion F; subst. cbn [split_inclusive]. rewrite H1. destruct l as [|y l]; [reflexivity|].
  rewrite IH by (discriminate || assumption). reflexivity.
Qed.

Lemma strip_newline_plain (l : str) : ~ In 10%N l -> strip_newline l = l.
Proof.
  intros N. unfold strip_newline. destruct (rev l) as [|c r] eqn:E; [reflexivity|].
  assert (C : c <> 10%N). { intros ->. apply N, (proj2 (in_rev l 10%N)). unfold str, char in *. rewrite E. left. reflexivity. }
  destruct c as [|p]; [reflexivity|]. do 4 (destruct p as [p|p|]; try reflexivity; try congruence).
Qed.
Lemma strip_newline_newline (l : str) : (forall p, l <> p ++ [13%N]) -> strip_newline (l ++ [10%N]) = l.
Proof.
  intros N. unfold strip_newline. rewrite rev_app_distr. cbn [rev app]. destruct (rev l) as [|c r] eqn:E.
  - apply (f_equal (@rev _)) in E. rewrite rev_involutive in E. subst. reflexivity.
  - assert (C : c <> 13%N). { intros ->. apply (f_equal (@rev _)) in E. rewrite rev_involutive in E. cbn in E. exact (N _ E). }
    assert (R : rev (c :: r) = l) by (rewrite <- E; apply rev_involutive).
    destruct c as [|p]; [exact R|]. do 4 (destruct p as [p|p|]; try exact R; try congruence).
Qed.
Lemma strip_newline_return (l : str) : strip_newline ((l ++ [13%N]) ++ [10%N]) = l.
Proof. unfold strip_newline. rewrite !rev_app_distr. cbn [rev app]. apply rev_involutive. Qed.

Lemma no_newline (l : str) : ~ In 10%N l -> Forall (fun x => N.eqb 10 x = false) l.
Proof. intros N. apply Forall_forall. intros x I. apply N.eqb_neq. intros <-. contradiction. Qed.

Lemma file_lines_lines s ls : file_lines s ls -> lines s = ls.
Proof.
  unfold lines. induction 1 as [|l N I|l rest ls I R F IH|l rest ls I F IH].
  - reflexivity.
  - rewrite split_inclusive_open by (assumption || (apply no_newline; assumption)). cbn [map]. rewrite strip_newline_plain by assumption. reflexivity.
  - rewrite split_inclusive_closed by (reflexivity || (apply no_newline; assumption)). cbn [map]. rewrite IH, strip_newline_newline by assumption. reflexivity.
  - replace (l ++ 13%N :: 10%N :: rest) with ((l ++ [13%N]) ++ 10%N :: rest) by (rewrite <- app_assoc; reflexivity).
    rewrite split_inclusive_closed.
    + cbn [map]. rewrite IH, strip_newline_return. reflexivity.
    + apply Forall_app. split; [apply no_newline; assumption|]. constructor; [reflexivity|constructor].
    + reflexivity.
Qed.

(* cut at the first element with a property *)
Lemma first_split {A} (f : A -> bool) s : (exists l c r, s = l ++ c :: r /\ Forall (fun x => f x = false) l /\ f c = true) \/ Forall (fun x => f x = false) s.
Proof.
  induction s as [|x s IH]; [right; constructor|]. destruct (f x) eqn:E; [left; exists [], x, s; repeat split; [constructor|exact E]|].
  destruct IH as [(l & c & r & -> & F & C)|F]; [left; exists (x :: l), c, r; repeat split; [constructor; assumption|exact C]|right; constructor; assumption].
Qed.
Lemma last_is (l : str) c : (exists p, l = p ++ [c]) \/ forall p, l <> p ++ [c].
Proof.
  destruct (rev l) as [|x r] eqn:E; apply (f_equal (@rev _)) in E; rewrite rev_involutive in E; subst l.
  - right. intros p H. destruct p; discriminate.
  - cbn [rev]. destruct (N.eq_dec x c) as [->|N]; [left; eauto|]. right. intros p H. apply app_inj_tail in H. destruct H. congruence.
Qed.
Lemma newline_free (l : str) : Forall (fun x => N.eqb 10 x = false) l -> ~ In 10%N l.
Proof. rewrite Forall_forall. intros F I. specialize (F _ I). discriminate. Qed.

Lemma file_lines_exist : forall n s, List.length s <= n -> exists ls, file_lines s ls.
Proof.
  induction n as [|n IH]; intros s L; [destruct s; [exists []; constructor|cbn in L; lia]|].
  destruct (first_split (N.eqb 10) s) as [(l & c & r & -> & F & C)|F].
  - apply N.eqb_eq in C. subst c. destruct (IH r) as (ls & FL); [rewrite app_length in L; cbn in L; unfold str, char in *; lia|]. apply newline_free in F.
    destruct (last_is l 13%N) as [[p ->]|N].
    + exists (p :: ls). rewrite <- app_assoc. cbn [app]. apply fl_return; [|exact FL]. intros I. apply F. apply in_or_app. left. exact I.
    + exists (l :: ls). apply fl_newline; assumption.
  - apply newline_free in F. destruct s as [|c s]; [exists []; constructor|]. exists [c :: s]. apply fl_last; [discriminate|exact F].
Qed.
Theorem lines_spec s ls : lines s = ls <-> file_lines s ls.
Proof.
  split; [|apply file_lines_lines]. intros <-. destruct (file_lines_exist _ s (le_n _)) as (ls & F). rewrite (file_lines_lines _ _ F). exact F.
Qed.

(** * Fields *)

Lemma is_whitespace_spec c : is_whitespace c = true <-> white c.
Proof.
  unfold is_whitespace, white. cbn [In]. lia.
Qed.
Lemma is_ascii_whitespace_spec c : is_ascii_whitespace c = true <-> ascii_white c.
Proof. unfold is_ascii_whitespace, ascii_white. cbn [In]. lia. Qed.

Section Fields.
  Variables (f : char -> bool) (sep : char -> Prop).
  Hypothesis F : forall c, f c = true <-> sep c.

  Lemma sep_true l : Forall sep l -> Forall (fun c => f c = true) l.
  Proof. apply Forall_impl. intros c. apply F. Qed.
  Lemma sep_false l : Forall (fun c => ~ sep c) l -> Forall (fun c => f c = false) l.
  Proof. apply Forall_impl. intros c N. destruct (f c) eqn:E; [apply F in E; contradiction|reflexivity]. Qed.

  Definition pieces s := filter (fun p : str => negb (is_nil p)) (split_by f s).

  Lemma split_by_word c r : forall w, Forall (fun x => f x = false) w -> f c = true -> split_by f (w ++ c :: r) = w :: split_by f r.
  Proof. induction w as [|x w IH]; intros FW C; cbn [app split_by]; [rewrite C; reflexivity|]. inversion FW; subst. rewrite H1, IH by assumption. reflexivity. Qed.
  Lemma split_by_end : forall w, Forall (fun x => f x = false) w -> split_by f w = [w].
  Proof. induction w as [|x w IH]; intros FW; cbn [split_by]; [reflexivity|]. inversion FW; subst. rewrite H1, IH by assumption. reflexivity. Qed.

  Lemma pieces_gap g s : Forall (fun x => f x = true) g -> pieces (g ++ s) = pieces s.
  Proof. unfold pieces. induction 1 as [|x g X _ IH]; cbn [app split_by]; [reflexivity|]. rewrite X. cbn [filter is_nil negb]. exact IH. Qed.
  Lemma pieces_word w c r : w <> [] -> Forall (fun x => f x = false) w -> f c = true -> pieces (w ++ c :: r) = w :: pieces r.
  Proof. intros N W C. unfold pieces. rewrite split_by_word by assumption. destruct w; [congruence|]. reflexivity. Qed.
  Lemma pieces_end w : w <> [] -> Forall (fun x => f x = false) w -> pieces w = [w].
  Proof. intros N W. unfold pieces. rewrite split_by_end by assumption. destruct w; [congruence|]. reflexivity. Qed.
  Lemma pieces_all g : Forall (fun x => f x = true) g -> pieces g = [].
  Proof. intros G. rewrite <- (app_nil_r g), pieces_gap by exact G. reflexivity. Qed.

  Lemma fields_pieces s fs : fields_of sep s fs -> pieces s = fs.
  Proof.
    induction 1 as [s A|g w g' A N W A'|g w c r fs A N W C M R IH].
    - apply pieces_all, sep_true, A.
    - rewrite pieces_gap by (apply sep_true, A). destruct g' as [|c g']; [rewrite app_nil_r; apply pieces_end; [exact N|apply sep_false, W]|].
      rewrite pieces_word; [|exact N|apply sep_false, W|inversion A'; apply F; assumption]. f_equal. apply pieces_all, sep_true. inversion A'; assumption.
    - rewrite pieces_gap by (apply sep_true, A). rewrite pieces_word; [|exact N|apply sep_false, W|apply F, C]. f_equal. exact IH.
  Qed.

  Lemma all_sep g : Forall (fun x => f x = true) g -> Forall sep g.
  Proof. apply Forall_impl. intros c. apply F. Qed.
  Lemma no_sep g : Forall (fun x => f x = false) g -> Forall (fun c => ~ sep c) g.
  Proof. apply Forall_impl. intros c E C. apply F in C. congruence. Qed.

  Lemma fields_exist : forall n s, List.length s <= n -> exists fs, fields_of sep s fs.
  Proof.
    induction n as [|n IH]; intros s L; [destruct s; [exists []; constructor; constructor|cbn in L; lia]|].
    assert (G : exists g r, s = g ++ r /\ Forall (fun x => f x = true) g /\ match r with [] => True | c :: _ => f c = false end).
    { destruct (first_split (fun c => negb (f c)) s) as [(l & c & r & -> & A & C)|A].
      - exists l, (c :: r). split; [reflexivity|]. split; [|destruct (f c); [discriminate|reflexivity]]. revert A. apply Forall_impl. intros x. destruct (f x); [reflexivity|discriminate].
      - exists s, []. rewrite app_nil_r. split; [reflexivity|]. split; [|exact Logic.I]. revert A. apply Forall_impl. intros x. destruct (f x); [reflexivity|discriminate]. }
    destruct G as (g & r & -> & G & H). destruct r as [|c r]; [exists []; rewrite app_nil_r; apply fo_none, all_sep, G|].
    destruct (first_split f (c :: r)) as [(w & d & r' & E & W & D)|W].
    - assert (N : w <> []). { intros ->. cbn in E. injection E as -> _. congruence. }
      rewrite E in *. destruct (IH r') as (fs & R); [rewrite !app_length in L; cbn in L; destruct w; [congruence|cbn in L; lia]|].
      destruct fs as [|f0 fs].
      + assert (A : Forall sep r'). { inversion R; assumption. }
        exists [w]. apply fo_last; [apply all_sep, G|exact N|apply no_sep, W|constructor; [apply F, D|exact A]].
      + exists (w :: f0 :: fs). apply fo_more; [apply all_sep, G|exact N|apply no_sep, W|apply F, D|discriminate|exact R].
    - exists [c :: r]. replace (g ++ c :: r) with (g ++ (c :: r) ++ []) by (rewrite app_nil_r; reflexivity). apply fo_last; [apply all_sep, G|discriminate|apply no_sep, W|constructor].
  Qed.
  Lemma pieces_spec s fs : pieces s = fs <-> fields_of sep s fs.
  Proof. split; [|apply fields_pieces]. intros <-. destruct (fields_exist _ s (le_n _)) as (fs & R). rewrite (fields_pieces _ _ R). exact R. Qed.
End Fields.

Theorem split_whitespace_spec s fs : split_whitespace s = fs <-> fields_of white s fs.
Proof. exact (pieces_spec is_whitespace white is_whitespace_spec s fs). Qed.
Theorem split_ascii_whitespace_spec s fs : split_ascii_whitespace s = fs <-> fields_of ascii_white s fs.
Proof. exact (pieces_spec is_ascii_whitespace ascii_white is_ascii_whitespace_spec s fs). Qed.

(** * Parts *)

Theorem split_char_spec c s ps : split_char c s = ps <-> parts_of c s ps.
Proof.
  assert (A : forall s ps, parts_of c s ps -> split_char c s = ps).
  { assert (K : forall p, ~ In c p -> Forall (fun x => N.eqb c x = false) p) by (intros p N; apply Forall_forall; intros x I; apply N.eqb_neq; intros <-; contradiction).
    unfold split_char. induction 1 as [p N|p r ps' N R IH]; [apply split_by_end, K, N|]. rewrite split_by_word; [f_equal; exact IH|apply K, N|apply N.eqb_refl]. }
  split; [|apply A]. intros <-.
  assert (K : forall n s, List.length s <= n -> exists ps, parts_of c s ps).
  { induction n as [|n IH]; intros t L; [destruct t; [exists [[]]; constructor; auto|cbn in L; lia]|].
    destruct (first_split (N.eqb c) t) as [(l & d & r & -> & X & D)|X].
    - apply N.eqb_eq in D. subst d. destruct (IH r) as (ps' & R); [rewrite app_length in L; cbn in L; unfold str, char in *; lia|]. exists (l :: ps'). constructor; [|exact R].
      rewrite Forall_forall in X. intros I. specialize (X _ I). rewrite N.eqb_refl in X. discriminate.
    - exists [t]. constructor. rewrite Forall_forall in X. intros I. specialize (X _ I). rewrite N.eqb_refl in X. discriminate. }
  destruct (K _ s (le_n _)) as (ps' & R). rewrite (A _ _ R). exact R.
Qed.

(** * Trimming *)

Lemma trim_start_split s : exists a, s = a ++ trim_start s /\ Forall white a /\ forall c r, trim_start s = c :: r -> ~ white c.
Proof.
  induction s as [|c s (a & E & A & H)]; [exists []; repeat split; [constructor|discriminate]|]. cbn [trim_start]. destruct (is_whitespace c) eqn:W.
  - exists (c :: a). split; [cbn; f_equal; exact E|]. split; [constructor; [apply is_whitespace_spec, W|exact A]|exact H].
  - exists []. split; [reflexivity|]. split; [constructor|]. intros c' r E'. injection E' as <- _. rewrite <- is_whitespace_spec. congruence.
Qed.
Lemma trim_start_white a r : Forall white a -> trim_start (a ++ r) = trim_start r.
Proof. induction 1 as [|c a C _ IH]; cbn [app trim_start]; [reflexivity|]. apply is_whitespace_spec in C. rewrite C. exact IH. Qed.
Lemma trim_start_none c r : ~ white c -> trim_start (c :: r) = c :: r.
Proof. intros N. cbn [trim_start]. destruct (is_whitespace c) eqn:W; [apply is_whitespace_spec in W; contradiction|reflexivity]. Qed.

Theorem trim_spec s t : trim s = t <-> trimmed s t.
Proof.
  split.
  - intros <-. unfold trim. destruct (trim_start_split s) as (a & E & A & H). destruct (trim_start_split (rev (trim_start s))) as (b & E' & B & H').
    assert (U : trim_start s = rev (trim_start (rev (trim_start s))) ++ rev b) by (rewrite <- rev_app_distr, <- E'; symmetry; apply rev_involutive).
    exists a, (rev b). split; [rewrite <- U; exact E|]. split; [exact A|]. split; [apply Forall_rev, B|]. split.
    + intros c r X. rewrite X in U. apply (H c (r ++ rev b)). exact U.
    + intros r c X. apply (f_equal (@rev _)) in X. rewrite rev_involutive, rev_app_distr in X. cbn in X. exact (H' _ _ X).
  - intros (a & b & -> & A & B & H & H'). unfold trim. rewrite trim_start_white by exact A. destruct t as [|c t].
    + cbn [app]. rewrite <- (app_nil_r b), trim_start_white by exact B. reflexivity.
    + cbn [app]. rewrite trim_start_none by (eapply H; reflexivity). change (c :: t ++ b) with ((c :: t) ++ b). rewrite rev_app_distr, trim_start_white by (apply Forall_rev, B).
      destruct (rev (c :: t)) as [|d q] eqn:E; [apply (f_equal (@rev _)) in E; rewrite rev_involutive in E; discriminate|].
      assert (E2 : c :: t = rev q ++ [d]) by (apply (f_equal (@rev _)) in E; rewrite rev_involutive in E; exact E).
      rewrite trim_start_none by (eapply H'; exact E2). rewrite <- E. apply rev_involutive.
Qed.

(** * Prefixes and string separators *)

Theorem starts_with_spec p : forall s, starts_with p s = true <-> exists r, s = p ++ r.
Proof.
  induction p as [|x p IH]; intros s; cbn [starts_with]; [split; [intros _; exists s; reflexivity|reflexivity]|]. destruct s as [|y s]; [split; [discriminate|intros (r & E); discriminate]|].
  rewrite Bool.andb_true_iff, N.eqb_eq, IH. split; [intros [-> (r & ->)]; exists r; reflexivity|]. intros (r & E). cbn in E. injection E as -> ->. eauto.
Qed.
Lemma strip_prefix_spec p : forall s r, strip_prefix p s = Some r <-> s = p ++ r.
Proof.
  induction p as [|x p IH]; intros s r; cbn [strip_prefix app]; [split; congruence|]. destruct s as [|y s]; [split; discriminate|].
  destruct (N.eqb_spec x y) as [->|N]; [rewrite IH; split; [intros ->; reflexivity|intros E; injection E as ->; reflexivity]|]. split; [discriminate|]. intros E. injection E as E _. congruence.
Qed.

Lemma app_same_length {A} (a : list A) : forall a' b b', a ++ b = a' ++ b' -> List.length a = List.length a' -> a = a' /\ b = b'.
Proof.
  induction a as [|x a IH]; intros [|y a'] b b' E L; try discriminate; [auto|]. cbn in E. injection E as -> E. cbn in L. injection L as L.
  destruct (IH _ _ _ E L) as [-> ->]. auto.
Qed.

Lemma pieces_unique p : forall s ps, pieces_of p s ps -> forall ps', pieces_of p s ps' -> ps = ps'.
Proof.
  induction 1 as [s N|a r ps [_ A] R IH]; intros ps' H'.
  - inversion H' as [|a r ps0 A R]; subst; [reflexivity|]. exfalso. eapply N. reflexivity.
  - inversion H' as [s N E1 E2|a' r' ps0 [_ A'] R' E1]; subst; [exfalso; eapply N; reflexivity|].
    assert (L : List.length a = List.length a').
    { apply Nat.le_antisymm; [apply (A a' r'); symmetry; exact E1|rewrite E1 in A'; apply (A' a r); reflexivity]. }
    assert (a' = a /\ p ++ r' = p ++ r) as [-> E2].
    { apply app_same_length in E1; [exact E1|symmetry; exact L]. }
    apply app_inv_head in E2. subst. f_equal. apply IH. exact R'.
Qed.

Theorem split_str_spec p s ps : p <> [] -> (split_str p s = ps <-> pieces_of p s ps).
Proof.
  intros NP.
  assert (K : forall n s cur, List.length s < n -> (forall a b, rev cur ++ s = a ++ p ++ b -> List.length cur <= List.length a) ->
    pieces_of p (rev cur ++ s) (split_str_fuel n p s cur)).
  { induction n as [|n IH]; intros t cur L H; [lia|]. cbn [split_str_fuel]. destruct (strip_prefix p t) as [r|] eqn:E.
    - apply strip_prefix_spec in E. subst t. constructor.
      + split; [exists r; reflexivity|]. intros a b X. rewrite rev_length. exact (H _ _ X).
      + apply (IH r []); [rewrite app_length in L; destruct p; [congruence|cbn in L; lia]|]. cbn. lia.
    - destruct t as [|c t].
      + rewrite app_nil_r in *. constructor. intros a b X. specialize (H _ _ X). apply (f_equal (@List.length _)) in X. rewrite !app_length, rev_length in X.
        destruct p; [congruence|]. cbn in X. lia.
      + replace (rev cur ++ c :: t) with (rev (c :: cur) ++ t) in * by (cbn [rev]; rewrite <- app_assoc; reflexivity). apply IH; [cbn in L; lia|].
        intros a b X. specialize (H _ _ X). destruct (Nat.eq_dec (List.length cur) (List.length a)) as [Q|Q]; [|cbn; lia]. exfalso.
        assert (Y : p ++ b = c :: t).
        { cbn [rev] in X. rewrite <- app_assoc in X. cbn [app] in X. apply app_same_length in X; [|rewrite rev_length; exact Q]. symmetry. exact (proj2 X). }
        symmetry in Y. apply strip_prefix_spec in Y. congruence. }
  specialize (K (S (List.length s)) s [] (Nat.lt_succ_diag_r _) ltac:(cbn; lia)). cbn [rev app] in K. fold (split_str p s) in K.
  split; [intros <-; exact K|]. intros H. exact (pieces_unique p _ _ K _ H).
Qed.

Theorem trim_start_matches_spec p s r : p <> [] -> (trim_start_matches p s = r <-> stripped p s r).
Proof.
  intros NP. unfold trim_start_matches.
  assert (K : forall n s, List.length s <= n -> stripped p s (trim_start_matches_fuel n p s)).
  { induction n as [|n IH]; intros t L; cbn [trim_start_matches_fuel].
    - destruct t; [|cbn in L; lia]. split; [exists 0; reflexivity|]. intros r' E. destruct p; [congruence|discriminate].
    - destruct (strip_prefix p t) as [q|] eqn:E.
      + apply strip_prefix_spec in E. subst t. destruct (IH q) as [(k & X) Y]; [rewrite app_length in L; destruct p; [congruence|cbn in L; lia]|].
        split; [|exact Y]. exists (S k). cbn [repeat concat]. rewrite <- app_assoc. f_equal. exact X.
      + split; [exists 0; reflexivity|]. intros r' X. apply strip_prefix_spec in X. congruence. }
  specialize (K _ s (le_n _)). split; [intros <-; exact K|]. intros [(k & E) N]. destruct K as [(k' & E') N']. set (x := trim_start_matches_fuel _ _ _) in *. clearbody x.
  rewrite E in E'. clear E. revert k' E'. induction k as [|k IH]; intros [|k'] E; cbn [repeat concat app] in E; try rewrite <- !app_assoc in E.
  - congruence.
  - exfalso. exact (N _ E).
  - exfalso. exact (N' _ (eq_sym E)).
  - apply app_inv_head in E. exact (IH _ E).
Qed.

Lemma Forall2_mono {A B} (P Q : A -> B -> Prop) l l' : (forall x y, P x y -> Q x y) -> Forall2 P l l' -> Forall2 Q l l'.
Proof. intros H. induction 1; constructor; auto. Qed.
