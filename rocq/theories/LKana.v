(** Voicing and the iteration mark filter. *)
From Coq Require Import List NArith ZArith Bool Lia ZifyBool ZifyNat ZifyN.
From Verif Require Import MBase MUtf8 MText MCharDef MCharFilter SCharFilter LBase LUtf8.
Import ListNotations.
Local Open Scope list_scope.

(** * Voicing *)

Definition from_to (lo : N) (n : nat) : list N := map (fun i => (lo + N.of_nat i)%N) (seq 0 n).

Lemma in_from_to lo n c : (lo <= c < lo + N.of_nat n)%N -> In c (from_to lo n).
Proof. intros H. unfold from_to. apply in_map_iff. exists (N.to_nat (c - lo)). split; [lia|]. apply in_seq. lia. Qed.

Lemma check_from_to (f : N -> bool) lo n c : forallb f (from_to lo n) = true -> (lo <= c < lo + N.of_nat n)%N -> f c = true.
Proof. intros H B. rewrite forallb_forall in H. apply H. apply in_from_to. exact B. Qed.

Lemma same_by_check (f g : N -> N) lo n : (forall c, (c < lo \/ lo + N.of_nat n <= c)%N -> f c = g c) ->
  forallb (fun c => (f c =? g c)%N) (from_to lo n) = true -> forall c, f c = g c.
Proof.
  intros O C c. destruct (N.ltb_spec c lo); [apply O; lia|]. destruct (N.leb_spec (lo + N.of_nat n) c); [apply O; lia|].
  apply N.eqb_eq. apply (check_from_to (fun c => (f c =? g c)%N) lo n c C). lia.
Qed.

Lemma find_none_all {A} (f : A -> bool) l : Forall (fun x => f x = false) l -> find f l = None.
Proof. induction 1 as [|x l H F IH]; cbn [find]; [reflexivity|]. rewrite H. exact IH. Qed.

Lemma voice_outside pairs lo n c : forallb (fun '(a, b) => ((lo <=? a) && (a <? lo + N.of_nat n) && (lo <=? b) && (b <? lo + N.of_nat n))%N) pairs = true ->
  (c < lo \/ lo + N.of_nat n <= c)%N -> voice pairs c = c /\ unvoice pairs c = c.
Proof.
  intros C O. rewrite forallb_forall in C. unfold voice, unvoice. rewrite !find_none_all; [auto| |]; apply Forall_forall; intros [a b] H; specialize (C _ H); cbv beta iota in *; apply N.eqb_neq; lia.
Qed.

Ltac outside := unfold in_range; repeat match goal with |- context [(?a <=? ?b)%N] => destruct (N.leb_spec a b) end; cbn [andb]; try reflexivity; exfalso; cbn in *; lia.

Lemma hiragana_add c : hiragana_add_dakuon c = voice voiced_hiragana c.
Proof.
  revert c. apply (same_by_check _ _ 0x304b 51).
  - intros c O. rewrite (proj1 (voice_outside voiced_hiragana 0x304b 51 c eq_refl O)). unfold hiragana_add_dakuon. change (0x304b + N.of_nat 51)%N with 0x307e%N in O. outside.
  - vm_compute. reflexivity.
Qed.
Lemma hiragana_remove c : hiragana_remove_dakuon c = unvoice voiced_hiragana c.
Proof.
  revert c. apply (same_by_check _ _ 0x304b 51).
  - intros c O. rewrite (proj2 (voice_outside voiced_hiragana 0x304b 51 c eq_refl O)). unfold hiragana_remove_dakuon. change (0x304b + N.of_nat 51)%N with 0x307e%N in O. outside.
  - vm_compute. reflexivity.
Qed.
Lemma katakana_add c : katakana_add_dakuon c = voice voiced_katakana c.
Proof.
  revert c. apply (same_by_check _ _ 0x30ab 51).
  - intros c O. rewrite (proj1 (voice_outside voiced_katakana 0x30ab 51 c eq_refl O)). unfold katakana_add_dakuon. change (0x30ab + N.of_nat 51)%N with 0x30de%N in O. outside.
  - vm_compute. reflexivity.
Qed.
Lemma katakana_remove c : katakana_remove_dakuon c = unvoice voiced_katakana c.
Proof.
  revert c. apply (same_by_check _ _ 0x30ab 51).
  - intros c O. rewrite (proj2 (voice_outside voiced_katakana 0x30ab 51 c eq_refl O)). unfold katakana_remove_dakuon. change (0x30ab + N.of_nat 51)%N with 0x30de%N in O. outside.
  - vm_compute. reflexivity.
Qed.

(* a statement about one character holds for all if it holds inside the range and is trivial outside *)
Lemma voicing_laws pairs lo : pairs = voiced_hiragana /\ lo = 0x304b%N \/ pairs = voiced_katakana /\ lo = 0x30ab%N -> forall c,
  voice pairs (voice pairs c) = voice pairs c /\ unvoice pairs (unvoice pairs c) = unvoice pairs c /\
  unvoice pairs (voice pairs c) = unvoice pairs c /\ voice pairs (unvoice pairs c) = voice pairs c /\
  width (voice pairs c) = width c /\ width (unvoice pairs c) = width c /\
  (valid_charb c = true -> valid_charb (voice pairs c) = true /\ valid_charb (unvoice pairs c) = true).
Proof.
  intros P c.
  assert (D : (c < lo \/ lo + N.of_nat 51 <= c)%N \/ (lo <= c < lo + N.of_nat 51)%N) by lia. destruct D as [D|D].
  - assert (V : voice pairs c = c /\ unvoice pairs c = c).
    { apply (voice_outside pairs lo 51); [|exact D]. destruct P as [[-> ->]|[-> ->]]; reflexivity. }
    destruct V as [V1 V2]. rewrite ?V1, ?V2, ?V1, ?V2. auto 10.
  - pose (f := fun c => ((voice pairs (voice pairs c) =? voice pairs c) && (unvoice pairs (unvoice pairs c) =? unvoice pairs c) &&
       (unvoice pairs (voice pairs c) =? unvoice pairs c) && (voice pairs (unvoice pairs c) =? voice pairs c))%N &&
       (Nat.eqb (width (voice pairs c)) (width c)) && (Nat.eqb (width (unvoice pairs c)) (width c)) && valid_charb (voice pairs c) && valid_charb (unvoice pairs c)).
    assert (F : f c = true).
    { apply (check_from_to f lo 51); [|exact D]. unfold f. destruct P as [[-> ->]|[-> ->]]; vm_compute; reflexivity. }
    unfold f in F. rewrite !andb_true_iff, !N.eqb_eq, !Nat.eqb_eq in F. tauto.
Qed.

Lemma voicing_shift c : (0x3041 <= c <= 0x3096)%N ->
  katakana_add_dakuon (c + 0x60)%N = (hiragana_add_dakuon c + 0x60)%N /\ katakana_remove_dakuon (c + 0x60)%N = (hiragana_remove_dakuon c + 0x60)%N.
Proof.
  intros B. pose (f := fun c => ((katakana_add_dakuon (c + 0x60)%N =? hiragana_add_dakuon c + 0x60) && (katakana_remove_dakuon (c + 0x60)%N =? hiragana_remove_dakuon c + 0x60))%N).
  assert (F : f c = true) by (apply (check_from_to f 0x3041 86); [vm_compute; reflexivity|cbn; lia]).
  unfold f in F. rewrite andb_true_iff, !N.eqb_eq in F. exact F.
Qed.

(** * Marks *)

Lemma mark_enabled cfg c : is_iteration_mark cfg c = match mark_action (ic_kanji cfg) (ic_kana cfg) c with Some _ => true | None => false end.
Proof.
  unfold is_iteration_mark, mark_action, KANJI_ITERATION_MARK, HIRAGANA_ITERATION_MARK, HIRAGANA_DAKUON_ITERATION_MARK, KATAKANA_ITERATION_MARK, KATAKANA_DAKUON_ITERATION_MARK.
  destruct (N.eqb_spec c 0x3005), (N.eqb_spec c 0x309d), (N.eqb_spec c 0x309e), (N.eqb_spec c 0x30fd), (N.eqb_spec c 0x30fe); subst; try discriminate;
    destruct (ic_kanji cfg), (ic_kana cfg); reflexivity.
Qed.

Lemma mark_replacement cfg text d pos mark f c' : mark_action (ic_kanji cfg) (ic_kana cfg) mark = Some f -> d <= pos ->
  nth_error text (pos - d) = Some c' -> normalize_mark cfg text d (pos, mark) = Ok (f c').
Proof.
  intros A H E. unfold normalize_mark. destruct (Nat.ltb_spec pos d); [lia|]. rewrite E.
  unfold mark_action in A. unfold KANJI_ITERATION_MARK, HIRAGANA_ITERATION_MARK, HIRAGANA_DAKUON_ITERATION_MARK, KATAKANA_ITERATION_MARK, KATAKANA_DAKUON_ITERATION_MARK.
  rewrite hiragana_add, hiragana_remove, katakana_add, katakana_remove.
  destruct (N.eqb_spec mark 0x3005), (N.eqb_spec mark 0x309d), (N.eqb_spec mark 0x309e), (N.eqb_spec mark 0x30fd), (N.eqb_spec mark 0x30fe); subst; try discriminate;
    destruct (ic_kanji cfg), (ic_kana cfg); try discriminate; injection A as <-; reflexivity.
Qed.

Fixpoint at_positions (i : nat) (l : list char) : list (nat * char) := match l with [] => [] | c :: r => (i, c) :: at_positions (S i) r end.
Lemma at_positions_snoc l : forall i c, at_positions i (l ++ [c]) = at_positions i l ++ [(i + length l, c)].
Proof. induction l as [|x l IH]; intros i c; cbn; [rewrite Nat.add_0_r; reflexivity|]. rewrite IH. cbn. do 4 f_equal. lia. Qed.

Lemma normalize_run cfg text d marks : forall pos, d <= pos -> (forall i c, nth_error marks i = Some c -> exists f, mark_action (ic_kanji cfg) (ic_kana cfg) c = Some f) ->
  pos + length marks <= length text ->
  exists out, mapM (normalize_mark cfg text d) (at_positions pos marks) = Ok out /\ length out = length marks /\
    forall i c, nth_error marks i = Some c -> exists f c', mark_action (ic_kanji cfg) (ic_kana cfg) c = Some f /\ nth_error text (pos + i - d) = Some c' /\ nth_error out i = Some (f c').
Proof.
  induction marks as [|m marks IH]; intros pos Hd Hm Hl; cbn [at_positions mapM].
  - exists []. repeat split. intros i c E. destruct i; discriminate.
  - destruct (Hm 0 m eq_refl) as (f & Hf). cbn [length] in Hl.
    destruct (nth_error text (pos - d)) as [c'|] eqn:E; [|apply nth_error_None in E; lia].
    rewrite (mark_replacement cfg text d pos m f c' Hf Hd E). cbn [bind].
    destruct (IH (S pos)) as (out & E1 & E2 & E3); [lia|intros i; apply (Hm (S i))|lia|]. rewrite E1. cbn [bind].
    exists (f c' :: out). split; [reflexivity|]. split; [cbn; lia|]. intros [|i] c Hc; cbn [nth_error] in *.
    + injection Hc as <-. exists f, c'. rewrite Nat.add_0_r. auto.
    + destruct (E3 i c Hc) as (f2 & c2 & A & B & C). exists f2, c2. replace (pos + S i) with (S pos + i) by lia. auto.
Qed.

Section Loop.
Variable cfg : iteration_config.
Notation kanji := (ic_kanji cfg).
Notation kana := (ic_kana cfg).
Variable text : str.

Definition expanded_at (out : str) (p : nat) : Prop := forall c, nth_error text p = Some c ->
    match mark_action kanji kana c with
    | None => nth_error out p = Some c
    | Some f => exists s n c', mark_run kanji kana text s n /\ s <= p < s + n /\
                  nth_error text (p - Nat.min n s) = Some c' /\ nth_error out p = Some (f c')
    end.

Lemma expanded_at_app out more p : p < length out -> expanded_at out p -> expanded_at (out ++ more) p.
Proof.
  intros L E c Hc. specialize (E c Hc). destruct (mark_action kanji kana c).
  - destruct E as (s & n & c' & A & B & C & D). exists s, n, c'. rewrite nth_error_app1 by exact L. auto.
  - rewrite nth_error_app1 by exact L. exact E.
Qed.

Lemma flush pre marks rest filtered :
  text = pre ++ marks ++ rest -> length filtered = length pre -> (forall p, p < length pre -> expanded_at filtered p) ->
  (pre = [] \/ ~ is_mark_at kanji kana text (length pre - 1)) -> Forall (fun c => is_iteration_mark cfg c = true) marks ->
  ~ is_mark_at kanji kana text (length pre + length marks) ->
  exists out, (if is_nil (at_positions (length pre) marks) then Ok [] else normalize_marks cfg (at_positions (length pre) marks) text) = Ok out /\
    length out = length marks /\ forall p, p < length pre + length marks -> expanded_at (filtered ++ out) p.
Proof.
  intros T L E S M N. destruct marks as [|m marks].
  - exists []. cbn. rewrite app_nil_r. repeat split. intros p H. apply E. lia.
  - cbn [is_nil at_positions]. set (ms := m :: marks) in *. change ((length pre, m) :: at_positions (Datatypes.S (length pre)) marks) with (at_positions (length pre) ms).
    assert (LM : length (at_positions (length pre) ms) = length ms).
    { generalize (length pre) ms. intros k l. revert k. induction l as [|x l IH]; intros k; cbn; [reflexivity|]. rewrite IH. reflexivity. }
    assert (F : normalize_marks cfg (at_positions (length pre) ms) text =
      mapM (normalize_mark cfg text (if Nat.ltb (length pre) (length ms) then length pre else length ms)) (at_positions (length pre) ms)).
    { unfold normalize_marks. rewrite LM. reflexivity. }
    rewrite F. set (d := if Nat.ltb (length pre) (length ms) then length pre else length ms).
    assert (D : d = Nat.min (length ms) (length pre)) by (unfold d; destruct (Nat.ltb_spec (length pre) (length ms)); lia).
    destruct (normalize_run cfg text d ms (length pre)) as (out & E1 & E2 & E3).
    + lia.
    + intros i c Hc. rewrite Forall_forall in M. specialize (M c (nth_error_In _ _ Hc)). rewrite mark_enabled in M.
      destruct (mark_action kanji kana c) as [f|]; [exists f; reflexivity|discriminate].
    + rewrite T, !app_length. lia.
    + exists out. split; [exact E1|]. split; [exact E2|]. intros p Hp. destruct (Nat.lt_ge_cases p (length pre)) as [Q|Q].
      * apply expanded_at_app; [lia|auto].
      * intros c Hc.
        assert (Hc' : nth_error ms (p - length pre) = Some c).
        { rewrite T, nth_error_app2, nth_error_app1 in Hc; [exact Hc|lia|exact Q]. }
        destruct (E3 _ _ Hc') as (f & c' & A & B & C). rewrite A. exists (length pre), (length ms), c'.
        repeat split; try lia.
        -- intros q Hq. destruct (nth_error ms (q - length pre)) as [c2|] eqn:E4; [|apply nth_error_None in E4; lia].
           destruct (E3 _ _ E4) as (f2 & _ & A2 & _). exists c2, f2. split; [|exact A2].
           rewrite T, nth_error_app2, nth_error_app1; [exact E4|lia|lia].
        -- destruct S as [S|S]; [left; rewrite S; reflexivity|right; exact S].
        -- exact N.
        -- rewrite <- D, <- B. f_equal. lia.
        -- rewrite nth_error_app2 by lia. rewrite L. exact C.
Qed.

Lemma iteration_loop_spec rest : forall pre marks filtered,
  text = pre ++ marks ++ rest -> length filtered = length pre -> (forall p, p < length pre -> expanded_at filtered p) ->
  (pre = [] \/ ~ is_mark_at kanji kana text (length pre - 1)) -> Forall (fun c => is_iteration_mark cfg c = true) marks ->
  exists out, iteration_loop cfg text rest (length pre + length marks) filtered (at_positions (length pre) marks) = Ok out /\ marks_expanded kanji kana text out.
Proof.
  induction rest as [|c rest IH]; intros pre marks filtered T L E S M; cbn [iteration_loop].
  - destruct (flush pre marks [] filtered T L E S M) as (out & E1 & E2 & E3).
    + intros (c & f & H & _). rewrite T, app_nil_r in H. assert (X : nth_error (pre ++ marks) (length pre + length marks) = None) by (apply nth_error_None; rewrite app_length; lia). congruence.
    + assert (ME : marks_expanded kanji kana text (filtered ++ out)).
      { split; [rewrite T, app_nil_r, !app_length; lia|]. intros p c Hc. apply E3; [|exact Hc].
        assert (H : p < length text) by (apply nth_error_Some; congruence). rewrite T, app_nil_r, app_length in H. lia. }
      destruct (is_nil (at_positions (length pre) marks)).
      * injection E1 as <-. rewrite app_nil_r in ME. exists filtered. auto.
      * rewrite E1. cbn [bind]. exists (filtered ++ out). auto.
  - destruct (is_iteration_mark cfg c) eqn:IM.
    + rewrite <- at_positions_snoc.
      destruct (IH pre (marks ++ [c]) filtered) as (out & O1 & O2); auto.
      * rewrite <- app_assoc. exact T.
      * apply Forall_app. split; [exact M|]. constructor; auto.
      * exists out. rewrite app_length in O1. cbn [length] in O1. replace (length pre + (length marks + 1)) with (Datatypes.S (length pre + length marks)) in O1 by lia. auto.
    + assert (NM : ~ is_mark_at kanji kana text (length pre + length marks)).
      { intros (x & f & H & A). rewrite T, app_assoc, nth_error_app2, app_length, Nat.sub_diag in H by (rewrite app_length; lia). injection H as <-.
        rewrite mark_enabled, A in IM. discriminate. }
      destruct (flush pre marks (c :: rest) filtered T L E S M NM) as (out & E1 & E2 & E3). rewrite E1. cbn [bind].
      destruct (IH (pre ++ marks ++ [c]) [] (filtered ++ out ++ [c])) as (o & O1 & O2).
      * rewrite <- !app_assoc. exact T.
      * rewrite !app_length. cbn. lia.
      * intros p Hp. rewrite !app_length in Hp. cbn [length] in Hp. rewrite app_assoc. destruct (Nat.lt_ge_cases p (length pre + length marks)) as [Q|Q].
        -- apply expanded_at_app; [rewrite app_length; lia|]. apply E3. exact Q.
        -- assert (p = length pre + length marks) by lia. subst p. intros x Hx.
           assert (x = c).
           { rewrite T, app_assoc, nth_error_app2, app_length, Nat.sub_diag in Hx by (rewrite app_length; lia). injection Hx as <-. reflexivity. }
           subst x. rewrite mark_enabled in IM. destruct (mark_action kanji kana c); [discriminate|].
           rewrite nth_error_app2 by (rewrite app_length; lia). rewrite app_length, E2, L, Nat.sub_diag. reflexivity.
      * right. rewrite !app_length. cbn [length]. replace (length pre + (length marks + 1) - 1) with (length pre + length marks) by lia. exact NM.
      * constructor.
      * exists o. split; [|exact O2]. rewrite <- O1. rewrite !app_length. cbn [length at_positions]. f_equal. lia.
Qed.
End Loop.

Lemma iteration_spec cfg text : exists out, iteration_apply cfg text = Ok (out, [], []) /\ marks_expanded (ic_kanji cfg) (ic_kana cfg) text out.
Proof.
  destruct (iteration_loop_spec cfg text text [] [] []) as (out & E & M); auto.
  - intros p H. cbn in H. lia.
  - exists out. split; [|exact M]. unfold iteration_apply. cbn [length Nat.add at_positions] in E. rewrite E. reflexivity.
Qed.

Lemma mark_run_unique kanji kana text s1 n1 s2 n2 p : mark_run kanji kana text s1 n1 -> mark_run kanji kana text s2 n2 ->
  s1 <= p < s1 + n1 -> s2 <= p < s2 + n2 -> s1 = s2 /\ n1 = n2.
Proof.
  intros (A1 & B1 & C1) (A2 & B2 & C2) H1 H2.
  assert (s1 = s2).
  { destruct (Nat.lt_trichotomy s1 s2) as [H|[H|H]]; [|exact H|]; exfalso.
    - destruct B2 as [B2|B2]; [lia|]. apply B2, A1. lia.
    - destruct B1 as [B1|B1]; [lia|]. apply B1, A2. lia. }
  subst. split; [reflexivity|]. destruct (Nat.lt_trichotomy n1 n2) as [H|[H|H]]; [|exact H|]; exfalso.
  - apply C1, A2. lia.
  - apply C2, A1. lia.
Qed.

Lemma nth_error_ext {A} (l : list A) : forall l', (forall n, nth_error l n = nth_error l' n) -> l = l'.
Proof.
  induction l as [|x l IH]; intros [|y l'] H; [reflexivity|discriminate (H 0)|discriminate (H 0)|].
  pose proof (H 0) as H0. cbn in H0. injection H0 as ->. f_equal. apply IH. intros n. apply (H (S n)).
Qed.

Lemma marks_expanded_unique kanji kana text out out' : marks_expanded kanji kana text out -> marks_expanded kanji kana text out' -> out = out'.
Proof.
  intros [L E] [L' E']. apply nth_error_ext. intros p. destruct (nth_error text p) as [c|] eqn:Ec.
  - specialize (E p c Ec). specialize (E' p c Ec). destruct (mark_action kanji kana c).
    + destruct E as (s & n & c1 & R & B & C & D). destruct E' as (s' & n' & c2 & R' & B' & C' & D').
      destruct (mark_run_unique _ _ _ _ _ _ _ p R R' B B') as [-> ->]. congruence.
    + congruence.
  - apply nth_error_None in Ec. assert (X : nth_error out p = None) by (apply nth_error_None; lia). rewrite X. symmetry. apply nth_error_None. lia.
Qed.

Lemma action_width kanji kana mark f c : mark_action kanji kana mark = Some f -> width mark = 3 /\ width (f c) = width c.
Proof.
  unfold mark_action.
  destruct (voicing_laws voiced_hiragana _ (or_introl (conj eq_refl eq_refl)) c) as (_ & _ & _ & _ & A1 & A2 & _).
  destruct (voicing_laws voiced_katakana _ (or_intror (conj eq_refl eq_refl)) c) as (_ & _ & _ & _ & B1 & B2 & _).
  destruct (N.eqb_spec mark 0x3005) as [->|_]; [destruct kanji; [|discriminate]; intros E; injection E as <-; split; reflexivity|].
  destruct (N.eqb_spec mark 0x309d) as [->|_]; [destruct kana; [|discriminate]; intros E; injection E as <-; split; [reflexivity | exact A2]|].
  destruct (N.eqb_spec mark 0x309e) as [->|_]; [destruct kana; [|discriminate]; intros E; injection E as <-; split; [reflexivity | exact A1]|].
  destruct (N.eqb_spec mark 0x30fd) as [->|_]; [destruct kana; [|discriminate]; intros E; injection E as <-; split; [reflexivity | exact B2]|].
  destruct (N.eqb_spec mark 0x30fe) as [->|_]; [destruct kana; [|discriminate]; intros E; injection E as <-; split; [reflexivity | exact B1]|].
  discriminate.
Qed.

Lemma same_widths_blen (a : str) : forall b, length a = length b -> (forall p c d, nth_error a p = Some c -> nth_error b p = Some d -> width c = width d) ->
  forall p, blen (firstn p a) = blen (firstn p b).
Proof.
  induction a as [|x a IH]; intros [|y b] L H p; try discriminate; [destruct p; reflexivity|]. destruct p; [reflexivity|]. cbn [firstn blen].
  rewrite (H 0 x y eq_refl eq_refl). f_equal. apply IH; [cbn in L; lia|]. intros q. apply (H (S q)).
Qed.

Lemma iteration_offsets kanji kana text out : marks_expanded kanji kana text out -> repeats_three_bytes kanji kana text ->
  forall p, blen (firstn p out) = blen (firstn p text).
Proof.
  intros [L E] R. apply same_widths_blen; [exact L|]. intros p d c Hd Hc. specialize (E p c Hc).
  destruct (mark_action kanji kana c) as [f|] eqn:A; [|congruence].
  destruct E as (s & n & c' & MR & B & C & D). rewrite Hd in D. injection D as ->.
  destruct (action_width _ _ _ _ c' A) as [W1 W2]. rewrite W1, W2. eapply R; eauto.
Qed.
