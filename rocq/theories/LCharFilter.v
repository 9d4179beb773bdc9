(** Offsets of the mapping, normalization and regex character filters. *)
From Coq Require Import List NArith ZArith Bool Lia ZifyBool ZifyNat ZifyN.
From Verif Require Import MBase MUtf8 MText MCodec MDict MCharDef MBuild MCharFilter SBuild SCharDef SCharFilter
  LBase LUtf8 LDict LBuild LMatrix LCharDef LOffset LMapping.
Import ListNotations.
Local Open Scope list_scope.

(** * The source of a position *)

Lemma source_of_mono segs : forall x y, x <= y -> source_of segs x <= source_of segs y.
Proof.
  induction segs as [|[i o] segs IH]; intros x y H; cbn [source_of]; [exact H|].
  destruct (Nat.ltb_spec x o), (Nat.ltb_spec y o); try lia. specialize (IH (x - o) (y - o)). lia.
Qed.

Lemma source_of_within segs : forall x, x <= out_total segs -> source_of segs x <= in_total segs.
Proof.
  induction segs as [|[i o] segs IH]; intros x H; cbn [source_of in_total out_total fold_right] in *; [lia|].
  fold (in_total segs) (out_total segs) in *. destruct (Nat.ltb_spec x o); [lia|]. specialize (IH (x - o)). lia.
Qed.

Lemma source_of_boundary p : forall q, match q with [] => True | (_, o) :: _ => 0 < o end -> source_of (p ++ q) (out_total p) = in_total p.
Proof.
  induction p as [|[i o] p IH]; intros q H; cbn [app source_of in_total out_total fold_right] in *.
  - destruct q as [|[i o] q]; cbn [source_of]; [reflexivity|]. destruct (Nat.ltb_spec 0 o); lia.
  - fold (in_total p) (out_total p). destruct (Nat.ltb_spec (o + out_total p) o); [lia|].
    replace (o + out_total p - o) with (out_total p) by lia. rewrite IH by exact H. reflexivity.
Qed.

Lemma source_points_back segs correct : (forall x, x <= out_total segs -> correct x = Ok (N.of_nat (source_of segs x))) -> points_back segs correct.
Proof.
  intros H. exists (source_of segs). split; [|split].
  - intros x Hx. split; [auto|]. apply source_of_within. exact Hx.
  - intros p q -> Q. apply source_of_boundary. exact Q.
  - apply source_of_mono.
Qed.

(** * Segments without text can be left out *)

Definition keeps (s : segment) : bool := negb (Nat.eqb (fst s) 0 && Nat.eqb (snd s) 0).

Lemma keeps_spec i o : (keeps (i, o) = false /\ i = 0 /\ o = 0) \/ keeps (i, o) = true.
Proof. unfold keeps. cbn. destruct (Nat.eqb_spec i 0), (Nat.eqb_spec o 0); subst; cbn; auto. Qed.

Lemma record_keeps segs : forall st, record_all (filter keeps segs) st = record_all segs st.
Proof.
  induction segs as [|[i o] segs IH]; intros [st start]; cbn [filter]; [reflexivity|].
  destruct (keeps_spec i o) as [(E & -> & ->)|E]; rewrite E.
  - rewrite IH. unfold record_all. cbn [fold_left]. rewrite N.add_0_r. reflexivity.
  - unfold record_all in *. cbn [fold_left]. apply IH.
Qed.

Lemma totals_keeps segs : in_total (filter keeps segs) = in_total segs /\ out_total (filter keeps segs) = out_total segs.
Proof.
  induction segs as [|[i o] segs [A B]]; cbn [filter]; [auto|].
  destruct (keeps_spec i o) as [(E & -> & ->)|E]; rewrite E; cbn [in_total out_total fold_right] in *; fold (in_total segs) (out_total segs) in *;
    [auto|]. unfold in_total, out_total in *. rewrite A, B. auto.
Qed.

Lemma source_keeps segs : forall x, source_of (filter keeps segs) x = source_of segs x.
Proof.
  induction segs as [|[i o] segs IH]; intros x; cbn [filter]; [reflexivity|].
  destruct (keeps_spec i o) as [(E & -> & ->)|E]; rewrite E; cbn [source_of].
  - cbn [Nat.ltb Nat.leb]. rewrite Nat.sub_0_r. apply IH.
  - rewrite IH. reflexivity.
Qed.

Lemma record_source_gaps segs search offs diffs e x : Forall (fun s => fst s = 0 -> snd s = 0) segs ->
  fits_isize (in_total segs) -> fits_isize (out_total segs) -> search_contract search -> x <= out_total segs ->
  record_all segs (([], []), 0%N) = ((offs, diffs), e) ->
  correct_offset_with search (N.of_nat x) offs diffs (N.of_nat (out_total segs)) = Ok (N.of_nat (source_of segs x)).
Proof.
  intros F S1 S2 SC Hx E. destruct (totals_keeps segs) as [T1 T2]. rewrite <- (source_keeps segs x), <- T2. unfold fits_isize in *.
  eapply record_source; try exact SC; try (unfold small; rewrite ?T1, ?T2; lia).
  - apply Forall_forall. intros [i o] H. apply filter_In in H. destruct H as [H K]. rewrite Forall_forall in F. specialize (F _ H).
    cbn [fst snd] in *. unfold keeps in K. cbn [fst snd] in K. destruct i; [rewrite F in K by reflexivity; discriminate|lia].
  - rewrite record_keeps. exact E.
Qed.

(** * Normalization *)


Lemma normalize_loop form gs : forall result st start,
  fold_left (fun '(result, st, input_start) c =>
                 let replacement_text := form c in
                 let input_offset := (input_start + N.of_nat (blen c))%N in
                 (result ++ replacement_text, record_diff st input_offset (blen c) (blen replacement_text), input_offset))
              gs (result, st, start) =
  (result ++ flat_map form gs, fst (record_all (grapheme_segments form gs) (st, start)), snd (record_all (grapheme_segments form gs) (st, start))).
Proof.
  induction gs as [|g gs IH]; intros result st start; cbn [fold_left flat_map]; [rewrite app_nil_r; reflexivity|].
  rewrite IH, app_assoc. reflexivity.
Qed.

Lemma segments_totals form gs : in_total (grapheme_segments form gs) = blen (concat gs) /\ out_total (grapheme_segments form gs) = blen (flat_map form gs).
Proof.
  induction gs as [|g gs [A B]]; cbn; [auto|]. fold (grapheme_segments form gs) (in_total (grapheme_segments form gs)) (out_total (grapheme_segments form gs)).
  rewrite !blen_app. unfold in_total, out_total in *. cbn in *. rewrite A, B. auto.
Qed.

Lemma blen_zero s : blen s = 0 -> s = [].
Proof. destruct s as [|c s]; [auto|]. pose proof (blen_length (c :: s)). cbn [length] in *. lia. Qed.

Lemma normalize_offsets graphemes form text out offs diffs :
  concat (graphemes text) = text -> Forall (fun g => g <> []) (graphemes text) ->
  normalize_apply graphemes form text = (out, offs, diffs) -> fits_isize (blen text) -> fits_isize (blen out) ->
  out = flat_map form (graphemes text) /\
  forall search x, search_contract search -> x <= blen out ->
    correct_offset_with search (N.of_nat x) offs diffs (N.of_nat (blen out)) =
    Ok (N.of_nat (source_of (grapheme_segments form (graphemes text)) x)).
Proof.
  intros C NE E S1 S2. unfold normalize_apply in E. rewrite normalize_loop in E. cbn [app] in E.
  match type of E with context [record_all ?s ?i] => destruct (record_all s i) as [[o d] e] eqn:R end. cbn [fst snd] in E. injection E as <- <- <-.
  split; [reflexivity|]. intros search x SC Hx. destruct (segments_totals form (graphemes text)) as [T1 T2]. rewrite <- T2.
  apply (record_source_gaps _ search o d e x); try exact SC; try exact R.
  - unfold grapheme_segments. apply Forall_map. revert NE. apply Forall_impl. intros g G Z. cbn [fst snd] in *. apply blen_zero in Z. congruence.
  - rewrite T1, C. exact S1.
  - rewrite T2. exact S2.
  - rewrite T2. exact Hx.
Qed.

(** * Regular expressions *)

Lemma replace_from_spec rx r ps : has_dollar r = false -> forall pre tail,
  replace_from rx (pre ++ whole ps tail) r (blen pre) (match_spans (blen pre) ps) = Ok (with_replaced r ps tail).
Proof.
  intros ND. induction ps as [|[gap m] ps IH]; intros pre tail; cbn [match_spans replace_from].
  - unfold whole, with_replaced. cbn [flat_map app]. apply str_from_app.
  - unfold whole, with_replaced. cbn [flat_map]. rewrite <- !app_assoc.
    assert (R1 : str_range (pre ++ gap ++ m ++ flat_map (fun '(gap, m) => gap ++ m) ps ++ tail) (blen pre) (blen pre + blen gap) = Ok gap).
    { apply str_range_app. }
    rewrite R1. cbn [bind]. specialize (IH (pre ++ gap ++ m) tail). unfold whole, with_replaced in IH. rewrite <- !app_assoc, !blen_app, Nat.add_assoc in IH.
    rewrite IH. cbn [bind]. rewrite ND. reflexivity.
Qed.

Lemma record_same st o n : record_diff st o n n = st.
Proof. unfold record_diff. rewrite Z.sub_diag. reflexivity. Qed.

Lemma record_spans r ps tail : forall st start,
  fold_left (fun st '(s, e) => record_diff st (N.of_nat e) (e - s) (blen r)) (match_spans start ps) st =
  fst (record_all (match_segments r ps tail) (st, N.of_nat start)).
Proof.
  induction ps as [|[gap m] ps IH]; intros st start; cbn [match_spans fold_left].
  - unfold match_segments, record_all. cbn [flat_map app fold_left fst]. unfold record_diff. rewrite Z.sub_diag. reflexivity.
  - rewrite IH. unfold match_segments, record_all. cbn [flat_map app fold_left]. rewrite record_same.
    replace (start + blen gap + blen m - (start + blen gap)) with (blen m) by lia. repeat f_equal; lia.
Qed.

Lemma match_segments_totals r ps tail : in_total (match_segments r ps tail) = blen (whole ps tail) /\ out_total (match_segments r ps tail) = blen (with_replaced r ps tail).
Proof.
  unfold match_segments, whole, with_replaced. induction ps as [|[gap m] ps [A B]]; cbn [flat_map app in_total out_total fold_right].
  - cbn. lia.
  - unfold in_total, out_total in *. rewrite <- !app_assoc, !blen_app, A, B. rewrite !blen_app. lia.
Qed.

Lemma regex_offsets rx r text ps tail : has_dollar r = false -> text = whole ps tail -> rx_find_iter rx text = match_spans 0 ps ->
  Forall (fun '(_, m) => m <> []) ps \/ r = [] ->
  let out := with_replaced r ps tail in fits_isize (blen text) -> fits_isize (blen out) ->
  exists offs diffs, regex_apply rx r text = Ok (out, offs, diffs) /\
  forall search x, search_contract search -> x <= blen out ->
    correct_offset_with search (N.of_nat x) offs diffs (N.of_nat (blen out)) = Ok (N.of_nat (source_of (match_segments r ps tail) x)).
Proof.
  intros ND -> FI NE out S1 S2. subst out. unfold regex_apply, replace_all. rewrite FI.
  pose proof (replace_from_spec rx r ps ND [] tail) as RF. cbn [app blen] in RF. rewrite RF. cbn [bind].
  rewrite (record_spans r ps tail). match goal with |- context [record_all ?s ?i] => destruct (record_all s i) as [[o d] e] eqn:R end. cbn [fst snd].
  exists o, d. split; [reflexivity|]. intros search x SC Hx. destruct (match_segments_totals r ps tail) as [T1 T2]. rewrite <- T2.
  apply (record_source_gaps _ search o d e x); try exact SC; try exact R.
  - unfold match_segments. apply Forall_app. split.
    + apply Forall_flat_map. destruct NE as [NE| ->].
      * revert NE. apply Forall_impl. intros [gap m] NE. repeat constructor; cbn [fst snd]; [auto|]. intros Z. apply blen_zero in Z. congruence.
      * apply Forall_forall. intros [gap m] _. repeat constructor; cbn [fst snd]; auto.
    + repeat constructor. auto.
  - rewrite T1. exact S1.
  - rewrite T2. exact S2.
  - rewrite T2. exact Hx.
Qed.
