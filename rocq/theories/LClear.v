(** Decisions with a margin. *)
From Coq Require Import List NArith ZArith Bool Lia ZifyBool ZifyNat ZifyN.
From Verif Require Import MBase MUtf8 MCodec MDict MCharDef MUnk MLattice MTokenizer STok SMore SRetune SClear LBase LUtf8 LSeg LExact LTok LMore LRetune LPanic.
Import ListNotations.

Lemma seg_words P pre s ws : seg P pre s ws -> length ws <= length s.
Proof. induction 1 as [|pre k e rest ws N H S IH]; cbn [length]; [lia|]. rewrite app_length. destruct k; [contradiction|cbn [length]; lia]. Qed.

(* the words of a searched segmentation are candidates of valid texts *)
Lemma seg_candidates A m s W Act : searched A m s W Act -> forall pre r ws, seg W pre r ws -> valid_str r ->
  Forall (fun w : word => exists r', valid_str r' /\ candidate A r' (fst w) (snd w)) ws.
Proof.
  intros SR pre r ws G. induction G as [|pre k e rest ws N H G IH]; intros V; constructor.
  - exists (k ++ rest). split; [exact V|]. exact (searched_candidate _ _ _ _ _ _ _ _ _ SR H).
  - apply IH. apply valid_str_app in V. apply V.
Qed.

Definition word_eq_dec (x y : word) : {x = y} + {x <> y}.
Proof. repeat decide equality. Defined.

Section One.
Variables (t : tokenizer) (A : adict).
Hypothesis R : represents t A.

(** ** Small changes *)

Lemma near_cost c conn A' m m' d : retuned c conn A A' ->
  (forall s k e, valid_str s -> candidate A s k e -> near d (c e) (we_cost e) /\ near d (surface_penalty m' k) (surface_penalty m k)) ->
  (forall f b, (f < a_fsize A)%N -> (b < a_bsize A)%N -> near d (conn f b) (a_conn A f b)) ->
  forall ws f, (f < a_fsize A)%N -> Forall (fun w : word => exists r', valid_str r' /\ candidate A r' (fst w) (snd w)) ws ->
  near (d * (3 * Z.of_nat (length ws) + 1)) (cost_from A' m' f (map (pricedw c) ws)) (cost_from A m f ws).
Proof.
  intros RT HC HJ. induction ws as [|[k e] ws IH]; intros f F C; cbn [map cost_from pricedw fst snd priced we_left we_right we_cost length]; rewrite (rt_conn _ _ _ _ RT).
  - destruct (rep_sizes t A R) as [_ B0]. specialize (HJ f 0%N F B0). unfold near in *. lia.
  - inversion C as [|? ? (r' & V & K) C']; subst. cbn [fst snd] in K.
    destruct (candidate_entry_ok t A R r' k e V K) as (E1 & E2 & _). destruct (HC r' k e V K) as [H1 H2].
    specialize (HJ f (we_left e) F E2). specialize (IH (we_right e) E1 C'). unfold near in *. lia.
Qed.

(** ** Two levels *)

Lemma levels_cost P c d m : two_levels P c d A m -> forall ws f, (f < a_fsize A)%N -> Forall (fun w : word => exists r', valid_str r' /\ candidate A r' (fst w) (snd w)) ws ->
  near (d * (3 * Z.of_nat (length ws) + 1)) (cost_from A m f ws) (- c * Z.of_nat (word_count P ws)).
Proof.
  intros [HC HJ]. induction ws as [|[k e] ws IH]; intros f F C; unfold word_count in *; cbn [filter cost_from fst snd length].
  - destruct (rep_sizes t A R) as [_ B0]. specialize (HJ f 0%N F B0). unfold near in *. lia.
  - inversion C as [|? ? (r' & V & K) C']; subst. cbn [fst snd] in K.
    destruct (candidate_entry_ok t A R r' k e V K) as (E1 & E2 & _). destruct (HC r' k e V K) as [H1 H2].
    specialize (HJ f (we_left e) F E2). specialize (IH (we_right e) E1 C'). unfold near in *. destruct (P (we_id e)); cbn [length]; lia.
Qed.

Lemma levels_answer P c d m s ws : two_levels P c d A m -> valid_str s -> fits_i32 m s -> (slack d s < c)%Z -> exact_answer A m s ws ->
  forall W Act y, searched A m s W Act -> seg W [] s y -> word_count P y <= word_count P ws.
Proof.
  intros L V F C H W Act y SR G. destruct (rep_sizes t A R) as [F0 _].
  destruct (best_of A m s ws W Act y H F SR G) as (G' & B). unfold seg_cost in B.
  pose proof (levels_cost P c d m L ws 0%N F0 (seg_candidates A m s W Act SR [] s ws G' V)) as L1.
  pose proof (levels_cost P c d m L y 0%N F0 (seg_candidates A m s W Act SR [] s y G V)) as L2.
  pose proof (seg_words _ _ _ _ G') as N1. pose proof (seg_words _ _ _ _ G) as N2.
  assert (D : (0 <= d)%Z) by (destruct (rep_sizes t A R) as [_ B0]; destruct L as [_ HJ]; specialize (HJ 0%N 0%N F0 B0); unfold near in HJ; lia).
  unfold near, slack in *. destruct (Nat.le_gt_cases (word_count P y) (word_count P ws)) as [X|X]; [exact X|exfalso].
  assert (X1 : (d * (3 * Z.of_nat (length ws) + 1) <= d * (3 * Z.of_nat (length s) + 1))%Z) by (apply Z.mul_le_mono_nonneg_l; [exact D|unfold str, char in *; lia]).
  assert (X2 : (d * (3 * Z.of_nat (length y) + 1) <= d * (3 * Z.of_nat (length s) + 1))%Z) by (apply Z.mul_le_mono_nonneg_l; [exact D|unfold str, char in *; lia]).
  assert (X3 : (c * Z.of_nat (word_count P ws) + c <= c * Z.of_nat (word_count P y))%Z) by nia.
  lia.
Qed.

(* over texts *)
Theorem levels_text P c d text ss : two_levels P c d A (t_mode t) -> valid_str text -> sentences text ss ->
  Forall (fun s => fits_i32 (t_mode t) s /\ (slack d s < c)%Z) ss ->
  exists ts wss, tokenize t text = Some (Ok ts) /\ tokens_of_words ts (concat wss) /\
    Forall2 (fun s ws => (forall W Act y, searched A (t_mode t) s W Act -> seg W [] s y -> word_count P y <= word_count P ws) /\
                         (is_search (t_mode t) = true -> forall y, segmentation A s y -> word_count P y <= word_count P ws)) ss wss.
Proof.
  intros L V S F. destruct (tokenize_exact t A R text ss V S) as (ts & wss & T & W & H & _). exists ts, wss. split; [exact T|]. split; [exact W|].
  pose proof (sentences_parts text ss V S) as VS. clear W S. induction H as [|s ws ss' wss E H IH]; constructor.
  - inversion F as [|? ? [F1 F2] _]; inversion VS as [|? ? [V1 _] _]; subst. assert (G := levels_answer P c d _ s ws L V1 F1 F2 E). split; [exact G|].
    intros M y Y. apply (G _ _ y (searched_admitted A (t_mode t) s)).
    apply (searched_all A (t_mode t) s _ _ [] s y (searched_admitted A (t_mode t) s) M Y eq_refl). constructor.
  - inversion F; inversion VS; subst. apply IH; assumption.
Qed.

(* a clear answer stays *)
Lemma clear_answer c conn A' m m' d s ws ws' : retuned c conn A A' -> is_search m' = is_search m ->
  (forall s k e, valid_str s -> candidate A s k e -> near d (c e) (we_cost e) /\ near d (surface_penalty m' k) (surface_penalty m k)) ->
  (forall f b, (f < a_fsize A)%N -> (b < a_bsize A)%N -> near d (conn f b) (a_conn A f b)) ->
  valid_str s -> fits_i32 m s -> fits_i32 m' s -> clear A m s (slack d s) -> exact_answer A m s ws -> exact_answer A' m' s ws' -> ws' = map (pricedw c) ws.
Proof.
  intros RT M HC HJ V F F' C H H'. destruct (rep_sizes t A R) as [F0 B0].
  destruct (rt_answers c conn A A' RT m m' s ws ws' M F F' H H') as [[-> ->]|(W & Act & x & SR & G & X & -> & L1 & L2)]; [reflexivity|].
  f_equal. destruct (list_eq_dec word_eq_dec x ws) as [E|N]; [exact E|exfalso]. specialize (C W Act ws x SR H X N).
  pose proof (near_cost c conn A' m m' d RT HC HJ ws 0%N F0 (seg_candidates A m s W Act SR [] s ws G V)) as N1.
  pose proof (near_cost c conn A' m m' d RT HC HJ x 0%N F0 (seg_candidates A m s W Act SR [] s x X V)) as N2.
  pose proof (seg_words _ _ _ _ G) as K1. pose proof (seg_words _ _ _ _ X) as K2.
  assert (D : (0 <= d)%Z) by (specialize (HJ 0%N 0%N F0 B0); unfold near in HJ; lia).
  unfold near, slack, seg_cost in *.
  assert (X1 : (d * (3 * Z.of_nat (length ws) + 1) <= d * (3 * Z.of_nat (length s) + 1))%Z) by (apply Z.mul_le_mono_nonneg_l; [exact D|unfold str, char in *; lia]).
  assert (X2 : (d * (3 * Z.of_nat (length x) + 1) <= d * (3 * Z.of_nat (length s) + 1))%Z) by (apply Z.mul_le_mono_nonneg_l; [exact D|unfold str, char in *; lia]).
  lia.
Qed.

Theorem clear_text t' A' c conn d text ss : represents t' A' -> retuned c conn A A' -> is_search (t_mode t') = is_search (t_mode t) ->
  (forall s k e, valid_str s -> candidate A s k e -> near d (c e) (we_cost e) /\ near d (surface_penalty (t_mode t') k) (surface_penalty (t_mode t) k)) ->
  (forall f b, (f < a_fsize A)%N -> (b < a_bsize A)%N -> near d (conn f b) (a_conn A f b)) ->
  valid_str text -> sentences text ss ->
  Forall (fun s => fits_i32 (t_mode t) s /\ fits_i32 (t_mode t') s /\ clear A (t_mode t) s (slack d s)) ss ->
  tokenize t' text = tokenize t text.
Proof.
  intros R' RT M HC HJ V S F.
  destruct (tokenize_exact t A R text ss V S) as (ts & wss & T & W & H & TI). destruct (tokenize_exact t' A' R' text ss V S) as (ts' & wss' & T' & W' & H' & TI').
  rewrite T, T'. do 2 f_equal. unfold tiles in TI, TI'. apply (tiles_words _ _ _ _ _ _ TI' TI).
  assert (E : wss' = map (map (pricedw c)) wss).
  { pose proof (sentences_parts text ss V S) as VS. clear - R RT M HC HJ VS F H H'. revert wss' H'. induction H as [|s ws ss wss E H IH]; intros wss' H'; inversion H' as [|? ws' ? wss2 E' H2]; subst; [reflexivity|].
    inversion F as [|? ? (F1 & F2 & F3) F4]; inversion VS as [|? ? [V1 _] VS']; subst. cbn [map]. f_equal; [|apply IH; assumption].
    exact (clear_answer c conn A' _ _ d s ws ws' RT M HC HJ V1 F1 F2 F3 E E'). }
  unfold tokens_of_words in W, W'. rewrite W, W', E. rewrite <- concat_map, map_map. apply map_ext. intros [k e]. reflexivity.
Qed.
End One.
