(** The same dictionaries with other costs: the search looks at the same words. *)
From Coq Require Import List NArith ZArith Bool Lia ZifyBool ZifyNat ZifyN Wf_nat.
From Verif Require Import MBase MUtf8 MCodec MDict MCharDef MUnk MLattice MTokenizer STok SMore SRetune LBase LUtf8 LExact LTok LMore.
Import ListNotations.

Definition pricedw (c : word_entry -> Z) (w : word) : word := (fst w, priced c (snd w)).

Section Retune.
Variables (c : word_entry -> Z) (conn : N -> N -> Z) (A A' : adict).
Hypothesis RT : retuned c conn A A'.
Let g := priced c.

Lemma rt_dict s k e' : dict_word A' s k e' <-> exists e, e' = g e /\ dict_word A s k e.
Proof.
  unfold dict_word. rewrite (rt_sys _ _ _ _ RT), (rt_usr _ _ _ _ RT). split.
  - intros (N & P & [H|H]); apply in_map_iff in H as (e & <- & H); exists e; auto 6.
  - intros (e & -> & N & P & [H|H]); split; auto; split; auto; [left|right]; apply in_map_iff; exists e; auto.
Qed.
Lemma rt_none s : no_dict_word A' s <-> no_dict_word A s.
Proof.
  split; intros H k e D; [apply (H k (g e)), rt_dict; eauto|]. apply rt_dict in D as (e0 & -> & D). exact (H k e0 D).
Qed.
Lemma rt_has ord k x : has_cat A' ord k x <-> has_cat A ord k x.
Proof. unfold has_cat. rewrite (rt_cats _ _ _ _ RT). reflexivity. Qed.
Lemma rt_span ord k s w : unk_span A' ord k s w <-> unk_span A ord k s w.
Proof.
  unfold unk_span, has_cat. split; intros (x & run & rest & E1 & E2 & H); exists x, run, rest; (split; [exact E1|]); (split; [exact E2|]);
    rewrite (rt_group _ _ _ _ RT) in *; destruct (a_group A k); try exact H; destruct H as [F L];
    (split; [eapply Forall_impl; [|exact F]; intros y; cbn beta; rewrite (rt_cats _ _ _ _ RT); auto|]); intros d rest' E; specialize (L d rest' E); rewrite (rt_cats _ _ _ _ RT) in *; exact L.
Qed.
Lemma rt_unknown_by s ord cat w e' : unknown_by A' s ord cat w e' <-> exists e, e' = g e /\ unknown_by A s ord cat w e.
Proof.
  unfold unknown_by. split.
  - intros (x & r & E & H & I & S & U). rewrite (rt_unk _ _ _ _ RT) in U. apply in_map_iff in U as (e & <- & U). exists e. split; [reflexivity|]. exists x, r.
    rewrite rt_has in H. rewrite rt_span in S. rewrite rt_none, (rt_invoke _ _ _ _ RT) in I. auto 6.
  - intros (e & -> & x & r & E & H & I & S & U). exists x, r. rewrite rt_has, rt_span, rt_none, (rt_invoke _ _ _ _ RT), (rt_unk _ _ _ _ RT).
    do 4 (split; [assumption|]). apply in_map. exact U.
Qed.
Lemma unknown_by_some B s w e : unknown_word B s w e <-> exists ord cat, unknown_by B s ord cat w e.
Proof.
  split; [intros (x & r & ord & k & E & H)|intros (ord & k & x & r & E & H)].
  - exists ord, k, x, r. auto.
  - exists x, r, ord, k. auto.
Qed.
Lemma rt_unknown s w e' : unknown_word A' s w e' <-> exists e, e' = g e /\ unknown_word A s w e.
Proof.
  rewrite unknown_by_some. split.
  - intros (ord & cat & H). apply rt_unknown_by in H as (e & -> & H). exists e. split; [reflexivity|]. apply unknown_by_some. eauto.
  - intros (e & -> & H). apply unknown_by_some in H as (ord & cat & H). exists ord, cat. apply rt_unknown_by. eauto.
Qed.
Lemma rt_span_at s ord w : span_at A' s ord w <-> span_at A s ord w.
Proof.
  unfold span_at. split; intros (x & r & cat & E & H & I & S); exists x, r, cat.
  - rewrite rt_has in H. rewrite rt_span in S. rewrite rt_none, (rt_invoke _ _ _ _ RT) in I. auto.
  - rewrite rt_has, rt_span, rt_none, (rt_invoke _ _ _ _ RT). auto.
Qed.
Lemma rt_last_span s w : last_span A' s w <-> last_span A s w.
Proof.
  unfold last_span. split; intros (ord & H & L); exists ord; rewrite rt_span_at in *; (split; [exact H|]); intros o w' X; apply (L o w'); apply rt_span_at; exact X.
Qed.
Lemma rt_last_end s Act pre n : last_end A' s Act pre n <-> last_end A s Act pre n.
Proof.
  unfold last_end. split; intros (pre' & r & w & H1 & H2 & H3 & H4 & H5 & H6); exists pre', r, w; rewrite rt_last_span in *; do 5 (split; [assumption|]);
    intros q r' ord w' Q1 Q2 Q3 X; apply (H6 q r' ord w' Q1 Q2 Q3); apply rt_span_at; exact X.
Qed.

(* the same search *)
Definition lifted (W : str -> str -> str -> word_entry -> Prop) (pre r k : str) (e' : word_entry) : Prop := exists e, e' = g e /\ W pre r k e.
Lemma lifted_reach W s pre : reach (lifted W) s pre <-> reach W s pre.
Proof.
  split; induction 1 as [|pre k rest e R IH E H]; try constructor.
  - destruct H as (e0 & _ & H). econstructor; eauto.
  - apply (reach_step _ _ _ _ rest (g e)); [exact IH|exact E|exists e; auto].
Qed.
Lemma lifted_searched m m' s W Act : is_search m' = is_search m -> searched A m s W Act -> searched A' m' s (lifted W) Act.
Proof.
  intros M S. split.
  - intros pre r k e'. rewrite lifted_reach, rt_dict, rt_unknown. split.
    + intros (e & -> & H). apply (srch_words _ _ _ _ _ S) in H as (H1 & H2 & H3). split; [exact H1|]. split; [exact H2|].
      destruct H3 as [H3|[H3 H4]]; [left; eauto|right; eauto].
    + intros (H1 & H2 & H3). destruct H3 as [(e & -> & H3)|[H3 (e & -> & H4)]]; exists e; (split; [reflexivity|]); apply (srch_words _ _ _ _ _ S); auto.
  - intros pre. rewrite lifted_reach, M, (srch_active _ _ _ _ _ S). split; intros (H1 & H2 & H3); (split; [exact H1|]); (split; [exact H2|]);
      (destruct H3 as [H3|H3]; [left; exact H3|right; intros n X; apply H3, rt_last_end, X]).
Qed.
Lemma lifted_seg W pre s ws' : seg (lifted W) pre s ws' <-> exists ws, ws' = map (pricedw c) ws /\ seg W pre s ws.
Proof.
  split.
  - induction 1 as [pre|pre k e' rest ws' N P S IH]; [exists []; split; [reflexivity|constructor]|].
    destruct P as (e & -> & P). destruct IH as (ws & -> & S'). exists ((k, e) :: ws). split; [reflexivity|]. constructor; assumption.
  - intros (ws & -> & S). induction S as [pre|pre k e rest ws N P S IH]; [constructor|]. cbn [map]. constructor; [exact N|exists e; auto|exact IH].
Qed.

(* both answers, seen in the first dictionary *)
Lemma rt_answers m m' s ws ws' : is_search m' = is_search m -> fits_i32 m s -> fits_i32 m' s ->
  exact_answer A m s ws -> exact_answer A' m' s ws' ->
  (ws = [] /\ ws' = []) \/
  (exists W Act x, searched A m s W Act /\ seg W [] s ws /\ seg W [] s x /\ ws' = map (pricedw c) x /\
     (seg_cost A m ws <= seg_cost A m x)%Z /\ (seg_cost A' m' ws' <= seg_cost A' m' (map (pricedw c) ws))%Z).
Proof.
  intros M F F' (W & Act & S & H) (W' & Act' & S' & H').
  destruct (searched_unique A' m' s W' Act' (lifted W) Act S' (lifted_searched m m' s W Act M S)) as [U _].
  assert (K : forall x, seg W' [] s x <-> exists ws, x = map (pricedw c) ws /\ seg W [] s ws).
  { intros x. rewrite <- lifted_seg. split; apply seg_mono; intros pre r k e; apply U. }
  destruct H as [[-> N]|[B H]]; destruct H' as [[-> N']|[B' H']].
  - left. auto.
  - exfalso. apply K in B' as (x & _ & B'). exact (N x B').
  - exfalso. apply (N' (map (pricedw c) ws)), K. eauto.
  - right. apply K in B' as (x & -> & B'). exists W, Act, x. do 4 (split; [auto; fail|]).
    split; [destruct (H F x B') as [L|[L _]]; lia|].
    destruct (H' F' (map (pricedw c) ws)) as [L|[L _]]; [apply K; eauto|lia|lia].
Qed.

(* orders are kept *)
Lemma before_map {X Y} (f : X -> Y) l x y : before l x y -> before (map f l) (f x) (f y).
Proof. intros (a & b & d & ->). exists (map f a), (map f b), (map f d). rewrite map_app. cbn [map]. rewrite map_app. reflexivity. Qed.
Lemma rt_ranked s k e e' : ranked A s k e e' -> ranked A' s k (g e) (g e').
Proof.
  intros [H|H H0|ord cat ord' cat' H H0 L|ord cat H H0 B].
  - apply ranked_dict. rewrite (rt_sys _ _ _ _ RT), (rt_usr _ _ _ _ RT), <- map_app. apply before_map, H.
  - apply ranked_known; [rewrite (rt_sys _ _ _ _ RT), (rt_usr _ _ _ _ RT), <- map_app; apply in_map, H|apply rt_unknown; eauto].
  - apply (ranked_category _ _ _ _ _ ord cat ord' cat'); [apply rt_unknown_by; eauto|apply rt_unknown_by; eauto|exact L].
  - apply (ranked_unknown _ _ _ _ _ ord cat); [apply rt_unknown_by; eauto|apply rt_unknown_by; eauto|]. rewrite (rt_unk _ _ _ _ RT). apply before_map, B.
Qed.
Lemma pricedw_fst ws : map fst (map (pricedw c) ws) = map fst ws.
Proof. rewrite map_map. apply map_ext. intros [k e]. reflexivity. Qed.
Lemma rt_wins ws ws' : distinct_entries A' -> wins_tie A ws ws' -> wins_tie A' (map (pricedw c) ws) (map (pricedw c) ws').
Proof.
  intros D [->|(a & k & e & b & k' & e' & z & -> & -> & N & H)]; [left; reflexivity|]. right.
  exists (map (pricedw c) a), k, (g e), (map (pricedw c) b), k', (g e'), (map (pricedw c) z). rewrite !map_app. cbn [map]. split; [reflexivity|]. split; [reflexivity|].
  rewrite pricedw_fst. destruct H as [L|[-> R]].
  - split; [|left; exact L]. intros E. injection E as -> _. lia.
  - assert (R' := rt_ranked _ _ _ _ R). split; [|right; split; [reflexivity|exact R']]. intros E. apply (f_equal snd) in E. cbn [snd] in E. rewrite E in R'.
    exact (ranked_asym A' _ _ _ _ D R' R').
Qed.

(* an answer stays the answer if it beats all others as before *)
Lemma rt_stays m m' s ws : is_search m' = is_search m -> distinct_entries A' -> fits_i32 m s -> exact_answer A m s ws ->
  (forall x, (seg_cost A m ws < seg_cost A m x)%Z -> (seg_cost A' m' (map (pricedw c) ws) < seg_cost A' m' (map (pricedw c) x))%Z) ->
  (forall x, seg_cost A m ws = seg_cost A m x -> (seg_cost A' m' (map (pricedw c) ws) <= seg_cost A' m' (map (pricedw c) x))%Z) ->
  exact_answer A' m' s (map (pricedw c) ws).
Proof.
  intros M D F (W & Act & S & H) K1 K2. exists (lifted W), Act. split; [exact (lifted_searched m m' s W Act M S)|].
  destruct H as [[-> N]|[B H]]; [left; split; [reflexivity|]; intros x X; apply lifted_seg in X as (y & _ & X); exact (N y X)|].
  right. split; [apply lifted_seg; eauto|]. intros _ x' X. apply lifted_seg in X as (x & -> & X).
  destruct (H F x X) as [L|[E T]]; [left; exact (K1 x L)|]. specialize (K2 x E).
  apply Z.lt_eq_cases in K2 as [L|E']; [left; exact L|]. right. split; [exact E'|]. exact (rt_wins _ _ D T).
Qed.
End Retune.

(** ** Counting *)

(* tokens and words *)
Lemma tokens_count P ts ws : tokens_of_words ts ws -> token_count P ts = length (filter (fun w : word => P (we_id (snd w))) ws).
Proof.
  unfold tokens_of_words, token_count. revert ws. induction ts as [|t ts IH]; intros [|[k e] ws] H; cbn [map] in H; try discriminate H; [reflexivity|].
  injection H as _ H1 H2. cbn [filter snd]. rewrite H1. destruct (P (we_id e)); cbn [length]; rewrite (IH ws H2); reflexivity.
Qed.
Lemma tokens_excess f ts ws : tokens_of_words ts ws -> excess f ts = list_sum (map (fun w : word => f (fst w)) ws).
Proof.
  unfold tokens_of_words, excess. revert ws. induction ts as [|t ts IH]; intros [|[k e] ws] H; cbn [map] in H; try discriminate H; [reflexivity|].
  injection H as H1 _ H2. cbn [map list_sum fold_right fst]. rewrite H1. change (fold_right Nat.add 0 ?l) with (list_sum l). rewrite (IH ws H2). reflexivity.
Qed.
Lemma tiles_words ts : forall off pos x x' ts', tiles_from off pos x ts -> tiles_from off pos x' ts' ->
  map (fun t => (tk_text t, tk_word t)) ts = map (fun t => (tk_text t, tk_word t)) ts' -> ts = ts'.
Proof.
  induction ts as [|t ts IH]; intros off pos x x' [|t' ts'] T T' H; cbn [map] in H; try discriminate H; [reflexivity|].
  injection H as H1 H2 H3. cbn [tiles_from] in T, T'. destruct T as (_ & A1 & A2 & A3 & A4 & r & _ & T). destruct T' as (_ & B1 & B2 & B3 & B4 & r' & _ & T').
  assert (E : tk_end t = tk_end t') by (rewrite A2, B2, H1; reflexivity). rewrite E in T.
  f_equal; [|exact (IH _ _ _ _ _ T T' H3)]. destruct t, t'. cbn in *. congruence.
Qed.

(* costs in the changed dictionary *)
Definition counted (P : word_id -> bool) (ws : list word) : nat := length (filter (fun w : word => P (we_id (snd w))) ws).
Lemma less_words_cost P d A A' m : retuned (words_less P d) (a_conn A) A A' -> forall ws f,
  cost_from A' m f (map (pricedw (words_less P d)) ws) = (cost_from A m f ws - d * Z.of_nat (counted P ws))%Z.
Proof.
  intros R. induction ws as [|[k e] ws IH]; intros f; unfold counted in *; cbn [map filter cost_from pricedw fst snd priced we_left we_right we_cost length]; rewrite (rt_conn _ _ _ _ R); [lia|].
  rewrite IH. unfold words_less. destruct (P (we_id e)); cbn [length]; lia.
Qed.
Lemma less_joins_cost Q d A A' m : retuned we_cost (joins_less Q d A) A A' -> forall ws f,
  cost_from A' m f (map (pricedw we_cost) ws) = (cost_from A m f ws - d * Z.of_nat (joins_from Q f ws))%Z.
Proof.
  intros R. induction ws as [|[k e] ws IH]; intros f; cbn [map cost_from joins_from pricedw fst snd priced we_left we_right we_cost]; rewrite (rt_conn _ _ _ _ R); unfold joins_less.
  - destruct (Q f 0%N); lia.
  - rewrite IH. unfold joins_less in *. destruct (Q f (we_left e)); lia.
Qed.
Lemma pricedw_same ws : map (pricedw we_cost) ws = ws.
Proof. rewrite <- (map_id ws) at 2. apply map_ext. intros [k []]. reflexivity. Qed.
Lemma retuned_same A : retuned we_cost (a_conn A) A A.
Proof.
  assert (H : forall l, l = map (priced we_cost) l) by (intros l; rewrite <- (map_id l) at 1; apply map_ext; intros []; reflexivity).
  split; auto.
Qed.
Lemma more_penalty_one p x y k : surface_penalty (Decompose (more_penalty p x y)) k =
  (surface_penalty (Decompose p) k + x * Z.of_nat (kanji_excess p k) + y * Z.of_nat (other_excess p k))%Z.
Proof.
  unfold surface_penalty, more_penalty, kanji_excess, other_excess. cbn [kanji_threshold kanji_penalty other_threshold other_penalty].
  generalize (blen k / 3). intros n. rewrite <- !(N_nat_Z (kanji_threshold p)), <- !(N_nat_Z (other_threshold p)).
  generalize (N.to_nat (kanji_threshold p)) (N.to_nat (other_threshold p)). intros kt ot.
  destruct (Z.of_nat n <=? Z.of_nat kt)%Z eqn:E1.
  - replace (n - kt) with 0 by lia. replace (Nat.leb n kt) with true by lia. destruct (forallb kanji k); lia.
  - replace (Nat.leb n kt) with false by lia. destruct (forallb kanji k); [nia|]. destruct (Z.of_nat ot <? Z.of_nat n)%Z eqn:E2; [nia|]. replace (n - ot) with 0 by lia. lia.
Qed.
Definition excess_of (f : str -> nat) (ws : list word) : nat := list_sum (map (fun w : word => f (fst w)) ws).
Lemma more_penalty_cost A p x y ws : forall f, cost_from A (Decompose (more_penalty p x y)) f ws =
  (cost_from A (Decompose p) f ws + x * Z.of_nat (excess_of (kanji_excess p) ws) + y * Z.of_nat (excess_of (other_excess p) ws))%Z.
Proof.
  induction ws as [|[k e] ws IH]; intros f; unfold excess_of in *; cbn [cost_from map list_sum fold_right fst]; change (fold_right Nat.add 0 ?l) with (list_sum l); [lia|].
  rewrite IH, more_penalty_one. lia.
Qed.

(** ** Texts *)

Lemma Forall2_total {X Y} (R R' : X -> Y -> Prop) (G : Y -> Y -> Prop) l : forall a b, Forall2 R l a -> Forall2 R' l b ->
  (forall x y z, In x l -> R x y -> R' x z -> G y z) -> Forall2 G a b.
Proof.
  induction l as [|x l IH]; intros a b H1 H2 K; inversion H1; inversion H2; subst; constructor; [apply (K x); [left; reflexivity|assumption|assumption]|].
  apply IH; try assumption. intros ? ? ? I. apply K. right. exact I.
Qed.
Lemma sum_concat (f : list word -> nat) (a b : list (list word)) : f [] = 0 -> (forall x y, f (x ++ y) = f x + f y) ->
  Forall2 (fun x y => f x <= f y) a b -> f (concat a) <= f (concat b).
Proof. intros Z0 AP. induction 1 as [|x y a b L H IH]; cbn [concat]; [lia|]. rewrite !AP. lia. Qed.
Lemma counted_app P x y : counted P (x ++ y) = counted P x + counted P y.
Proof. unfold counted. rewrite filter_app, app_length. reflexivity. Qed.
Lemma excess_app f x y : excess_of f (x ++ y) = excess_of f x + excess_of f y.
Proof. unfold excess_of. rewrite map_app, list_sum_app. reflexivity. Qed.

Section Texts.
Variables (t t' : tokenizer) (A A' : adict) (text : str) (ss : list str).
Hypothesis R : represents t A.
Hypothesis R' : represents t' A'.
Hypothesis V : valid_str text.
Hypothesis S : sentences text ss.
Hypothesis F : Forall (fun s => fits_i32 (t_mode t) s) ss.

Theorem cheaper_words P d : t_mode t' = t_mode t -> (0 < d)%Z -> retuned (words_less P d) (a_conn A) A A' ->
  exists ts ts', tokenize t text = Some (Ok ts) /\ tokenize t' text = Some (Ok ts') /\ token_count P ts <= token_count P ts'.
Proof.
  intros M D RT. destruct (tokenize_exact t A R text ss V S) as (ts & wss & T & W & H & _). destruct (tokenize_exact t' A' R' text ss V S) as (ts' & wss' & T' & W' & H' & _).
  exists ts, ts'. split; [exact T|]. split; [exact T'|]. rewrite (tokens_count P _ _ W), (tokens_count P _ _ W'). apply (sum_concat (counted P)); [reflexivity|apply counted_app|].
  apply (Forall2_total _ _ _ ss _ _ H H'). intros s ws ws' I E1 E2. rewrite Forall_forall in F. rewrite M in E2.
  destruct (rt_answers _ _ A A' RT _ _ s ws ws' eq_refl (F s I) (F s I) E1 E2) as [[-> ->]|(X & Act & x & _ & _ & _ & -> & L1 & L2)]; [reflexivity|].
  unfold seg_cost in *. rewrite !(less_words_cost P d A A' _ RT) in L2.
  assert (C : counted P (map (pricedw (words_less P d)) x) = counted P x).
  { unfold counted. clear. induction x as [|[k e] x IH]; [reflexivity|]. cbn [map filter pricedw fst snd priced we_id]. destruct (P (we_id e)); cbn [length]; rewrite IH; reflexivity. }
  rewrite C. nia.
Qed.

Theorem cheaper_joins Q d : t_mode t' = t_mode t -> (0 < d)%Z -> retuned we_cost (joins_less Q d A) A A' ->
  exists ts ts' wss wss', tokenize t text = Some (Ok ts) /\ tokens_of_words ts (concat wss) /\ Forall2 (exact_answer A (t_mode t)) ss wss /\
    tokenize t' text = Some (Ok ts') /\ tokens_of_words ts' (concat wss') /\ Forall2 (exact_answer A' (t_mode t)) ss wss' /\
    Forall2 (fun ws ws' => join_count Q ws <= join_count Q ws') wss wss'.
Proof.
  intros M D RT. destruct (tokenize_exact t A R text ss V S) as (ts & wss & T & W & H & _). destruct (tokenize_exact t' A' R' text ss V S) as (ts' & wss' & T' & W' & H' & _).
  rewrite M in H'. exists ts, ts', wss, wss'. do 6 (split; [assumption|]).
  apply (Forall2_total _ _ _ ss _ _ H H'). intros s ws ws' I E1 E2. rewrite Forall_forall in F.
  destruct (rt_answers _ _ A A' RT _ _ s ws ws' eq_refl (F s I) (F s I) E1 E2) as [[-> ->]|(X & Act & x & _ & _ & _ & -> & L1 & L2)]; [reflexivity|].
  unfold seg_cost in *. rewrite !(less_joins_cost Q d A A' _ RT) in L2. rewrite pricedw_same. unfold join_count. nia.
Qed.

Theorem same_tokens c conn : retuned c conn A A' -> is_search (t_mode t') = is_search (t_mode t) -> Forall (fun s => fits_i32 (t_mode t') s) ss -> distinct_entries A' ->
  (forall ts wss s ws x, tokenize t text = Some (Ok ts) -> tokens_of_words ts (concat wss) -> Forall2 (exact_answer A (t_mode t)) ss wss -> In s ss -> In ws wss ->
    ((seg_cost A (t_mode t) ws < seg_cost A (t_mode t) x)%Z -> (seg_cost A' (t_mode t') (map (pricedw c) ws) < seg_cost A' (t_mode t') (map (pricedw c) x))%Z) /\
    (seg_cost A (t_mode t) ws = seg_cost A (t_mode t) x -> (seg_cost A' (t_mode t') (map (pricedw c) ws) <= seg_cost A' (t_mode t') (map (pricedw c) x))%Z)) ->
  tokenize t' text = tokenize t text.
Proof.
  intros RT M F' D K. destruct (tokenize_exact t A R text ss V S) as (ts & wss & T & W & H & TI). destruct (tokenize_exact t' A' R' text ss V S) as (ts' & wss' & T' & W' & H' & TI').
  assert (H2 : Forall2 (exact_answer A' (t_mode t')) ss (map (map (pricedw c)) wss)).
  { assert (G : forall s ws, In s ss -> In ws wss -> exact_answer A (t_mode t) s ws -> exact_answer A' (t_mode t') s (map (pricedw c) ws)).
    { intros s ws I1 I2 E. rewrite Forall_forall in F. apply (rt_stays c conn A A' RT (t_mode t) (t_mode t') s ws M D (F s I1) E); intros x; apply (K ts wss s ws x T W H I1 I2). }
    clear - H G. induction H as [|s ws ss wss E H IH]; cbn [map]; constructor; [apply G; [left; reflexivity|left; reflexivity|exact E]|].
    apply IH. intros s0 ws0 I1 I2. apply G; right; assumption. }
  destruct (tokenize_complete t' A' R' text ss _ V S D F' H2) as (ts2 & T2 & W2). rewrite T2 in T'. injection T' as ->.
  rewrite T2, T. do 2 f_equal. unfold tiles in TI, TI'. apply (tiles_words _ _ _ _ _ _ TI' TI). unfold tokens_of_words in W, W2. rewrite W, W2. rewrite <- concat_map, map_map.
  apply map_ext. intros [k e]. reflexivity.
Qed.

Lemma raised_cost c m : retuned c (a_conn A) A A' -> (forall e, (we_cost e <= c e)%Z) -> forall ws f,
  (cost_from A m f ws <= cost_from A' m f (map (pricedw c) ws))%Z.
Proof.
  intros RT C. induction ws as [|[k e] ws IH]; intros f; cbn [map cost_from pricedw fst snd priced we_left we_right we_cost]; rewrite (rt_conn _ _ _ _ RT); [lia|].
  specialize (IH (we_right e)). specialize (C e). lia.
Qed.
Lemma kept_cost c m : retuned c (a_conn A) A A' -> forall ws f, (forall w, In w ws -> c (snd w) = we_cost (snd w)) ->
  cost_from A' m f (map (pricedw c) ws) = cost_from A m f ws.
Proof.
  intros RT. induction ws as [|[k e] ws IH]; intros f C; cbn [map cost_from pricedw fst snd priced we_left we_right we_cost]; rewrite (rt_conn _ _ _ _ RT); [reflexivity|].
  rewrite (IH (we_right e)) by (intros w I; apply C; right; exact I). pose proof (C (k, e) (or_introl eq_refl)) as E. cbn [snd] in E. rewrite E. reflexivity.
Qed.
Theorem dearer_unused c ts : t_mode t' = t_mode t -> retuned c (a_conn A) A A' -> distinct_entries A' ->
  tokenize t text = Some (Ok ts) -> (forall e, (we_cost e <= c e)%Z) -> (forall tok e, In tok ts -> we_id e = tk_word tok -> c e = we_cost e) ->
  tokenize t' text = Some (Ok ts).
Proof.
  intros M RT D T C U. rewrite <- T. apply (same_tokens c (a_conn A)); [exact RT|rewrite M; reflexivity|rewrite M; exact F|exact D|].
  intros ts0 wss s ws x T0 W H I1 I2. rewrite T in T0. injection T0 as <-. rewrite M. unfold seg_cost.
  assert (K : forall w, In w ws -> c (snd w) = we_cost (snd w)).
  { intros [k e] I. assert (J : In (k, we_id e) (map (fun '(k, e) => (k, we_id e)) (concat wss))) by (apply in_map_iff; exists (k, e); split; [reflexivity|]; apply in_concat; eauto).
    rewrite <- W in J. apply in_map_iff in J as (tok & E & J). injection E as _ E. exact (U tok e J (eq_sym E)). }
  rewrite (kept_cost c _ RT ws 0%N K). pose proof (raised_cost c (t_mode t) RT C x 0%N). split; lia.
Qed.

Lemma scaled_penalty q m k : surface_penalty (scaled_mode q m) k = (q * surface_penalty m k)%Z.
Proof.
  destruct m as [|p]; cbn [scaled_mode surface_penalty kanji_threshold kanji_penalty other_threshold other_penalty]; [lia|].
  destruct (_ <=? _)%Z; [lia|]. destruct (forallb kanji k); [lia|]. destruct (_ <? _)%Z; lia.
Qed.
Lemma scaled_cost q m : retuned (fun e => q * we_cost e)%Z (fun f b => q * a_conn A f b)%Z A A' -> forall ws f,
  cost_from A' (scaled_mode q m) f (map (pricedw (fun e => q * we_cost e)%Z) ws) = (q * cost_from A m f ws)%Z.
Proof.
  intros RT. induction ws as [|[k e] ws IH]; intros f; cbn [map cost_from pricedw fst snd priced we_left we_right we_cost]; rewrite (rt_conn _ _ _ _ RT); [reflexivity|].
  rewrite IH, scaled_penalty. lia.
Qed.
Theorem scaled_tokens q : (0 < q)%Z -> t_mode t' = scaled_mode q (t_mode t) -> Forall (fun s => fits_i32 (t_mode t') s) ss ->
  retuned (fun e => q * we_cost e)%Z (fun f b => q * a_conn A f b)%Z A A' -> distinct_entries A' ->
  tokenize t' text = tokenize t text.
Proof.
  intros Q M F' RT D. apply (same_tokens _ _ RT); [rewrite M; destruct (t_mode t); reflexivity|exact F'|exact D|].
  intros ts wss s ws x _ _ _ _ _. rewrite M. unfold seg_cost. rewrite !(scaled_cost q _ RT). split; nia.
Qed.
End Texts.

Theorem raised_penalty d u A p x y text ss : represents (Tokenizer d u (Decompose p)) A -> valid_str text -> sentences text ss ->
  Forall (fun s => fits_i32 (Decompose p) s /\ fits_i32 (Decompose (more_penalty p x y)) s) ss ->
  exists ts ts', tokenize (Tokenizer d u (Decompose p)) text = Some (Ok ts) /\ tokenize (Tokenizer d u (Decompose (more_penalty p x y))) text = Some (Ok ts') /\
    (x * Z.of_nat (excess (kanji_excess p) ts') + y * Z.of_nat (excess (other_excess p) ts') <=
     x * Z.of_nat (excess (kanji_excess p) ts) + y * Z.of_nat (excess (other_excess p) ts))%Z.
Proof.
  intros R V S F. assert (R' : represents (Tokenizer d u (Decompose (more_penalty p x y))) A) by (destruct R; split; assumption).
  destruct (tokenize_exact _ A R text ss V S) as (ts & wss & T & W & H & _). destruct (tokenize_exact _ A R' text ss V S) as (ts' & wss' & T' & W' & H' & _).
  exists ts, ts'. split; [exact T|]. split; [exact T'|]. rewrite !(tokens_excess _ _ _ W), !(tokens_excess _ _ _ W').
  fold (excess_of (kanji_excess p) (concat wss)) (excess_of (kanji_excess p) (concat wss')) (excess_of (other_excess p) (concat wss)) (excess_of (other_excess p) (concat wss')).
  assert (G : Forall2 (fun ws ws' => (x * Z.of_nat (excess_of (kanji_excess p) ws') + y * Z.of_nat (excess_of (other_excess p) ws') <=
     x * Z.of_nat (excess_of (kanji_excess p) ws) + y * Z.of_nat (excess_of (other_excess p) ws))%Z) wss wss').
  { apply (Forall2_total _ _ _ ss _ _ H H'). intros s ws ws' I E1 E2. rewrite Forall_forall in F. destruct (F s I) as [F1 F2].
    destruct (rt_answers _ _ A A (retuned_same A) (Decompose p) (Decompose (more_penalty p x y)) s ws ws' eq_refl F1 F2 E1 E2) as [[-> ->]|(Z0 & Act & z & _ & _ & _ & -> & L1 & L2)]; [reflexivity|].
    rewrite !pricedw_same in *. unfold seg_cost in *. rewrite !more_penalty_cost in L2. cbn [t_mode] in L1. lia. }
  clear - G. induction G as [|ws ws' wss wss' L G IH]; cbn [concat]; [reflexivity|]. rewrite !excess_app. lia.
Qed.
