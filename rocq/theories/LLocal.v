(** The tokens on the two sides of a place where a sentence falls apart. *)
From Coq Require Import List NArith ZArith Bool Lia ZifyBool ZifyNat Wf_nat.
From Verif Require Import MBase MUtf8 MCodec MDict MCharDef MUnk MLattice MTokenizer STok SLocal LBase LUtf8 LSeg LCon LExact LTok LMore LRetune.
Import ListNotations.

(** ** What stands at a position inside u *)
Section Sides.
Variable A : adict.

Lemma span_exists ord cat c s : exists w, unk_span A ord cat (c :: s) w.
Proof.
  destruct (a_group A cat) eqn:G.
  - assert (R : exists run rest, s = run ++ rest /\ Forall (has_cat A ord cat) run /\ (forall d rest', rest = d :: rest' -> ~ has_cat A ord cat d)).
    { induction s as [|d s (run & rest & E & F & L)]; [exists [], []; split; [reflexivity|split; [constructor|discriminate]]|].
      assert (D : {has_cat A ord cat d} + {~ has_cat A ord cat d}) by (unfold has_cat; repeat decide equality).
      destruct D as [D|D].
      - exists (d :: run), rest. split; [rewrite E; reflexivity|]. split; [constructor; assumption|exact L].
      - exists [], (d :: s). split; [reflexivity|]. split; [constructor|]. intros d' r' X. injection X as <- _. exact D. }
    destruct R as (run & rest & E & F & L). exists (c :: run), c, run, rest. rewrite G, E. auto.
  - exists [c], c, [], s. rewrite G. auto.
Qed.

Definition spanned (s : str) (ord cat : nat) (w : str) : Prop :=
  exists c r, s = c :: r /\ has_cat A ord cat c /\ (a_invoke A cat = true \/ no_dict_word A s) /\ unk_span A ord cat s w.
Lemma span_at_spanned s ord w : span_at A s ord w <-> exists cat, spanned s ord cat w.
Proof. split; [intros (c & r & cat & H)|intros (cat & c & r & H)]; eauto 8. exists cat, c, r. exact H. exists c, r, cat. exact H. Qed.
Lemma unknown_by_spanned s ord cat w e : unknown_by A s ord cat w e <-> spanned s ord cat w /\ In e (a_unk A cat).
Proof. split; [intros (c & r & H1 & H2 & H3 & H4 & H5)|intros ((c & r & H1 & H2 & H3 & H4) & H5)]; [split; [exists c, r; auto|exact H5]|exists c, r; auto 6]. Qed.

Variables u v : str.
Hypothesis D : divides A u v.

Lemma cut_dict pre r k e : u = pre ++ r -> r <> [] -> dict_word A (r ++ v) k e <-> dict_word A r k e.
Proof.
  intros E N. split; intros H.
  - destruct (D pre r k E N (or_introl (ex_intro _ e H))) as (rest & R). destruct H as (H1 & _ & H2). split; [exact H1|]. split; [exists rest; exact R|exact H2].
  - destruct H as (H1 & (rest & R) & H2). split; [exact H1|]. split; [exists (rest ++ v); rewrite R, <- app_assoc; reflexivity|exact H2].
Qed.
Lemma cut_none pre r : u = pre ++ r -> r <> [] -> no_dict_word A (r ++ v) <-> no_dict_word A r.
Proof. intros E N. split; intros H k e X; apply (H k e); apply (cut_dict pre r k e E N); exact X. Qed.
Lemma span_unique s ord cat w w' : unk_span A ord cat s w -> unk_span A ord cat s w' -> w = w'.
Proof.
  intros (c & run & rest & -> & -> & H) (c' & run' & rest' & E & -> & H'). injection E as <- E. f_equal.
  destruct (a_group A cat); [|congruence]. destruct H as [F L], H' as [F' L'].
  apply app_eq_app in E as (l & [[-> E]|[-> E]]); destruct l as [|d l]; try (rewrite app_nil_r; reflexivity).
  - exfalso. cbn [app] in E. apply (L' d _ E). apply Forall_app in F as [_ F]. inversion F; assumption.
  - exfalso. cbn [app] in E. apply (L d _ E). apply Forall_app in F' as [_ F']. inversion F'; assumption.
Qed.
Lemma cut_spanned pre r ord cat w : u = pre ++ r -> r <> [] -> spanned (r ++ v) ord cat w <-> spanned r ord cat w.
Proof.
  intros E N. destruct r as [|c r]; [congruence|].
  assert (F : forall w, spanned ((c :: r) ++ v) ord cat w -> spanned (c :: r) ord cat w).
  { intros x H. assert (P : exists rest, c :: r = x ++ rest) by (apply (D pre); [exact E|exact N|right; exists ord; apply span_at_spanned; exists cat; exact H]).
    destruct P as (rest & P). destruct H as (c0 & r0 & E0 & H1 & H2 & H3). cbn [app] in E0. injection E0 as <- <-. exists c, r. split; [reflexivity|]. split; [exact H1|].
    split; [destruct H2 as [H2|H2]; [auto|right; apply (cut_none pre (c :: r) E N); exact H2]|].
    destruct H3 as (c1 & run & rest1 & E1 & -> & H3). cbn [app] in P, E1. injection P as <- P. injection E1 as E1.
    exists c, run, rest. rewrite P. split; [reflexivity|]. split; [reflexivity|]. destruct (a_group A cat); [|exact H3]. destruct H3 as [F L]. split; [exact F|].
    intros d rest' R. apply (L d (rest' ++ v)). rewrite P, <- app_assoc in E1. apply app_inv_head in E1. rewrite <- E1, R. reflexivity. }
  split; [apply F|]. intros H. destruct (span_exists ord cat c (r ++ v)) as (w2 & S2).
  assert (S : spanned ((c :: r) ++ v) ord cat w2).
  { destruct H as (c0 & r0 & E0 & H1 & H2 & _). injection E0 as <- <-. exists c, (r ++ v). split; [reflexivity|]. split; [exact H1|]. split; [|exact S2].
    destruct H2 as [H2|H2]; [auto|right; apply (cut_none pre (c :: r) E N); exact H2]. }
  replace w with w2; [exact S|]. apply F in S. destruct S as (? & ? & _ & _ & _ & S), H as (? & ? & _ & _ & _ & H). eapply span_unique; eassumption.
Qed.
Lemma cut_span_at pre r ord w : u = pre ++ r -> r <> [] -> span_at A (r ++ v) ord w <-> span_at A r ord w.
Proof. intros E N. rewrite !span_at_spanned. split; intros (cat & H); exists cat; apply (cut_spanned pre r ord cat w E N); exact H. Qed.
Lemma cut_last_span pre r w : u = pre ++ r -> r <> [] -> last_span A (r ++ v) w <-> last_span A r w.
Proof.
  intros E N. split; intros (ord & H & L); exists ord; (split; [apply (cut_span_at pre r ord w E N); exact H|]); intros o w' X; apply (L o w'); apply (cut_span_at pre r o w' E N); exact X.
Qed.
Lemma cut_unknown_by pre r ord cat w e : u = pre ++ r -> r <> [] -> unknown_by A (r ++ v) ord cat w e <-> unknown_by A r ord cat w e.
Proof. intros E N. rewrite !unknown_by_spanned, (cut_spanned pre r ord cat w E N). reflexivity. Qed.
Lemma cut_unknown pre r w e : u = pre ++ r -> r <> [] -> unknown_word A (r ++ v) w e <-> unknown_word A r w e.
Proof. intros E N. rewrite !unknown_by_some. split; intros (ord & cat & H); exists ord, cat; apply (cut_unknown_by pre r ord cat w e E N); exact H. Qed.
Lemma cut_candidate pre r w e : u = pre ++ r -> r <> [] -> candidate A (r ++ v) w e <-> candidate A r w e.
Proof. intros E N. unfold candidate. rewrite (cut_dict pre r w e E N), (cut_unknown pre r w e E N). reflexivity. Qed.
Lemma cut_ranked pre r k e e' : u = pre ++ r -> r <> [] -> ranked A (r ++ v) k e e' -> ranked A r k e e'.
Proof.
  intros E N [B|I U|o c o' c' U1 U2 L|o c U1 U2 B].
  - apply ranked_dict. exact B.
  - apply ranked_known; [exact I|]. apply (cut_unknown pre r k e' E N). exact U.
  - apply (ranked_category _ _ _ _ _ o c o' c'); [apply (cut_unknown_by pre r o c k e E N); exact U1|apply (cut_unknown_by pre r o' c' k e' E N); exact U2|exact L].
  - apply (ranked_unknown _ _ _ _ _ o c); [apply (cut_unknown_by pre r o c k e E N); exact U1|apply (cut_unknown_by pre r o c k e' E N); exact U2|exact B].
Qed.
Lemma unknown_span s w e : unknown_word A s w e -> exists ord, span_at A s ord w.
Proof. intros (c & r & ord & k & E & H & I & S & _). exists ord, c, r, k. auto. Qed.
Lemma cut_fits pre r w e : u = pre ++ r -> r <> [] -> candidate A (r ++ v) w e -> exists rest, r = w ++ rest.
Proof. intros E N [H|H]; apply (D pre r w E N); [left; eauto|right; eapply unknown_span; exact H]. Qed.
End Sides.

Lemma prefix_shorter (x y r r' : str) : x ++ r = y ++ r' -> blen x <= blen y -> exists z, y = x ++ z /\ r = z ++ r'.
Proof.
  intros E L. apply app_eq_app in E as (l & [[-> ->]|[-> ->]]); [|eauto].
  rewrite blen_app in L. assert (l = []) as -> by (destruct l as [|d l]; [reflexivity|]; pose proof (blen_pos (d :: l) ltac:(discriminate)); lia).
  exists []. rewrite !app_nil_r. auto.
Qed.
Lemma prefix_less (x y r r' : str) : x ++ r = y ++ r' -> blen x < blen y -> exists z, y = x ++ z /\ r = z ++ r' /\ z <> [].
Proof.
  intros E L. destruct (prefix_shorter x y r r' E ltac:(lia)) as (z & -> & ->). exists z. split; [reflexivity|]. split; [reflexivity|]. intros ->. rewrite app_nil_r in L. lia.
Qed.

(** ** The search in u ++ v inside u is that in u *)
Section Before.
Variables (A : adict) (m : mode) (u v : str) (W Wu : str -> str -> str -> word_entry -> Prop) (Act Actu : str -> Prop).
Hypothesis D : divides A u v.
Hypothesis SR : searched A m (u ++ v) W Act.
Hypothesis SU : searched A m u Wu Actu.

Lemma before_same n : forall pre r, blen pre <= n -> u = pre ++ r ->
  (reach W (u ++ v) pre <-> reach Wu u pre) /\ (r <> [] -> (Act pre <-> Actu pre) /\ forall k e, W pre (r ++ v) k e <-> Wu pre r k e).
Proof.
  induction n as [n IH] using lt_wf_ind. intros pre r L E.
  assert (RR : reach W (u ++ v) pre <-> reach Wu u pre).
  { split; intros RE.
    - destruct RE as [|pre k rest e RE T HW]; [constructor|]. pose proof (searched_nonempty _ _ _ _ _ _ _ _ _ SR HW) as NE. pose proof (blen_pos k NE). rewrite blen_app in L.
      rewrite <- app_assoc in E. assert (R : rest = r ++ v) by (rewrite E, <- !app_assoc in T; do 2 apply app_inv_head in T; symmetry; exact T). subst rest.
      assert (N : k ++ r <> []) by (destruct k; [congruence|discriminate]). destruct (IH (blen pre) ltac:(lia) pre (k ++ r) (le_n _) E) as (I1 & I2). destruct (I2 N) as (_ & I3).
      eapply reach_step; [apply I1; exact RE|exact E|]. apply I3. rewrite <- app_assoc. exact HW.
    - destruct RE as [|pre k rest e RE T HW]; [constructor|]. pose proof (searched_nonempty _ _ _ _ _ _ _ _ _ SU HW) as NE. pose proof (blen_pos k NE). rewrite blen_app in L.
      rewrite <- app_assoc in E. assert (R : rest = r) by (rewrite E in T; do 2 apply app_inv_head in T; symmetry; exact T). subst rest.
      assert (N : k ++ r <> []) by (destruct k; [congruence|discriminate]). destruct (IH (blen pre) ltac:(lia) pre (k ++ r) (le_n _) E) as (I1 & I2). destruct (I2 N) as (_ & I3).
      apply (reach_step _ _ _ _ (r ++ v) e); [apply I1; exact RE|rewrite E, <- !app_assoc; reflexivity|]. rewrite app_assoc. apply I3. exact HW. }
  split; [exact RR|]. intros N.
  assert (LE : forall q, last_end A (u ++ v) Act pre q <-> last_end A u Actu pre q).
  { assert (LU : blen pre <= blen u) by (rewrite E, blen_app; lia). intros q. split.
    - intros (pre' & r' & w & T & AC & LT & LS & -> & NO). symmetry in T. destruct (prefix_less pre' u r' v T ltac:(lia)) as (z & E2 & -> & NZ).
      exists pre', z, w. split; [exact E2|]. split; [apply (IH (blen pre') ltac:(lia) pre' z (le_n _) E2); assumption|]. split; [exact LT|].
      split; [apply (cut_last_span A u v D pre' z w E2 NZ); exact LS|]. split; [reflexivity|].
      intros x r2 ord w' T2 A2 L2 SP. destruct (prefix_less x u r2 [] ltac:(rewrite app_nil_r; symmetry; exact T2) ltac:(lia)) as (z2 & E3 & -> & NZ2). rewrite app_nil_r in *.
      apply (NO x (z2 ++ v) ord w'); [rewrite E3, <- app_assoc; reflexivity| |exact L2|apply (cut_span_at A u v D x z2 ord w' E3 NZ2); exact SP].
      apply (IH (blen x) ltac:(lia) x z2 (le_n _) E3); assumption.
    - intros (pre' & r' & w & T & AC & LT & LS & -> & NO). destruct (prefix_less pre' u r' [] ltac:(rewrite app_nil_r; symmetry; exact T) ltac:(lia)) as (z & E2 & -> & NZ). rewrite app_nil_r in *.
      exists pre', (z ++ v), w. split; [rewrite E2, <- app_assoc; reflexivity|]. split; [apply (IH (blen pre') ltac:(lia) pre' z (le_n _) E2); assumption|]. split; [exact LT|].
      split; [apply (cut_last_span A u v D pre' z w E2 NZ); exact LS|]. split; [reflexivity|].
      intros x r2 ord w' T2 A2 L2 SP. symmetry in T2. destruct (prefix_less x u r2 v T2 ltac:(lia)) as (z2 & E3 & -> & NZ2).
      apply (NO x z2 ord w'); [exact E3| |exact L2|apply (cut_span_at A u v D x z2 ord w' E3 NZ2); exact SP].
      apply (IH (blen x) ltac:(lia) x z2 (le_n _) E3); assumption. }
  assert (AA : Act pre <-> Actu pre).
  { rewrite (srch_active _ _ _ _ _ SR), (srch_active _ _ _ _ _ SU), RR. split; intros (_ & X2 & X3).
    - split; [exists r; auto|]. split; [exact X2|]. destruct X3 as [X3|X3]; [auto|right]. intros q X. apply X3, LE, X.
    - split; [exists (r ++ v); split; [rewrite E, <- app_assoc; reflexivity|destruct r; [congruence|discriminate]]|]. split; [exact X2|].
      destruct X3 as [X3|X3]; [auto|right]. intros q X. apply X3, LE, X. }
  split; [exact AA|]. intros k e. rewrite (srch_words _ _ _ _ _ SR), (srch_words _ _ _ _ _ SU), RR, AA, (cut_dict A u v D pre r k e E N), (cut_unknown A u v D pre r k e E N).
  split; intros (_ & H); (split; [|exact H]); [exact E|rewrite E, <- app_assoc; reflexivity].
Qed.

(* a segmentation of u ++ v is one of u and one of v *)
Lemma before_split ws : forall pre r, u = pre ++ r -> seg W pre (r ++ v) ws ->
  exists a b, ws = a ++ b /\ seg Wu pre r a /\ seg W u v b.
Proof.
  induction ws as [|[k e] ws IH]; intros pre r E G.
  - inversion G as [X Y Z|]. symmetry in Z. apply app_eq_nil in Z as [-> ->]. rewrite app_nil_r in E. subst pre. exists [], []. split; [reflexivity|]. split; [constructor|]. constructor.
  - destruct r as [|c r].
    + rewrite app_nil_r in E. subst pre. exists [], ((k, e) :: ws). split; [reflexivity|]. split; [constructor|exact G].
    + assert (N : c :: r <> []) by discriminate. inversion G as [|pre' k' e' rest ws' NK P G' X1 X2 X3]. subst pre' k' e' ws'.
      pose proof P as P0. rewrite X2 in P0. apply (before_same (blen pre) pre (c :: r) (le_n _) E) in P0; [|exact N].
      destruct (cut_fits A u v D pre (c :: r) k e E N) as (r2 & R2). { change ((c :: r) ++ v) with (c :: r ++ v). rewrite <- X2. exact (searched_candidate _ _ _ _ _ _ _ _ _ SR P). }
      change (c :: r ++ v) with ((c :: r) ++ v) in X2. rewrite R2, <- app_assoc in X2. apply app_inv_head in X2. subst rest.
      destruct (IH (pre ++ k) r2) as (a & b & -> & Ga & Gb); [rewrite E, R2, <- app_assoc; reflexivity|exact G'|].
      exists ((k, e) :: a), b. split; [reflexivity|]. split; [|exact Gb]. rewrite R2 in *. constructor; assumption.
Qed.
Lemma before_join a : forall pre r b, u = pre ++ r -> seg Wu pre r a -> seg W u v b -> seg W pre (r ++ v) (a ++ b).
Proof.
  induction a as [|[k e] a IH]; intros pre r b E Ga Gb.
  - inversion Ga as [X Y Z|]. subst. rewrite app_nil_r in *. cbn [app]. exact Gb.
  - inversion Ga as [|pre' k' e' rest ws' NK P G' X1 X2 X3]. subst pre' k' e' ws' r. cbn [app].
    assert (N : k ++ rest <> []) by (destruct k; [congruence|discriminate]). rewrite <- app_assoc. constructor; [exact NK| |].
    + rewrite app_assoc. apply (before_same (blen pre) pre (k ++ rest) (le_n _) E); assumption.
    + apply IH; [rewrite E, <- app_assoc; reflexivity|exact G'|exact Gb].
Qed.
End Before.

(** ** The search in v does not depend on what is before *)
Lemma after_same A m u u' v W Act W' Act' n : divides A u v -> divides A u' v -> searched A m (u ++ v) W Act -> searched A m (u' ++ v) W' Act' ->
  reach W (u ++ v) u -> reach W' (u' ++ v) u' -> forall q r, blen q <= n -> v = q ++ r ->
  (reach W (u ++ v) (u ++ q) -> reach W' (u' ++ v) (u' ++ q)) /\ (Act (u ++ q) -> Act' (u' ++ q)) /\ forall k e, W (u ++ q) r k e -> W' (u' ++ q) r k e.
Proof.
  revert u u' W Act W' Act'. induction n as [n IH] using lt_wf_ind. intros u u' W Act W' Act' D D' S S' RU RU' q r L E.
  assert (RR : reach W (u ++ v) (u ++ q) -> reach W' (u' ++ v) (u' ++ q)).
  { intros RE. destruct q as [|d q0] eqn:Q; [rewrite app_nil_r; exact RU'|]. rewrite <- Q in *. assert (NQ : q <> []) by (rewrite Q; discriminate). clear Q d q0.
    inversion RE as [X|pre k rest e RE0 T HW X]; [symmetry in X; apply app_eq_nil in X as [_ X]; congruence|].
    pose proof (searched_nonempty _ _ _ _ _ _ _ _ _ S HW) as NE. pose proof (blen_pos k NE) as LK.
    assert (LX : blen pre + blen k = blen u + blen q) by (rewrite <- !blen_app, X; reflexivity). pose proof (blen_pos q NQ) as LQ.
    destruct (Nat.lt_ge_cases (blen pre) (blen u)) as [LT|GE].
    - exfalso. destruct (prefix_less pre u (k ++ rest) v ltac:(symmetry; exact T) LT) as (z & E2 & R & NZ).
      destruct (cut_fits A u v D pre z k e E2 NZ) as (r2 & R2); [rewrite <- R; exact (searched_candidate _ _ _ _ _ _ _ _ _ S HW)|].
      rewrite E2, R2, !blen_app in LX. lia.
    - destruct (prefix_shorter u pre q k ltac:(symmetry; exact X) GE) as (q0 & -> & Q).
      assert (R : rest = r). { rewrite E, Q, <- !app_assoc in T. repeat apply app_inv_head in T. symmetry. exact T. } subst rest.
      assert (E0 : v = q0 ++ (k ++ r)) by (rewrite E, Q, <- app_assoc; reflexivity).
      rewrite Q, blen_app in L. destruct (IH (blen q0) ltac:(lia) u u' W Act W' Act' D D' S S' RU RU' q0 (k ++ r) (le_n _) E0) as (I1 & _ & I3).
      rewrite Q, app_assoc. apply (reach_step _ _ _ _ r e); [apply I1; exact RE0|rewrite E0, <- !app_assoc; reflexivity|apply I3; exact HW]. }
  assert (AA : Act (u ++ q) -> Act' (u' ++ q)).
  { rewrite (srch_active _ _ _ _ _ S), (srch_active _ _ _ _ _ S'). intros ((r0 & T0 & N0) & X2 & X3). 
    split; [exists r; split; [rewrite E, app_assoc; reflexivity|]|split; [apply RR; exact X2|]].
    { rewrite E, app_assoc in T0. apply app_inv_head in T0. subst r0. exact N0. }
    destruct X3 as [X3|X3]; [auto|right]. intros x (pre' & r' & w & T & AC & LT & LS & -> & NO). rewrite blen_app in *.
    destruct (Nat.lt_ge_cases (blen pre') (blen u')) as [LU|GE].
    - destruct (prefix_less pre' u' r' v ltac:(symmetry; exact T) LU) as (z & E2 & -> & NZ). destruct LS as (ord & SP & _).
      destruct (D' pre' z w E2 NZ (or_intror (ex_intro _ ord SP))) as (r2 & R2). rewrite E2, R2, !blen_app. lia.
    - destruct (prefix_shorter u' pre' v r' T GE) as (q0 & -> & E2). rewrite blen_app in *.
      assert (X : blen u + blen q0 + blen w <= blen u + blen q); [|lia]. apply X3. exists (u ++ q0), r', w.
      split; [rewrite E2, app_assoc; reflexivity|]. split; [apply (IH (blen q0) ltac:(lia) u' u W' Act' W Act D' D S' S RU' RU q0 r' (le_n _) E2); exact AC|].
      rewrite !blen_app. split; [lia|]. split; [exact LS|]. split; [lia|].
      intros y r2 ord w' T2 A2 L2. destruct (prefix_shorter u y v r2 T2 ltac:(lia)) as (q2 & -> & E3). rewrite blen_app in *.
      apply (NO (u' ++ q2) r2 ord w'); [rewrite E3, app_assoc; reflexivity| |rewrite blen_app; lia].
      apply (IH (blen q2) ltac:(lia) u u' W Act W' Act' D D' S S' RU RU' q2 r2 (le_n _) E3); exact A2. }
  split; [exact RR|]. split; [exact AA|]. intros k e. rewrite (srch_words _ _ _ _ _ S), (srch_words _ _ _ _ _ S'). intros (_ & X2 & X3).
  split; [rewrite E, app_assoc; reflexivity|]. split; [apply RR; exact X2|]. destruct X3 as [X3|[X3 X4]]; [auto|right; auto].
Qed.
Lemma after_seg A m u u' v W Act W' Act' : divides A u v -> divides A u' v -> searched A m (u ++ v) W Act -> searched A m (u' ++ v) W' Act' ->
  reach W (u ++ v) u -> reach W' (u' ++ v) u' -> forall b, seg W u v b -> seg W' u' v b.
Proof.
  intros D D' S S' RU RU' b. enough (G : forall b q r, v = q ++ r -> seg W (u ++ q) r b -> seg W' (u' ++ q) r b).
  { intros H. specialize (G b [] v eq_refl). rewrite !app_nil_r in G. exact (G H). }
  clear b. induction b as [|[k e] b IH]; intros q r E G; inversion G as [|pre' k' e' rest ws' NK P G' X1 X2 X3]; subst; constructor; try assumption.
  - apply (after_same A m u u' _ W Act W' Act' (blen q) D D' S S' RU RU' q (k ++ rest) (le_n _) eq_refl). exact P.
  - rewrite <- app_assoc. apply IH; [rewrite <- app_assoc; reflexivity|]. rewrite <- app_assoc in G'. exact G'.
Qed.

(** ** Costs and ties *)
Fixpoint head_cost (A : adict) (m : mode) (f : N) (ws : list word) : Z :=
  match ws with
  | [] => 0%Z
  | (k, e) :: r => (a_conn A f (we_left e) + we_cost e + surface_penalty m k + head_cost A m (we_right e) r)%Z
  end.
Fixpoint last_right (f : N) (ws : list word) : N := match ws with [] => f | (_, e) :: r => last_right (we_right e) r end.
Lemma cost_app A m a : forall f b, cost_from A m f (a ++ b) = (head_cost A m f a + cost_from A m (last_right f a) b)%Z.
Proof. induction a as [|[k e] a IH]; intros f b; cbn [app head_cost last_right cost_from]; [lia|]. rewrite IH. lia. Qed.

Definition surfaces (ws : list word) : str := concat (map fst ws).
Lemma surfaces_app a b : surfaces (a ++ b) = surfaces a ++ surfaces b.
Proof. unfold surfaces. rewrite map_app, concat_app. reflexivity. Qed.
Lemma seg_surfaces P pre s ws : seg P pre s ws -> surfaces ws = s /\ Forall (fun w : word => fst w <> []) ws.
Proof. induction 1 as [|pre k e rest ws N _ _ [E F]]; [split; [reflexivity|constructor]|]. split; [unfold surfaces in *; cbn [map concat fst]; rewrite E; reflexivity|constructor; assumption]. Qed.
Lemma surfaces_nil ws : Forall (fun w : word => fst w <> []) ws -> surfaces ws = [] -> ws = [].
Proof. intros F E. destruct F as [|[k e] ws N F]; [reflexivity|]. unfold surfaces in E. cbn [map concat fst] in *. apply app_eq_nil in E as [E _]. congruence. Qed.

Lemma ties_cut A u v a a' b : divides A u v -> surfaces a = u -> surfaces b = v -> Forall (fun w : word => fst w <> []) a ->
  wins_tie A (a ++ b) (a' ++ b) -> wins_tie A a a'.
Proof.
  intros D Ea Eb F [H|(x & k & e & y & k' & e' & z & E1 & E2 & NE & H)]; [left; apply app_inv_tail in H; exact H|]. right.
  assert (Q : exists z0, z = z0 ++ b).
  { assert (NO : forall l, b = l ++ (k, e) :: z -> False).
    { intros l ->. rewrite app_assoc in E2. change ((k, e) :: z) with ([(k, e)] ++ z) in E2. change ((k', e') :: z) with ([(k', e')] ++ z) in E2. rewrite !app_assoc in E2.
      apply app_inv_tail, app_inj_tail in E2 as [_ E2]. congruence. }
    apply app_eq_app in E1 as (l & [[E1 E3]|[E1 E3]]); [|exfalso; exact (NO _ E3)].
    destruct l as [|w l]; [exfalso; exact (NO [] (eq_sym E3))|]. cbn [app] in E3. injection E3 as <- E3. eauto. }
  destruct Q as (z0 & ->). change ((k, e) :: z0 ++ b) with (((k, e) :: z0) ++ b) in E1. change ((k', e') :: z0 ++ b) with (((k', e') :: z0) ++ b) in E2.
  rewrite app_assoc in E1, E2. apply app_inv_tail in E1, E2. exists x, k, e, y, k', e', z0. split; [exact E1|]. split; [exact E2|]. split; [exact NE|].
  destruct H as [H|[H1 H2]]; [left; exact H|right]. split; [exact H1|]. subst a. apply Forall_app in F as [_ F]. inversion F as [|? ? NK _]; subst.
  apply (cut_ranked A (surfaces (x ++ (k, e) :: z0)) (surfaces b) D (surfaces x)); [rewrite surfaces_app; reflexivity|cbn [fst] in NK; destruct k; [congruence|discriminate]|].
  fold (surfaces (z0 ++ b)) in H2. rewrite surfaces_app, app_assoc in H2. exact H2.
Qed.
Lemma ties_tail A a b b' : surfaces b = surfaces b' -> Forall (fun w : word => fst w <> []) b -> Forall (fun w : word => fst w <> []) b' ->
  wins_tie A (a ++ b) (a ++ b') -> wins_tie A b b'.
Proof.
  intros E F F' [H|(x & k & e & y & k' & e' & z & E1 & E2 & NE & H)]; [left; apply app_inv_head in H; exact H|].
  assert (SAME : forall l, b = l ++ b' -> b = b').
  { intros l ->. rewrite surfaces_app in E. apply Forall_app in F as [F _]. assert (L : surfaces l = []) by (apply (app_inv_tail (surfaces b')); exact E). apply surfaces_nil in L; [subst l; reflexivity|exact F]. }
  assert (SAME' : forall l, b' = l ++ b -> b = b').
  { intros l ->. rewrite surfaces_app in E. apply Forall_app in F' as [F' _]. assert (L : surfaces l = []) by (apply (app_inv_tail (surfaces b)); symmetry; exact E). apply surfaces_nil in L; [subst l; reflexivity|exact F']. }
  assert (SUF : (exists l, b = l ++ (k, e) :: z) \/ exists l, z = l ++ b).
  { apply app_eq_app in E1 as (l & [[E1 E3]|[E1 E3]]); [|left; eauto]. destruct l as [|w l]; [left; exists []; symmetry; exact E3|]. cbn [app] in E3. injection E3 as _ E3. right. eauto. }
  assert (SUF' : (exists l, b' = l ++ (k', e') :: z) \/ exists l, z = l ++ b').
  { apply app_eq_app in E2 as (l & [[E2 E3]|[E2 E3]]); [|left; eauto]. destruct l as [|w l]; [left; exists []; symmetry; exact E3|]. cbn [app] in E3. injection E3 as _ E3. right. eauto. }
  destruct SUF as [(l & E3)|(l & E3)], SUF' as [(l' & E4)|(l' & E4)].
  - right. exists l, k, e, l', k', e', z. auto.
  - left. apply (SAME (l ++ [(k, e)] ++ l')). rewrite E3, E4, <- !app_assoc. reflexivity.
  - left. apply (SAME' (l' ++ [(k', e')] ++ l)). rewrite E4, E3, <- !app_assoc. reflexivity.
  - left. rewrite E3 in E4. apply app_eq_app in E4 as (l2 & [[_ E4]|[_ E4]]); [exact (eq_sym (eq_sym (SAME' l2 E4)))|exact (SAME l2 E4)].
Qed.

Lemma seg_reach W s : forall pre r a, s = pre ++ r -> reach W s pre -> seg W pre r a -> reach W s s.
Proof.
  intros pre r a E R G. revert E R. induction G as [pre|pre k e rest ws N P G IH]; intros E R; [rewrite app_nil_r in E; subst pre; exact R|].
  apply IH; [rewrite <- app_assoc; exact E|]. eapply reach_step; eassumption.
Qed.
Lemma leaves_last A m u v f Wu Actu : divides A u v -> leaves A u v f -> searched A m u Wu Actu -> forall a, seg Wu [] u a -> last_right 0 a = f.
Proof.
  intros D [L0 L] S a G.
  assert (K : forall a pre r g, u = pre ++ r -> seg Wu pre r a -> (a = [] -> g = f) -> last_right g a = f).
  { clear a G. induction a as [|[k e] a IH]; intros pre r g E G N; cbn [last_right]; [auto|]. inversion G as [|pre' k' e' rest ws' NK P G' X1 X2 X3]. subst.
    apply (IH (pre ++ k) rest); [rewrite <- app_assoc; reflexivity|exact G'|]. intros ->. inversion G'; subst. rewrite !app_nil_r in *. apply (L pre k e eq_refl).
    apply (cut_candidate A (pre ++ k) v D pre k k e eq_refl NK). exact (searched_candidate _ _ _ _ _ _ _ _ _ S P). }
  apply (K a [] u 0%N eq_refl G). intros ->. inversion G; subst. symmetry. apply L0. reflexivity.
Qed.

Lemma fits_less m s s' : length s <= length s' -> blen s <= blen s' -> fits_i32 m s' -> fits_i32 m s.
Proof. unfold fits_i32. intros L B F. assert (0 <= penalty_max m)%Z by (destruct m; cbn [penalty_max]; lia). nia. Qed.

(* before: the words of u alone *)
Theorem answer_before A m u v f ws wu : distinct_entries A -> divides A u v -> leaves A u v f -> fits_i32 m (u ++ v) ->
  exact_answer A m (u ++ v) ws -> ws <> [] -> exact_answer A m u wu -> exists b, ws = wu ++ b /\ surfaces b = v.
Proof.
  intros DE D L FI (W & Act & S & [[-> _]|[G B]]) NW (Wu & Actu & SU & HU); [congruence|].
  destruct (before_split A m u v W Wu Act Actu D S SU ws [] u eq_refl G) as (a & b & -> & Ga & Gb).
  destruct HU as [[-> N]|[Gu Bu]]; [exfalso; exact (N a Ga)|].
  destruct (seg_surfaces _ _ _ _ Ga) as [Ea Fa]. destruct (seg_surfaces _ _ _ _ Gb) as [Eb Fb].
  pose proof (leaves_last A m u v f Wu Actu D L SU a Ga) as La. pose proof (leaves_last A m u v f Wu Actu D L SU wu Gu) as Lu.
  specialize (B FI (wu ++ b) (before_join A m u v W Wu Act Actu D S SU wu [] u b eq_refl Gu Gb)). assert (FU : fits_i32 m u) by (apply (fits_less m u (u ++ v)); [rewrite app_length; lia|rewrite blen_app; lia|exact FI]). specialize (Bu FU a Ga).
  unfold seg_cost in B, Bu. rewrite <- (app_nil_r wu), <- (app_nil_r a), !cost_app, La, Lu, !app_nil_r in Bu. rewrite !cost_app, La, Lu in B.
  destruct B as [B|[BE B]], Bu as [Bu|[BE' Bu]]; try (exfalso; lia).
  exists b. split; [|exact Eb]. f_equal. apply (wins_tie_asym A a wu DE); [|exact Bu]. exact (ties_cut A u v a wu b D Ea Eb Fa B).
Qed.

(* after: words that depend on u through its right id only *)
Theorem answer_after A m u u' v f ws ws' : distinct_entries A -> divides A u v -> divides A u' v -> leaves A u v f -> leaves A u' v f ->
  fits_i32 m (u ++ v) -> fits_i32 m (u' ++ v) -> exact_answer A m (u ++ v) ws -> ws <> [] -> exact_answer A m (u' ++ v) ws' -> ws' <> [] ->
  exists a a' b, ws = a ++ b /\ ws' = a' ++ b /\ surfaces a = u /\ surfaces a' = u' /\ surfaces b = v.
Proof.
  intros DE D D' L L' FI FI' (W & Act & S & [[-> _]|[G B]]) NW (W' & Act' & S' & [[-> _]|[G' B']]) NW'; try congruence.
  pose proof (searched_admitted A m u) as SU. pose proof (searched_admitted A m u') as SU'.
  destruct (before_split A m u v W _ Act _ D S SU ws [] u eq_refl G) as (a & b & -> & Ga & Gb).
  destruct (before_split A m u' v W' _ Act' _ D' S' SU' ws' [] u' eq_refl G') as (a' & b' & -> & Ga' & Gb').
  assert (R : reach W (u ++ v) u).
  { apply (before_same A m u v W _ Act _ D S SU (blen u) u [] (le_n _) ltac:(rewrite app_nil_r; reflexivity)). exact (seg_reach _ u [] u a eq_refl (reach_nil _ _) Ga). }
  assert (R' : reach W' (u' ++ v) u').
  { apply (before_same A m u' v W' _ Act' _ D' S' SU' (blen u') u' [] (le_n _) ltac:(rewrite app_nil_r; reflexivity)). exact (seg_reach _ u' [] u' a' eq_refl (reach_nil _ _) Ga'). }
  pose proof (after_seg A m u u' v W Act W' Act' D D' S S' R R' b Gb) as Xb. pose proof (after_seg A m u' u v W' Act' W Act D' D S' S R' R b' Gb') as Xb'.
  destruct (seg_surfaces _ _ _ _ Ga) as [Ea Fa]. destruct (seg_surfaces _ _ _ _ Gb) as [Eb Fb]. destruct (seg_surfaces _ _ _ _ Ga') as [Ea' Fa']. destruct (seg_surfaces _ _ _ _ Gb') as [Eb' Fb'].
  pose proof (leaves_last A m u v f _ _ D L SU a Ga) as La. pose proof (leaves_last A m u' v f _ _ D' L' SU' a' Ga') as La'.
  specialize (B FI (a ++ b') (before_join A m u v W _ Act _ D S SU a [] u b' eq_refl Ga Xb')). specialize (B' FI' (a' ++ b) (before_join A m u' v W' _ Act' _ D' S' SU' a' [] u' b eq_refl Ga' Xb)).
  unfold seg_cost in B, B'. rewrite !cost_app, La in B. rewrite !cost_app, La' in B'. destruct B as [B|[BE B]], B' as [B'|[BE' B']]; try (exfalso; lia).
  assert (b = b') as <- by (apply (wins_tie_asym A b b' DE); [apply (ties_tail A a)|apply (ties_tail A a')]; congruence). exists a, a', b. auto.
Qed.

(* right id 0: the two parts as if each were a sentence of its own *)
Lemma divides_nil A v : divides A [] v.
Proof. intros pre r w E N. symmetry in E. apply app_eq_nil in E as [_ ->]. congruence. Qed.
Lemma leaves_nil A v : leaves A [] v 0.
Proof.
  split; [reflexivity|]. intros pre w e E H. symmetry in E. apply app_eq_nil in E as [_ ->].
  destruct H as [(N & _)|H]; [congruence|]. destruct (unknown_prefix _ _ _ _ H) as [N _]. congruence.
Qed.
Theorem answer_apart A m u v ws wu wv : distinct_entries A -> divides A u v -> leaves A u v 0 -> fits_i32 m (u ++ v) -> u <> [] -> v <> [] ->
  exact_answer A m (u ++ v) ws -> exact_answer A m u wu -> exact_answer A m v wv ->
  (wu = [] \/ wv = [] -> ws = []) /\ (wu <> [] -> wv <> [] -> ws = wu ++ wv).
Proof.
  intros DE D L FI NU NV H Hu Hv.
  assert (FV : fits_i32 m ([] ++ v)) by (apply (fits_less m ([] ++ v) (u ++ v)); [rewrite !app_length; cbn [length]; lia|rewrite !blen_app; cbn [blen]; lia|exact FI]).
  assert (K : ws <> [] -> wu <> [] /\ wv <> [] /\ ws = wu ++ wv).
  { intros NW. destruct (answer_before A m u v 0 ws wu DE D L FI H NW Hu) as (b & E & Eb).
    assert (NWV : wv <> []).
    { destruct H as (W & Act & S & [[-> _]|[G _]]); [congruence|]. pose proof (searched_admitted A m u) as SU.
      destruct (before_split A m u v W _ Act _ D S SU ws [] u eq_refl G) as (x & y & _ & Gx & Gy).
      assert (R : reach W (u ++ v) u).
      { apply (before_same A m u v W _ Act _ D S SU (blen u) u [] (le_n _) ltac:(rewrite app_nil_r; reflexivity)). exact (seg_reach _ u [] u x eq_refl (reach_nil _ _) Gx). }
      destruct Hv as (Wv & Actv & Sv & Hv). pose proof (after_seg A m u [] v W Act Wv Actv D (divides_nil A v) S Sv R (reach_nil _ _) y Gy) as Gv.
      destruct Hv as [[_ N]|[Gw _]]; [exfalso; exact (N y Gv)|]. exact (seg_not_nil _ _ _ _ Gw NV). }
    destruct (answer_after A m u [] v 0 ws wv DE D (divides_nil A v) L (leaves_nil A v) FI FV H NW Hv NWV) as (a & a' & b' & E1 & E2 & Ea & Ea' & Eb').
    assert (a' = []) as -> by (destruct (answer_seg A m v wv Hv NWV) as (X & Y & _ & Gv); apply seg_surfaces in Gv as [_ F]; rewrite E2 in F; apply Forall_app in F as [F _]; apply surfaces_nil; assumption).
    cbn [app] in E2. subst b'. destruct (answer_seg A m _ ws H NW) as (X & Y & _ & G). apply seg_surfaces in G as [_ F].
    assert (EE : wu ++ b = a ++ wv) by congruence. rewrite E in F. apply Forall_app in F as [Fu Fb].
    assert (b = wv).
    { assert (Fw : Forall (fun w : word => fst w <> []) wv) by (assert (F2 : Forall (fun w : word => fst w <> []) (a ++ wv)) by (rewrite <- EE; apply Forall_app; auto); apply Forall_app in F2; apply F2).
      apply app_eq_app in EE as (l & [[_ EE]|[_ EE]]).
      - assert (SL : surfaces l = []) by (apply (app_inv_tail (surfaces b)); rewrite <- surfaces_app, <- EE; cbn [app]; congruence).
        rewrite EE in Fw. apply Forall_app in Fw as [Fw _]. apply surfaces_nil in SL; [subst l; symmetry; exact EE|exact Fw].
      - assert (SL : surfaces l = []) by (apply (app_inv_tail (surfaces wv)); rewrite <- surfaces_app, <- EE; cbn [app]; congruence).
        rewrite EE in Fb. apply Forall_app in Fb as [Fb _]. apply surfaces_nil in SL; [subst l; exact EE|exact Fb]. }
    subst b. split; [|auto]. intros ->. cbn [app] in E. subst ws. destruct (answer_seg A m _ wv H NW) as (X2 & Y2 & _ & G). apply seg_surfaces in G as [G _].
    rewrite G in Eb. apply (f_equal (@length char)) in Eb. rewrite app_length in Eb. destruct u; [congruence|]. cbn [length] in Eb. lia. }
  split.
  - intros E. destruct ws as [|w ws]; [reflexivity|]. destruct (K ltac:(discriminate)) as (K1 & K2 & _). destruct E; congruence.
  - intros N1 N2. apply K. intros ->. destruct H as (W & Act & S & H). destruct Hu as (Wu & Actu & SU & [[-> _]|[Gu _]]); [congruence|]. destruct Hv as (Wv & Actv & Sv & [[-> _]|[Gv _]]); [congruence|].
    assert (R : reach W (u ++ v) u).
    { apply (before_same A m u v W _ Act _ D S SU (blen u) u [] (le_n _) ltac:(rewrite app_nil_r; reflexivity)). exact (seg_reach _ u [] u wu eq_refl (reach_nil _ _) Gu). }
    pose proof (after_seg A m [] u v Wv Actv W Act (divides_nil A v) D Sv S (reach_nil _ _) R wv Gv) as G2.
    pose proof (before_join A m u v W Wu Act Actu D S SU wu [] u wv eq_refl Gu G2) as G3. destruct H as [[_ N]|[G4 _]]; [exact (N _ G3)|].
    apply (seg_not_nil _ _ _ _ G4); [|reflexivity]. destruct u; [congruence|discriminate].
Qed.

(** ** Tokens *)
Lemma sentence_one s : sentence s -> sentences s [s].
Proof. intros [H|H]; [|constructor; exact H]. rewrite <- (app_nil_r s) at 1. apply sent_closed; [exact H|constructor]. Qed.
Lemma sentence_head u v : sentence (u ++ v) -> u <> [] -> v <> [] -> sentence u.
Proof.
  intros [(body & c & E & _ & F)|[_ F]] NU NV; right; (split; [exact NU|]); [|apply Forall_app in F; apply F].
  apply app_eq_app in E as (l & [[-> E]|[-> E]]).
  - destruct l as [|d l]; [rewrite app_nil_r; exact F|]. exfalso. cbn [app] in E. injection E as _ E. symmetry in E. apply app_eq_nil in E as [_ E]. congruence.
  - apply Forall_app in F. apply F.
Qed.
Lemma sentence_tail u v : sentence (u ++ v) -> v <> [] -> sentence v.
Proof.
  intros [(body & c & E & DC & F)|[_ F]] NV; [|right; split; [exact NV|apply Forall_app in F; apply F]]. left.
  destruct (exists_last NV) as (b & d & ->). rewrite app_assoc in E. apply app_inj_tail in E as [<- <-]. exists b, d. split; [reflexivity|]. split; [exact DC|]. apply Forall_app in F. apply F.
Qed.
Lemma one_answer t A s : represents t A -> valid_str s -> sentence s -> exists ws, exact_answer A (t_mode t) s ws /\ tokenize t s = Some (Ok (mk_tokens 0 0 ws)).
Proof.
  intros R V H. destruct (tokenize_exact t A R s [s] V (sentence_one s H)) as (ts & wss & T & Wo & X & TI).
  inversion X as [|? ws ? wss' X1 X2]; subst. inversion X2; subst. cbn [map concat] in *. rewrite app_nil_r in *. exists ws. split; [exact X1|]. rewrite T. do 2 f_equal.
  assert (F : Forall (fun w : word => fst w <> []) ws) by (destruct X1 as (W & Act & _ & [[-> _]|[G _]]); [constructor|apply seg_surfaces in G; apply G]).
  apply (tiles_words _ _ _ _ _ _ TI (mk_tokens_tiles ws 0 0 F)). pose proof (mk_tokens_words ws 0 0) as M. unfold tokens_of_words in *. congruence.
Qed.

Section Local.
Variables (t : tokenizer) (A : adict).
Hypothesis R : represents t A.
Hypothesis DE : distinct_entries A.
Let m := t_mode t.

Theorem tokens_before u v f ts tu : divides A u v -> leaves A u v f -> valid_str (u ++ v) -> sentence (u ++ v) -> sentence u -> fits_i32 m (u ++ v) ->
  tokenize t (u ++ v) = Some (Ok ts) -> ts <> [] -> tokenize t u = Some (Ok tu) -> end_of tu = blen u /\ exists tv, ts = tu ++ tv.
Proof.
  intros D L V S SU FI T N TU. pose proof V as V0. apply Forall_app in V0 as [VU _].
  destruct (one_answer t A _ R V S) as (ws & X & E). rewrite T in E. injection E as ->. destruct (one_answer t A _ R VU SU) as (wu & XU & E). rewrite TU in E. injection E as ->.
  assert (NW : ws <> []) by (intros ->; apply N; reflexivity).
  destruct (answer_before A m u v f ws wu DE D L FI X NW XU) as (b & -> & Eb). destruct (answer_seg _ _ _ _ X NW) as (W & Act & _ & G). apply seg_surfaces in G as [G _].
  rewrite surfaces_app, Eb in G. apply app_inv_tail in G. split; [rewrite mk_tokens_end; change (surface wu) with (surfaces wu); rewrite G; reflexivity|]. rewrite mk_tokens_app. eauto.
Qed.
Theorem tokens_after u u' v f ts ts' : divides A u v -> divides A u' v -> leaves A u v f -> leaves A u' v f -> valid_str (u ++ v) -> valid_str (u' ++ v) -> sentence (u ++ v) -> sentence (u' ++ v) ->
  fits_i32 m (u ++ v) -> fits_i32 m (u' ++ v) -> tokenize t (u ++ v) = Some (Ok ts) -> ts <> [] -> tokenize t (u' ++ v) = Some (Ok ts') -> ts' <> [] ->
  exists a a' b, ts = a ++ map (shift_token (blen u) (length a)) b /\ ts' = a' ++ map (shift_token (blen u') (length a')) b /\ tiles u a /\ tiles u' a' /\ tiles v b.
Proof.
  intros D D' L L' V V' S S' FI FI' T N T' N'.
  destruct (one_answer t A _ R V S) as (ws & X & E). rewrite T in E. injection E as ->. destruct (one_answer t A _ R V' S') as (ws' & X' & E). rewrite T' in E. injection E as ->.
  assert (NW : ws <> []) by (intros ->; apply N; reflexivity). assert (NW' : ws' <> []) by (intros ->; apply N'; reflexivity).
  destruct (answer_after A m u u' v f ws ws' DE D D' L L' FI FI' X NW X' NW') as (a & a' & b & -> & -> & Ea & Ea' & Eb).
  destruct (answer_seg _ _ _ _ X NW) as (W & Act & _ & G). apply seg_surfaces in G as [_ F]. apply Forall_app in F as [Fa Fb].
  destruct (answer_seg _ _ _ _ X' NW') as (W' & Act' & _ & G'). apply seg_surfaces in G' as [_ F']. apply Forall_app in F' as [Fa' _].
  exists (mk_tokens 0 0 a), (mk_tokens 0 0 a'), (mk_tokens 0 0 b). rewrite !mk_tokens_app, !mk_tokens_length. cbn [Nat.add].
  rewrite (mk_tokens_shift b (blen (surface a))), (mk_tokens_shift b (blen (surface a'))). change surface with surfaces. rewrite Ea, Ea'.
  do 2 (split; [reflexivity|]). unfold tiles. rewrite <- Ea, <- Ea', <- Eb. change surfaces with surface. repeat split; apply mk_tokens_tiles; assumption.
Qed.
Theorem tokens_apart u v ts tu tv : divides A u v -> leaves A u v 0 -> valid_str (u ++ v) -> sentence (u ++ v) -> u <> [] -> v <> [] -> fits_i32 m (u ++ v) ->
  tokenize t (u ++ v) = Some (Ok ts) -> tokenize t u = Some (Ok tu) -> tokenize t v = Some (Ok tv) ->
  (tu = [] \/ tv = [] -> ts = []) /\ (tu <> [] -> tv <> [] -> ts = tu ++ map (shift_token (blen u) (length tu)) tv).
Proof.
  intros D L V S NU NV FI T TU TV. pose proof V as V0. apply Forall_app in V0 as [VU VV].
  destruct (one_answer t A _ R V S) as (ws & X & E). rewrite T in E. injection E as ->.
  destruct (one_answer t A _ R VU (sentence_head u v S NU NV)) as (wu & XU & E). rewrite TU in E. injection E as ->.
  destruct (one_answer t A _ R VV (sentence_tail u v S NV)) as (wv & XV & E). rewrite TV in E. injection E as ->.
  destruct (answer_apart A m u v ws wu wv DE D L FI NU NV X XU XV) as [K1 K2].
  assert (Z : forall w, mk_tokens 0 0 w = [] <-> w = []) by (intros [|[k e] w]; split; intros; try reflexivity; discriminate).
  rewrite !Z. split; [exact K1|]. intros N1 N2. rewrite (K2 N1 N2). rewrite mk_tokens_app, mk_tokens_length. cbn [Nat.add]. rewrite (mk_tokens_shift wv (blen (surface wu))).
  destruct (answer_seg _ _ _ _ XU N1) as (W & Act & _ & G). apply seg_surfaces in G as [G _]. change (surface wu) with (surfaces wu). rewrite G. reflexivity.
Qed.
End Local.
