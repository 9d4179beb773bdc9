(** Viterbi: every edge ends up with a cheapest left edge. *)
From Coq Require Import List Sorted NArith ZArith Bool Lia ZifyBool ZifyNat ZifyN.
From Verif Require Import MBase MUtf8 MText MCodec MDict MCharDef MUnk MLattice MTokenizer STok LBase LUtf8 LScan LLat.
Import ListNotations.

Lemma min_by_cost_spec l : match min_by_cost l with
  | None => l = []
  | Some x => In x l /\ (forall y, In y l -> (fst x <= fst y)%Z) /\
              exists l1 l2, l = l1 ++ x :: l2 /\ forall y, In y l1 -> (fst x < fst y)%Z
  end.
Proof.
  induction l as [|x l IH]; cbn [min_by_cost]; [reflexivity|].
  destruct (min_by_cost l) as [y|].
  - destruct IH as (I & M & l1 & l2 & -> & F). destruct (fst x <=? fst y)%Z eqn:E.
    + split; [left; reflexivity|]. split; [intros z [<-|H]; [lia|]; apply M in H; lia|].
      exists [], (l1 ++ y :: l2). split; [reflexivity|]. intros z [].
    + split; [right; exact I|]. split; [intros z [<-|H]; [lia|]; apply M in H; lia|].
      exists (x :: l1), l2. split; [reflexivity|]. intros z [<-|H]; [lia|]. apply F. exact H.
  - subst. split; [left; reflexivity|]. split; [intros z [<-|[]]; lia|]. exists [], []. split; [reflexivity|]. intros z [].
Qed.

(** ** Edge arrays *)

Definition static (e : edge) := (e_type e, e_entry e, e_start e, e_stop e, e_kanji e).

Definition same_static (E E0 : list edge) : Prop := map static E = map static E0.

Lemma same_static_nth E E0 id e0 : same_static E E0 -> nth_error E0 id = Some e0 ->
  exists e, nth_error E id = Some e /\ static e = static e0.
Proof.
  intros S H. assert (H2 : nth_error (map static E) id = Some (static e0)) by (rewrite S; apply map_nth_error; exact H).
  rewrite nth_error_map in H2. destruct (nth_error E id) as [e|]; [|discriminate]. cbn [option_map] in H2.
  exists e. split; [reflexivity|congruence].
Qed.

Lemma upd_static E id e e1 : nth_error E id = Some e -> static e1 = static e -> map static (upd E id e1) = map static E.
Proof.
  revert id. induction E as [|x E IH]; intros [|id] H S; cbn in *; try discriminate.
  - injection H as ->. congruence.
  - f_equal. apply IH; auto.
Qed.

Section Vit.
Variable t : tokenizer.
Variable A : adict.
Hypothesis R : represents t A.
Variable m : mode.
Variable len : nat.
Variable ws : list edge.     (* word edges *)

Let cm := d_matrix (t_dictionary t).
Let E0 := default_edge :: default_edge :: ws.

Hypothesis ws_entry : Forall (fun e => entry_ok A (e_entry e)) ws.
Hypothesis ws_pos : Forall (fun e => e_start e < e_stop e /\ e_stop e <= len) ws.
Hypothesis ws_reach : starts_reachable ws.

(* position at which an edge is a right edge *)
Definition pos (id : nat) : nat :=
  match id with
  | 0 => 0
  | 1 => len
  | S (S n) => match nth_error ws n with Some e => e_start e | None => 0 end
  end.

Lemma ends_in i id : In id (ends_of ws i) <-> (i = 0 /\ id = 0) \/ exists n e, id = S (S n) /\ nth_error ws n = Some e /\ e_stop e = i.
Proof.
  unfold ends_of. rewrite in_app_iff, ids_from_in. split.
  - intros [H|(e & H1 & H2 & H3)].
    + destruct (Nat.eqb_spec i 0); [|destruct H]. destruct H as [<-|[]]. auto.
    + right. exists (id - 2), e. apply Nat.eqb_eq in H3. split; [lia|auto].
  - intros [[-> ->]|(n & e & -> & H2 & H3)].
    + left. cbn. auto.
    + right. exists e. split; [lia|]. replace (S (S n) - 2) with n by lia. split; [exact H2|]. apply Nat.eqb_eq. exact H3.
Qed.

Lemma starts_in i id : In id (starts_of len ws i) <-> (i = len /\ id = 1) \/ exists n e, id = S (S n) /\ nth_error ws n = Some e /\ e_start e = i.
Proof.
  unfold starts_of. rewrite in_app_iff, ids_from_in. split.
  - intros [H|(e & H1 & H2 & H3)].
    + destruct (Nat.eqb_spec i len); [|destruct H]. destruct H as [<-|[]]. auto.
    + right. exists (id - 2), e. apply Nat.eqb_eq in H3. split; [lia|auto].
  - intros [[-> ->]|(n & e & -> & H2 & H3)].
    + left. rewrite Nat.eqb_refl. cbn. auto.
    + right. exists e. split; [lia|]. replace (S (S n) - 2) with n by lia. split; [exact H2|]. apply Nat.eqb_eq. exact H3.
Qed.

Lemma starts_pos i id : In id (starts_of len ws i) -> pos id = i /\ id <> 0 /\ id < length E0.
Proof.
  intros H. apply starts_in in H as [[-> ->]|(n & e & -> & H2 & H3)]; cbn.
  - repeat split; lia.
  - rewrite H2. assert (n < length ws) by (apply nth_error_Some; congruence).
    repeat split; auto; lia.
Qed.

(* edges ending at j start before j *)
Lemma ends_pos i id : In id (ends_of ws i) -> id = 0 \/ (pos id < i /\ id <> 1).
Proof.
  intros H. apply ends_in in H as [[-> ->]|(n & e & -> & H2 & H3)]; [auto|].
  right. cbn. rewrite H2. rewrite Forall_forall in ws_pos. apply nth_error_In in H2. apply ws_pos in H2. split; lia.
Qed.

Lemma ids_sorted f es : forall n, StronglySorted lt (ids_from n f es) /\ Forall (fun id => n <= id) (ids_from n f es).
Proof.
  induction es as [|e es IH]; intros n; cbn [ids_from]; [split; constructor|].
  destruct (IH (S n)) as [H1 H2]. destruct (f e).
  - split; [constructor; [exact H1|]|constructor; [lia|]]; (eapply Forall_impl; [|exact H2]); cbn; lia.
  - split; [exact H1|]. eapply Forall_impl; [|exact H2]. cbn. lia.
Qed.

Lemma ends_sorted i : StronglySorted lt (ends_of ws i).
Proof.
  unfold ends_of. destruct (ids_sorted (fun e => Nat.eqb (e_stop e) i) ws 2) as [H1 H2].
  destruct (Nat.eqb i 0); [|exact H1]. cbn [app]. constructor; [exact H1|]. eapply Forall_impl; [|exact H2]. cbn. lia.
Qed.

Lemma sorted_before l1 x l2 y : StronglySorted lt (l1 ++ x :: l2) -> In y (l1 ++ x :: l2) -> y < x -> In y l1.
Proof.
  induction l1 as [|z l1 IH]; cbn [app]; intros S I L.
  - exfalso. inversion S as [|? ? _ F]; subst. destruct I as [->|I]; [lia|]. rewrite Forall_forall in F. apply F in I. lia.
  - inversion S; subst. destruct I as [->|I]; [left; reflexivity|right; auto].
Qed.

Definition nthE (E : list edge) (id : nat) : edge := nth id E default_edge.

Lemma nthE_nth E id e : nth_error E id = Some e -> nthE E id = e.
Proof. intros H. unfold nthE. apply nth_error_nth. exact H. Qed.

Lemma ends_valid E i id : same_static E E0 -> In id (ends_of ws i) ->
  nth_error E id = Some (nthE E id) /\ entry_ok A (e_entry (nthE E id)).
Proof.
  intros S H.
  assert (V : exists e0, nth_error E0 id = Some e0 /\ entry_ok A (e_entry e0)).
  { apply ends_in in H as [[-> ->]|(n & e & -> & H2 & H3)].
    - exists default_edge. split; [reflexivity|]. pose proof (rep_sizes t A R). cbn. repeat split; cbn; lia.
    - exists e. split; [exact H2|]. rewrite Forall_forall in ws_entry. apply ws_entry. eapply nth_error_In. exact H2. }
  destruct V as (e0 & V1 & V2). destruct (same_static_nth _ _ _ _ S V1) as (e & H1 & H2).
  rewrite (nthE_nth _ _ _ H1). split; [exact H1|]. unfold static in H2. congruence.
Qed.

Definition thru (E : list edge) (re : word_entry) (id : nat) : Z :=
  wrap32 (wrap32 (e_path_cost (nthE E id) + a_conn A (we_right (e_entry (nthE E id))) (we_left re)) + penalty_cost m (nthE E id)).

Definition good (E : list edge) (id : nat) : Prop :=
  match ends_of ws (pos id) with
  | [] => nth_error E id = nth_error E0 id
  | L => exists l, In l L /\ e_left (nthE E id) = Some l /\
         e_path_cost (nthE E id) = wrap32 (we_cost (e_entry (nthE E id)) + thru E (e_entry (nthE E id)) l) /\
         (forall l', In l' L -> (thru E (e_entry (nthE E id)) l <= thru E (e_entry (nthE E id)) l')%Z) /\
         forall l', In l' L -> l' < l -> (thru E (e_entry (nthE E id)) l < thru E (e_entry (nthE E id)) l')%Z
  end.

Record inv (done : list nat) (E : list edge) : Prop := {
  inv_static : same_static E E0;
  inv_bos : ~ In 0 done;
  inv_rest : forall id, ~ In id done -> nth_error E id = nth_error E0 id;
  inv_good : forall id, In id done -> good E id
}.

Lemma entry_ok_left E id : same_static E E0 -> In id (starts_of len ws (pos id)) ->
  nth_error E id = Some (nthE E id) /\ (we_left (e_entry (nthE E id)) < a_bsize A)%N.
Proof.
  intros S H.
  assert (V : exists e0, nth_error E0 id = Some e0 /\ (we_left (e_entry e0) < a_bsize A)%N).
  { apply starts_in in H as [[_ ->]|(n & e & -> & H2 & H3)].
    - exists default_edge. split; [reflexivity|]. pose proof (rep_sizes t A R). cbn. lia.
    - exists e. split; [exact H2|]. rewrite Forall_forall in ws_entry. apply ws_entry. eapply nth_error_In. exact H2. }
  destruct V as (e0 & V1 & V2). destruct (same_static_nth _ _ _ _ S V1) as (e & H1 & H2).
  rewrite (nthE_nth _ _ _ H1). split; [exact H1|]. unfold static in H2. congruence.
Qed.

Lemma through_ok E re id i : same_static E E0 -> In id (ends_of ws i) -> (we_left re < a_bsize A)%N ->
  through_cost cm m E re id = Ok (thru E re id, id).
Proof.
  intros S H B. destruct (ends_valid E i id S H) as [V (V1 & _ & _)].
  unfold through_cost. rewrite (idx_nth _ _ _ V). cbn [bind].
  destruct (rep_conn t A R (we_right (e_entry (nthE E id))) (we_left re) V1 B) as [C _].
  unfold cm. rewrite C. reflexivity.
Qed.

Lemma nthE_upd_neq E id r e : id <> r -> nthE (upd E r e) id = nthE E id.
Proof.
  intros N. unfold nthE. revert id r N. induction E as [|x E IH]; intros [|id] [|r] N; cbn; try congruence; auto.
Qed.

Lemma nthE_upd_eq E r e : r < length E -> nthE (upd E r e) r = e.
Proof. intros H. apply nthE_nth. apply nth_error_upd_eq. exact H. Qed.

Lemma thru_upd E re id r e : id <> r -> thru (upd E r e) re id = thru E re id.
Proof. intros N. unfold thru. rewrite nthE_upd_neq by exact N. reflexivity. Qed.

Lemma step_inv i done E r :
  inv done E -> In r (starts_of len ws i) -> (forall id, In id done -> pos id <= i) ->
  exists E', path_cost_step cm m (ends_of ws i) E r = Ok E' /\ inv (r :: done) E'.
Proof.
  intros [S NB0 RST G] Hr PD. pose proof (starts_pos _ _ Hr) as (Pr & Nr & Lr).
  pose proof Hr as Hr'. rewrite <- Pr in Hr'. destruct (entry_ok_left E r S Hr') as [Vr Br].
  assert (LE : length E = length E0) by (rewrite <- (map_length static E), S, map_length; reflexivity).
  unfold path_cost_step. rewrite (idx_nth _ _ _ Vr). cbn [bind].
  rewrite (mapM_ok_map _ (fun id => (thru E (e_entry (nthE E r)) id, id))).
  2:{ intros id H. eapply through_ok; eauto. }
  cbn [bind].
  pose proof (min_by_cost_spec (map (fun id => (thru E (e_entry (nthE E r)) id, id)) (ends_of ws i))) as M.
  destruct (min_by_cost _) as [[best bl]|].
  - destruct M as (M1 & M2 & M3). apply in_map_iff in M1 as (x & Ex & Ix). injection Ex as <- ->.
    eexists. split; [reflexivity|].
    set (e' := Edge _ _ _ _ _ _ _).
    assert (NL : forall j id, j <= i -> In id (ends_of ws j) -> id <> r).
    { intros j id J H. apply ends_pos in H as [H|H]; [congruence|]. intros ->. lia. }
    constructor.
    + unfold same_static. rewrite (upd_static E r (nthE E r) e' Vr); [exact S|reflexivity].
    + intros [H|H]; [congruence|exact (NB0 H)].
    + intros id H. rewrite nth_error_upd_neq.
      * apply RST. intros I. apply H. right. exact I.
      * intros ->. apply H. left. reflexivity.
    + intros id H. destruct (Nat.eq_dec id r) as [->|N].
      * unfold good. rewrite Pr. rewrite nthE_upd_eq by lia. destruct (ends_of ws i) as [|l0 L] eqn:EE; [destruct Ix|].
        exists bl. split; [exact Ix|]. split; [reflexivity|].
        assert (NB : forall l, In l (l0 :: L) -> l <> r) by (intros l HL; apply (NL i); [lia|rewrite EE; exact HL]).
        split.
        -- cbn [e_path_cost e_entry e']. rewrite thru_upd by (apply NB; exact Ix). reflexivity.
        -- split.
           ++ intros l' HL. cbn [e_entry e']. rewrite !thru_upd by (apply NB; assumption).
              apply (M2 (thru E (e_entry (nthE E r)) l', l')). apply in_map_iff. exists l'. auto.
           ++ intros l' HL LT. cbn [e_entry e']. rewrite !thru_upd by (apply NB; assumption).
              destruct M3 as (q1 & q2 & MQ & M3). apply (M3 (thru E (e_entry (nthE E r)) l', l')).
              apply map_eq_app in MQ. destruct MQ as (L1 & L2 & EQ & <- & MQ). destruct L2 as [|y L2]; [discriminate|].
              cbn [map] in MQ. injection MQ as _ -> _. apply (in_map (fun id => (thru E (e_entry (nthE E r)) id, id))).
              pose proof (ends_sorted i) as SO. rewrite EE, EQ in SO. rewrite EQ in HL. exact (sorted_before _ _ _ _ SO HL LT).
      * destruct H as [H|H]; [congruence|]. specialize (G id H). specialize (PD id H).
        unfold good in *. destruct (ends_of ws (pos id)) as [|l0 L] eqn:EE.
        -- rewrite nth_error_upd_neq by congruence. exact G.
        -- destruct G as (l & G1 & G2 & G3 & G4 & G5). rewrite nthE_upd_neq by exact N.
           assert (NB : forall l, In l (l0 :: L) -> l <> r) by (intros k HL; apply (NL (pos id)); [lia|rewrite EE; exact HL]).
           exists l. split; [exact G1|]. split; [exact G2|]. split.
           ++ rewrite thru_upd by (apply NB; assumption). exact G3.
           ++ split; intros l' HL; rewrite !thru_upd by (apply NB; assumption); [apply G4|apply G5]; exact HL.
  - apply map_eq_nil in M. exists E. split; [reflexivity|]. constructor; auto.
    + intros [H|H]; [congruence|exact (NB0 H)].
    + intros id H. apply RST. intros I. apply H. right. exact I.
    + intros id [<-|H]; [|apply G; exact H].
      destruct (in_dec Nat.eq_dec r done) as [D|D]; [apply G; exact D|].
      unfold good. rewrite Pr, M. apply RST. exact D.
Qed.

Lemma inner_inv i rs : forall done E,
  inv done E -> (forall r, In r rs -> In r (starts_of len ws i)) -> (forall id, In id done -> pos id <= i) ->
  exists E', foldM (path_cost_step cm m (ends_of ws i)) rs E = Ok E' /\ inv (rev rs ++ done) E'.
Proof.
  induction rs as [|r rs IH]; intros done E I H P; cbn [foldM].
  - exists E. auto.
  - destruct (step_inv i done E r I (H r (or_introl eq_refl)) P) as (E1 & S1 & I1).
    rewrite S1. cbn [bind]. destruct (IH (r :: done) E1 I1) as (E2 & S2 & I2).
    + intros r' H'. apply H. right. exact H'.
    + intros id [<-|H']; [|apply P; exact H']. destruct (starts_pos i r) as [-> _]; [apply H; left; reflexivity|lia].
    + exists E2. split; [exact S2|]. cbn [rev]. rewrite <- app_assoc. exact I2.
Qed.

Section Cap.
Variable cap : nat.
Hypothesis cap_len : len <= cap.

Lemma outer_inv n : forall i done E,
  i + n = S cap -> inv done E -> (forall id, In id done -> pos id <= i) ->
  exists E' done', foldM (fun es i =>
             do lefts <- idx (ends_at (lat_of len cap ws)) i;
             do rights <- idx (starts_at (lat_of len cap ws)) i;
             foldM (path_cost_step cm m lefts) rights es) (seq i n) E = Ok E' /\
    inv done' E' /\ (forall id, In id done -> In id done') /\
    (forall j id, i <= j <= cap -> In id (starts_of len ws j) -> In id done').
Proof.
  induction n as [|n IH]; intros i done E EQ I P; cbn [seq foldM].
  - exists E, done. split; [reflexivity|]. split; [exact I|]. split; [auto|]. intros j id H. lia.
  - unfold lat_of at 1 2. cbn [ends_at starts_at]. unfold idx. rewrite !nth_error_map_seq by lia. cbn [bind Nat.add].
    destruct (inner_inv i (starts_of len ws i) done E I (fun r H => H) P) as (E1 & S1 & I1).
    rewrite S1. cbn [bind].
    destruct (IH (S i) (rev (starts_of len ws i) ++ done) E1) as (E2 & done2 & S2 & I2 & M2 & N2).
    + lia.
    + exact I1.
    + intros id H. apply in_app_iff in H as [H|H].
      * apply in_rev in H. apply starts_pos in H as [-> _]. lia.
      * apply P in H. lia.
    + exists E2, done2. split; [exact S2|]. split; [exact I2|]. split.
      * intros id H. apply M2. apply in_app_iff. auto.
      * intros j id J H. destruct (Nat.eq_dec j i) as [->|N].
        -- apply M2. apply in_app_iff. left. rewrite <- in_rev. exact H.
        -- apply (N2 j); [lia|exact H].
Qed.

Record final (E : list edge) : Prop := {
  fin_static : same_static E E0;
  fin_bos : nth_error E 0 = Some default_edge;
  fin_good : forall id, id <> 0 -> id < length E0 -> good E id
}.

Lemma path_costs_final :
  exists E, calculate_path_costs cm m (lat_of len cap ws) =
    Ok (Lattice cap E (starts_at (lat_of len cap ws)) (ends_at (lat_of len cap ws))) /\ final E.
Proof.
  unfold calculate_path_costs.
  assert (I0 : inv [] E0) by (constructor; [reflexivity|auto|auto|intros id []]).
  destruct (outer_inv (S cap) 0 [] E0 eq_refl I0) as (E & done & SS & I & _ & D).
  { intros id []. }
  assert (L : length (starts_at (lat_of len cap ws)) = S cap) by (unfold lat_of; cbn [starts_at]; rewrite map_length, seq_length; reflexivity).
  rewrite L. change (edges (lat_of len cap ws)) with E0. rewrite SS. cbn [bind].
  exists E. split; [reflexivity|].
  destruct I as [I1 I0' I2 I3]. constructor; [exact I1| |].
  - rewrite I2 by exact I0'. reflexivity.
  - intros id N B. apply I3. apply (D (pos id)).
    + destruct id as [|[|n]]; cbn; [lia|lia|]. destruct (nth_error ws n) as [e|] eqn:E1; [|lia].
      rewrite Forall_forall in ws_pos. apply nth_error_In in E1. apply ws_pos in E1. lia.
    + apply starts_in. destruct id as [|[|n]]; [congruence|auto|]. right. cbn in B.
      destruct (nth_error ws n) as [e|] eqn:E1.
      * exists n, e. cbn. rewrite E1. auto.
      * apply nth_error_None in E1. lia.
Qed.
End Cap.

(** ** Chains of edges, last edge first *)

Inductive chain : nat -> list edge -> Prop :=
| ch_nil : chain 0 []
| ch_cons : forall e l, In e ws -> chain (e_start e) l -> chain (e_stop e) (e :: l).

Definition last_right (l : list edge) : N := match l with [] => 0%N | e :: _ => we_right (e_entry e) end.
Definition last_pen (l : list edge) : Z := match l with [] => 0%Z | e :: _ => penalty_cost m e end.

(* exact and wrapped cost of a chain *)
Fixpoint rc (l : list edge) : Z :=
  match l with
  | [] => 0%Z
  | e :: r => (we_cost (e_entry e) + (rc r + a_conn A (last_right r) (we_left (e_entry e)) + last_pen r))%Z
  end.
Definition total (l : list edge) : Z := (rc l + a_conn A (last_right l) 0%N + last_pen l)%Z.

Fixpoint wrc (l : list edge) : Z :=
  match l with
  | [] => 0%Z
  | e :: r => wrap32 (we_cost (e_entry e) + wrap32 (wrap32 (wrc r + a_conn A (last_right r) (we_left (e_entry e))) + last_pen r))%Z
  end.

Definition nowrap : Prop := forall p l, chain p l ->
  is_i32 (rc l) /\ forall b, (b < a_bsize A)%N ->
    is_i32 (rc l + a_conn A (last_right l) b) /\ is_i32 (rc l + a_conn A (last_right l) b + last_pen l).

Lemma ws_entry_in e : In e ws -> entry_ok A (e_entry e).
Proof. rewrite Forall_forall in ws_entry. apply ws_entry. Qed.

Lemma wrc_rc : nowrap -> forall p l, chain p l -> wrc l = rc l.
Proof.
  intros NW p l C. induction C as [|e l I C IH]; [reflexivity|].
  cbn [wrc rc]. rewrite IH. destruct (NW _ _ C) as [_ N2].
  destruct (N2 (we_left (e_entry e))) as [N3 N4]; [apply ws_entry_in; exact I|].
  rewrite (wrap32_id _ N3), (wrap32_id _ N4).
  destruct (NW _ _ (ch_cons e l I C)) as [N5 _]. cbn [rc] in N5. apply wrap32_id. exact N5.
Qed.

Lemma bos_pen : penalty_cost m default_edge = 0%Z.
Proof.
  destruct m as [|p]; [reflexivity|]. cbn [penalty_cost]. unfold penalty_of.
  change (N.of_nat (num_chars default_edge)) with 0%N.
  destruct (0 <=? kanji_threshold p)%N eqn:E; [reflexivity|]. lia.
Qed.

Lemma static_pen e e' : static e = static e' -> penalty_cost m e = penalty_cost m e'.
Proof.
  intros H. unfold static in H. destruct m as [|p]; [reflexivity|]. cbn [penalty_cost]. unfold penalty_of, num_chars.
  injection H as H1 H2 H3 H4 H5. rewrite H3, H4, H5. reflexivity.
Qed.

Definition path_item (e : edge) : nat * word_id := (e_start e, we_id (e_entry e)).

(* the edge with this id, in the final array, ends a chain l *)
Definition ends_chain (E : list edge) (id : nat) (l : list edge) : Prop :=
  e_path_cost (nthE E id) = wrc l /\ we_right (e_entry (nthE E id)) = last_right l /\
  penalty_cost m (nthE E id) = last_pen l.

Lemma thru_chain E re id l : ends_chain E id l ->
  thru E re id = wrap32 (wrap32 (wrc l + a_conn A (last_right l) (we_left re)) + last_pen l).
Proof. intros (H1 & H2 & H3). unfold thru. rewrite H1, H2, H3. reflexivity. Qed.

Lemma word_final E n e : final E -> nth_error ws n = Some e ->
  nth_error E (S (S n)) = Some (nthE E (S (S n))) /\ static (nthE E (S (S n))) = static e.
Proof.
  intros F H. destruct (same_static_nth E E0 (S (S n)) e (fin_static E F) H) as (e1 & H1 & H2).
  rewrite (nthE_nth _ _ _ H1). auto.
Qed.

Lemma reach_ends p : reachb ws p = true -> ends_of ws p <> [].
Proof. rewrite ends_of_reach. destruct (ends_of ws p); congruence. Qed.

(* the chain found by going left from an edge *)
Inductive followed (E : list edge) : nat -> list edge -> Prop :=
| fo_bos : followed E 0 []
| fo_word : forall n e b l, nth_error ws n = Some e -> e_left (nthE E (S (S n))) = Some b -> followed E b l ->
    followed E (S (S n)) (e :: l).

Lemma edge_chain E : final E -> forall p id, In id (ends_of ws p) ->
  exists l, chain p l /\ ends_chain E id l /\
    (forall f, p < f -> follow f E id = Some (Ok (map path_item l))) /\ followed E id l.
Proof.
  intros F p. induction p as [p IH] using lt_wf_ind. intros id H.
  apply ends_in in H as [[-> ->]|(n & e & -> & H2 & H3)].
  - exists []. split; [constructor|]. pose proof (fin_bos E F) as B.
    split.
    + unfold ends_chain. rewrite (nthE_nth _ _ _ B). cbn. repeat split. apply bos_pen.
    + split; [|constructor]. intros [|f] L; [lia|]. cbn [follow]. rewrite B. reflexivity.
  - subst p. destruct (word_final E n e F H2) as [V SS].
    assert (I : In e ws) by (eapply nth_error_In; exact H2).
    assert (PS : e_start e < e_stop e) by (rewrite Forall_forall in ws_pos; apply ws_pos; exact I).
    assert (G : good E (S (S n))).
    { apply (fin_good E F); [lia|]. cbn. assert (n < length ws) by (apply nth_error_Some; congruence). lia. }
    unfold good in G. cbn [pos] in G. rewrite H2 in G.
    assert (NE : ends_of ws (e_start e) <> []).
    { apply reach_ends. unfold starts_reachable in ws_reach. rewrite Forall_forall in ws_reach. apply ws_reach. exact I. }
    destruct (ends_of ws (e_start e)) as [|l0 L0] eqn:EL; [congruence|].
    destruct G as (l & G1 & G2 & G3 & G4 & _). rewrite <- EL in G1.
    destruct (IH (e_start e) PS l G1) as (ch & C1 & C2 & C3 & C4).
    exists (e :: ch). split; [constructor; assumption|]. 
    assert (SE : e_entry (nthE E (S (S n))) = e_entry e /\ e_start (nthE E (S (S n))) = e_start e) by (unfold static in SS; split; congruence).
    destruct SE as [SE1 SE2].
    split.
    + unfold ends_chain. rewrite G3, (thru_chain _ _ _ _ C2), SE1. cbn [wrc last_right last_pen].
      split; [reflexivity|]. split; [reflexivity|]. apply static_pen. exact SS.
    + split; [|econstructor; eassumption]. intros [|f] Lf; [lia|]. cbn [follow]. rewrite V, G2, C3 by lia. cbn [bind map]. unfold path_item at 2.
      rewrite SE1, SE2. reflexivity.
Qed.

Lemma edge_optimal E : final E -> nowrap -> forall p l', chain p l' ->
  exists id, In id (ends_of ws p) /\ we_right (e_entry (nthE E id)) = last_right l' /\
    penalty_cost m (nthE E id) = last_pen l' /\ (e_path_cost (nthE E id) <= rc l')%Z.
Proof.
  intros F NW p l' C. induction C as [|e l I C IH].
  - exists 0. rewrite (nthE_nth _ _ _ (fin_bos E F)). split; [apply ends_in; auto|].
    split; [reflexivity|]. split; [apply bos_pen|]. cbn. lia.
  - destruct IH as (id & H1 & H2 & H3 & H4).
    apply In_nth_error in I as [n Hn]. destruct (word_final E n e F Hn) as [V SS].
    assert (I : In e ws) by (eapply nth_error_In; exact Hn).
    assert (SE : e_entry (nthE E (S (S n))) = e_entry e) by (unfold static in SS; congruence).
    exists (S (S n)). split; [apply ends_in; right; eauto|].
    split; [rewrite SE; reflexivity|]. split; [apply static_pen; exact SS|].
    assert (G : good E (S (S n))).
    { apply (fin_good E F); [lia|]. cbn. assert (n < length ws) by (apply nth_error_Some; congruence). lia. }
    unfold good in G. cbn [pos] in G. rewrite Hn in G.
    destruct (ends_of ws (e_start e)) as [|l0 L0] eqn:EL; [destruct H1|].
    destruct G as (b & G1 & G2 & G3 & G4 & _). rewrite SE in *.
    specialize (G4 id H1). rewrite <- EL in G1, H1.
    destruct (edge_chain E F _ _ G1) as (lb & Cb & Eb & _).
    destruct (edge_chain E F _ _ H1) as (li & Ci & Ei & _).
    rewrite (thru_chain _ _ _ _ Eb), (thru_chain _ _ _ _ Ei) in G4.
    rewrite (thru_chain _ _ _ _ Eb) in G3.
    rewrite (wrc_rc NW _ _ Cb) in *. rewrite (wrc_rc NW _ _ Ci) in *.
    pose proof (ws_entry_in e I) as (_ & BL & _).
    destruct (NW _ _ Cb) as [_ Nb]. destruct (Nb _ BL) as [Nb1 Nb2].
    destruct (NW _ _ Ci) as [_ Ni]. destruct (Ni _ BL) as [Ni1 Ni2].
    rewrite (wrap32_id _ Nb1), (wrap32_id _ Nb2) in *. rewrite (wrap32_id _ Ni1), (wrap32_id _ Ni2) in *.
    destruct (NW _ _ (ch_cons e lb I Cb)) as [Nc _]. cbn [rc] in Nc. rewrite (wrap32_id _ Nc) in G3.
    rewrite G3. cbn [rc]. destruct Ei as (Ei1 & Ei2 & Ei3). rewrite (wrc_rc NW _ _ Ci) in Ei1.
    rewrite Ei2 in H2. rewrite Ei3 in H3. rewrite <- H2, <- H3. lia.
Qed.

(** ** Ties *)

Definition key (e : edge) := (e_entry e, e_start e, e_stop e, e_kanji e).

Definition made_before (e e' : edge) : Prop := exists n n', n < n' /\
  option_map key (nth_error ws n) = Some (key e) /\ option_map key (nth_error ws n') = Some (key e').

Definition tied (l l' : list edge) : Prop := map key l = map key l' \/
  exists z a e z' b e', l = z ++ e :: a /\ l' = z' ++ e' :: b /\ map key z = map key z' /\
    In e ws /\ In e' ws /\ e_stop e = e_stop e' /\ key e <> key e' /\ made_before e e'.

Lemma tied_cons e e' l l' : key e = key e' -> tied l l' -> tied (e :: l) (e' :: l').
Proof.
  intros K [H|(z & a & x & z' & b & x' & -> & -> & H1 & H2)].
  - left. cbn [map]. congruence.
  - right. exists (e :: z), a, x, (e' :: z'), b, x'. split; [reflexivity|]. split; [reflexivity|]. split; [cbn [map]; congruence|exact H2].
Qed.

Lemma key_pen e e' : key e = key e' -> penalty_cost m e = penalty_cost m e'.
Proof.
  intros H. unfold key in H. destruct m as [|p]; [reflexivity|]. cbn [penalty_cost]. unfold penalty_of, num_chars.
  injection H as H2 H3 H4 H5. rewrite H3, H4, H5. reflexivity.
Qed.

Lemma key_dec (e e' : edge) : {key e = key e'} + {key e <> key e'}.
Proof. unfold key. repeat decide equality. Qed.

Lemma thru_exact E : final E -> nowrap -> forall p id re, In id (ends_of ws p) -> (we_left re < a_bsize A)%N ->
  thru E re id = (e_path_cost (nthE E id) + a_conn A (we_right (e_entry (nthE E id))) (we_left re) + penalty_cost m (nthE E id))%Z.
Proof.
  intros F NW p id re H B. destruct (edge_chain E F _ _ H) as (l & C & Ec & _). rewrite (thru_chain _ _ _ _ Ec).
  destruct Ec as (E1 & E2 & E3). rewrite E1, E2, E3, (wrc_rc NW _ _ C). destruct (NW _ _ C) as [_ N1]. destruct (N1 _ B) as [N2 N3].
  rewrite (wrap32_id _ N2), (wrap32_id _ N3). reflexivity.
Qed.

(* the chosen left edge of a word *)
Lemma word_left E n e : final E -> nowrap -> nth_error ws n = Some e ->
  exists b, e_left (nthE E (S (S n))) = Some b /\ In b (ends_of ws (e_start e)) /\
    e_path_cost (nthE E (S (S n))) = (we_cost (e_entry e) + thru E (e_entry e) b)%Z /\
    (forall b', In b' (ends_of ws (e_start e)) -> (thru E (e_entry e) b <= thru E (e_entry e) b')%Z) /\
    (forall b', In b' (ends_of ws (e_start e)) -> b' < b -> (thru E (e_entry e) b < thru E (e_entry e) b')%Z).
Proof.
  intros F NW Hn. destruct (word_final E n e F Hn) as [V SS].
  assert (I : In e ws) by (eapply nth_error_In; exact Hn).
  assert (SE : e_entry (nthE E (S (S n))) = e_entry e) by (unfold static in SS; congruence).
  assert (G : good E (S (S n))).
  { apply (fin_good E F); [lia|]. cbn. assert (n < length ws) by (apply nth_error_Some; congruence). lia. }
  unfold good in G. cbn [pos] in G. rewrite Hn in G.
  assert (NE : ends_of ws (e_start e) <> []).
  { apply reach_ends. unfold starts_reachable in ws_reach. rewrite Forall_forall in ws_reach. apply ws_reach. exact I. }
  destruct (ends_of ws (e_start e)) as [|l0 L0] eqn:EL; [congruence|].
  destruct G as (b & G1 & G2 & G3 & G4 & G5). rewrite SE in *. exists b. split; [exact G2|]. split; [exact G1|]. split; [|auto].
  rewrite <- EL in G1. destruct (edge_chain E F _ _ G1) as (lb & Cb & Eb & _). rewrite (thru_chain _ _ _ _ Eb) in *.
  rewrite (wrc_rc NW _ _ Cb) in *. pose proof (ws_entry_in e I) as (_ & BL & _).
  destruct (NW _ _ Cb) as [_ Nb]. destruct (Nb _ BL) as [Nb1 Nb2]. rewrite (wrap32_id _ Nb1), (wrap32_id _ Nb2) in *.
  destruct (NW _ _ (ch_cons e lb I Cb)) as [Nc _]. cbn [rc] in Nc. rewrite (wrap32_id _ Nc) in G3. exact G3.
Qed.

Lemma word_optimal E n e l : final E -> nowrap -> nth_error ws n = Some e -> chain (e_start e) l ->
  (e_path_cost (nthE E (S (S n))) <= rc (e :: l))%Z.
Proof.
  intros F NW Hn C. destruct (word_left E n e F NW Hn) as (b & _ & _ & EC & MIN & _).
  destruct (edge_optimal E F NW _ _ C) as (id & H1 & H2 & H3 & H4). specialize (MIN id H1).
  assert (I : In e ws) by (eapply nth_error_In; exact Hn). pose proof (ws_entry_in e I) as (_ & BL & _).
  rewrite (thru_exact E F NW _ id _ H1 BL), H2, H3 in MIN. rewrite EC. cbn [rc]. lia.
Qed.

Lemma ends_word p id : In id (ends_of ws p) -> 0 < p -> exists n e, id = S (S n) /\ nth_error ws n = Some e /\ e_stop e = p.
Proof. intros H P. apply ends_in in H as [[-> _]|H]; [lia|exact H]. Qed.

(* the part of a tie before a word (or the end of sentence) with this entry, whose chosen left edge is b *)
Lemma left_tied E re p b ch l' : final E -> nowrap -> (we_left re < a_bsize A)%N ->
  In b (ends_of ws p) -> (forall b', In b' (ends_of ws p) -> (thru E re b <= thru E re b')%Z) ->
  (forall b', In b' (ends_of ws p) -> b' < b -> (thru E re b < thru E re b')%Z) ->
  chain p l' -> (rc l' + a_conn A (last_right l') (we_left re) + last_pen l' <= thru E re b)%Z -> followed E b ch ->
  (forall e r n e0 lid, l' = e :: r -> nth_error ws n = Some e0 -> key e0 = key e ->
     (rc l' <= e_path_cost (nthE E (S (S n))))%Z -> followed E (S (S n)) lid -> tied lid l') ->
  tied ch l'.
Proof.
  intros F NW BL IB MIN FIRST C LE FO IH. destruct C as [|e l I C].
  - apply ends_in in IB as [[_ ->]|(n & e & -> & H2 & H3)].
    + inversion FO; subst. left. reflexivity.
    + rewrite Forall_forall in ws_pos. apply nth_error_In in H2. apply ws_pos in H2. lia.
  - assert (PS : e_start e < e_stop e) by (rewrite Forall_forall in ws_pos; apply ws_pos; exact I).
    pose proof (ends_word _ _ IB ltac:(lia)) as (nb & eb & -> & Hb & Sb).
    apply In_nth_error in I as I'. destruct I' as [n1 H1].
    assert (I1 : In (S (S n1)) (ends_of ws (e_stop e))) by (apply ends_in; right; eauto).
    pose proof (thru_exact E F NW _ _ re IB BL) as T1. pose proof (thru_exact E F NW _ _ re I1 BL) as T2.
    destruct (word_final E nb eb F Hb) as [_ SS1]. destruct (word_final E n1 e F H1) as [_ SS2].
    rewrite (static_pen _ _ SS1) in T1. rewrite (static_pen _ _ SS2) in T2.
    replace (e_entry (nthE E (S (S nb)))) with (e_entry eb) in T1 by (unfold static in SS1; congruence).
    replace (e_entry (nthE E (S (S n1)))) with (e_entry e) in T2 by (unfold static in SS2; congruence).
    cbn [last_right last_pen] in LE.
    pose proof (word_optimal E n1 e l F NW H1 C) as OP. pose proof (MIN _ I1) as M1.
    destruct (key_dec eb e) as [K|K].
    + apply (IH e l nb eb ch eq_refl Hb K); [|exact FO].
      rewrite (key_pen _ _ K) in T1. replace (e_entry eb) with (e_entry e) in T1 by (unfold key in K; congruence). lia.
    + right. inversion FO as [|n e2 b l2 Hn L1 FO2]; subst. rewrite Hb in Hn. injection Hn as <-.
      exists [], l2, eb, [], l, e. split; [reflexivity|]. split; [reflexivity|]. split; [reflexivity|].
      split; [eapply nth_error_In; exact Hb|]. split; [exact I|]. split; [exact Sb|]. split; [exact K|].
      exists nb, n1. rewrite Hb, H1. split; [|split; reflexivity].
      destruct (Nat.lt_trichotomy nb n1) as [L|[->|L]]; [exact L|congruence|].
      specialize (FIRST _ I1 ltac:(lia)). lia.
Qed.

Lemma edge_tied E : final E -> nowrap -> forall p l', chain p l' -> forall e r n e0 lid, l' = e :: r -> nth_error ws n = Some e0 -> key e0 = key e ->
  (rc l' <= e_path_cost (nthE E (S (S n))))%Z -> followed E (S (S n)) lid -> tied lid l'.
Proof.
  intros F NW p l' C. induction C as [|e l I C IH]; intros x r n e0 lid EQ Hn K LE FO; [discriminate|].
  injection EQ as <- <-. inversion FO as [|? ? b ch Hn2 LB FO2]; subst. rewrite Hn in Hn2. injection Hn2 as <-.
  apply tied_cons; [exact K|]. destruct (word_left E n e0 F NW Hn) as (b' & LB' & IB & EC & MIN & FIRST).
  rewrite LB in LB'. injection LB' as <-. pose proof (ws_entry_in e I) as (_ & BL & _).
  assert (KE : e_entry e0 = e_entry e /\ e_start e0 = e_start e) by (unfold key in K; split; congruence). destruct KE as [KE KS].
  rewrite KE, KS in *. apply (left_tied E (e_entry e) (e_start e) b); try assumption. cbn [rc] in LE. lia.
Qed.

Lemma eos_path E : final E -> reachb ws len = true ->
  exists l, chain len l /\
    (forall f, S len < f -> exists i, follow f E 1 = Some (Ok (i :: map path_item l))) /\
    (nowrap -> forall l', chain len l' -> (total l <= total l')%Z) /\
    (nth_error E 1 = Some (nthE E 1) /\
     e_path_cost (nthE E 1) = wrap32 (wrap32 (wrap32 (wrc l + a_conn A (last_right l) 0%N) + last_pen l))) /\
    (nowrap -> forall l', chain len l' -> (total l' <= total l)%Z -> tied l l').
Proof.
  intros F RE.
  assert (G : good E 1) by (apply (fin_good E F); cbn; lia).
  unfold good in G. cbn [pos] in G. pose proof (reach_ends _ RE) as NE.
  destruct (ends_of ws len) as [|l0 L0] eqn:EL; [congruence|].
  destruct G as (b & G1 & G2 & G3 & G4 & G5).
  rewrite <- EL in G1. destruct (edge_chain E F _ _ G1) as (lb & Cb & Eb & Fb & FOb).
  destruct (same_static_nth E E0 1 default_edge (fin_static E F) eq_refl) as (e1 & V & SS).
  rewrite (nthE_nth _ _ _ V) in *.
  assert (SE : e_entry e1 = default_word_entry) by (unfold static in SS; cbn in SS; congruence).
  exists lb. split; [exact Cb|]. split; [|split; [|split; [split; [exact V|]|]]].
  - intros [|f] Hf; [lia|]. eexists. cbn [follow]. rewrite V, G2, Fb by lia. cbn [bind]. reflexivity.
  - intros NW l' C'. destruct (edge_optimal E F NW _ _ C') as (id & H1 & H2 & H3 & H4).
    destruct (edge_chain E F _ _ H1) as (li & Ci & Ei & _).
    rewrite EL in H1. specialize (G4 id H1). rewrite SE in G4.
    rewrite (thru_chain _ _ _ _ Eb), (thru_chain _ _ _ _ Ei) in G4.
    rewrite (wrc_rc NW _ _ Cb) in *. rewrite (wrc_rc NW _ _ Ci) in *. cbn [we_left default_word_entry] in G4.
    assert (BL : (0 < a_bsize A)%N) by apply (rep_sizes t A R).
    destruct (NW _ _ Cb) as [_ Nb]. destruct (Nb _ BL) as [Nb1 Nb2].
    destruct (NW _ _ Ci) as [_ Ni]. destruct (Ni _ BL) as [Ni1 Ni2].
    rewrite (wrap32_id _ Nb1), (wrap32_id _ Nb2) in *. rewrite (wrap32_id _ Ni1), (wrap32_id _ Ni2) in *.
    destruct Ei as (Ei1 & Ei2 & Ei3). rewrite (wrc_rc NW _ _ Ci) in Ei1.
    unfold total. rewrite Ei2 in H2. rewrite Ei3 in H3. rewrite <- H2, <- H3. lia.
  - rewrite G3, (thru_chain _ _ _ _ Eb), SE. reflexivity.
  - intros NW l' C' LE. rewrite SE in *. rewrite <- EL in *.
    assert (BL : (we_left default_word_entry < a_bsize A)%N) by apply (rep_sizes t A R).
    apply (left_tied E default_word_entry len b); try assumption; [|apply (edge_tied E F NW len); exact C'].
    rewrite (thru_exact E F NW _ _ _ G1 BL). destruct Eb as (E1 & E2 & E3). rewrite E1, E2, E3, (wrc_rc NW _ _ Cb). exact LE.
Qed.

Lemma eos_no_path E : final E -> reachb ws len = false -> forall f, 0 < f -> follow f E 1 = Some (Ok []).
Proof.
  intros F RE [|f] Hf; [lia|].
  assert (G : good E 1) by (apply (fin_good E F); cbn; lia).
  unfold good in G. cbn [pos] in G. rewrite ends_of_reach in RE.
  destruct (ends_of ws len); [|discriminate]. cbn [follow]. rewrite G. reflexivity.
Qed.

End Vit.
