(** Tokenization with any dictionary data at all: it ends, gives no error value, and what it gives is cut from the text. *)
From Coq Require Import List NArith ZArith Bool Lia ZifyBool ZifyNat ZifyN.
From Verif Require Import MBase MUtf8 MText MCodec MDict MCharDef MUnk MLattice MTokenizer STok LBase LUtf8 LScan LLat LVit LTok.
Import ListNotations.

(** ** No error values *)

Definition no_err {A} (r : res A) : Prop := forall k, r <> Err k.

Lemma no_err_ok {A} (a : A) : no_err (Ok a).
Proof. intros k H. discriminate. Qed.
Lemma no_err_panic {A} : no_err (@Panic A).
Proof. intros k H. discriminate. Qed.

Lemma no_err_bind {A B} (r : res A) (f : A -> res B) : no_err r -> (forall a, no_err (f a)) -> no_err (bind r f).
Proof. intros H F. destruct r as [a|k|]; cbn [bind]; [apply F|exfalso; exact (H k eq_refl)|apply no_err_panic]. Qed.

Lemma no_err_mapM {A B} (f : A -> res B) l : (forall a, no_err (f a)) -> no_err (mapM f l).
Proof.
  intros F. induction l as [|x l IH]; cbn [mapM]; [apply no_err_ok|].
  apply no_err_bind; [apply F|]. intros y. apply no_err_bind; [exact IH|]. intros ys. apply no_err_ok.
Qed.

Lemma no_err_foldM {A S} (f : S -> A -> res S) l : (forall s a, no_err (f s a)) -> forall s, no_err (foldM f l s).
Proof.
  intros F. induction l as [|x l IH]; intros s; cbn [foldM]; [apply no_err_ok|].
  apply no_err_bind; [apply F|]. exact IH.
Qed.

Lemma no_err_idx {A} (l : list A) i : no_err (idx l i).
Proof. unfold idx. destruct (nth_error l i); [apply no_err_ok|apply no_err_panic]. Qed.
Lemma no_err_slice {A} (l : list A) a b : no_err (slice l a b).
Proof. unfold slice. destruct (_ && _)%bool; [apply no_err_ok|apply no_err_panic]. Qed.
Lemma no_err_slice_from {A} (l : list A) a : no_err (slice_from l a).
Proof. unfold slice_from. destruct (Nat.leb _ _); [apply no_err_ok|apply no_err_panic]. Qed.
Lemma no_err_read_u n bs : no_err (read_u n bs).
Proof. unfold read_u. destruct (Nat.ltb _ _); [apply no_err_panic|apply no_err_ok]. Qed.
Lemma no_err_read_i16 bs : no_err (read_i16 bs).
Proof. unfold read_i16. apply no_err_bind; [apply no_err_read_u|]. intros v. apply no_err_ok. Qed.

Lemma no_err_str_from s n : no_err (str_from s n).
Proof. destruct (str_slices s) as (_ & _ & _ & H). destruct (H n) as [[p ->]| ->]; [apply no_err_ok|apply no_err_panic]. Qed.
Lemma no_err_str_to s n : no_err (str_to s n).
Proof. destruct (str_slices s) as (_ & _ & H & _). destruct (H n) as [[p ->]| ->]; [apply no_err_ok|apply no_err_panic]. Qed.
Lemma no_err_str_range s a b : no_err (str_range s a b).
Proof.
  unfold str_range. destruct (Nat.ltb b a); [apply no_err_panic|]. apply no_err_bind; [apply no_err_str_from|]. intros u. apply no_err_str_to.
Qed.

Lemma no_err_deserialize bs s : no_err (we_deserialize bs s).
Proof.
  unfold we_deserialize.
  repeat (apply no_err_bind; [first [apply no_err_slice|apply no_err_read_u|apply no_err_read_i16]|intros ?]). apply no_err_ok.
Qed.

Lemma no_err_pd_prefix d s : no_err (pd_prefix d s).
Proof.
  unfold pd_prefix. apply no_err_bind; [|intros l; apply no_err_ok]. apply no_err_mapM. intros [v n].
  apply no_err_bind; [|intros es; apply no_err_ok]. unfold pd_entries. apply no_err_bind; [apply no_err_slice_from|]. intros data.
  apply no_err_mapM. intros i. apply no_err_bind; [apply no_err_slice_from|]. intros bs. apply no_err_deserialize.
Qed.

Lemma no_err_push v i x : no_err (push_at v i x).
Proof. unfold push_at. apply no_err_bind; [apply no_err_idx|]. intros c. apply no_err_ok. Qed.

Lemma no_err_add_edge l e : no_err (add_edge_in_lattice l e).
Proof.
  unfold add_edge_in_lattice, add_edge. apply no_err_bind; [apply no_err_push|]. intros s. apply no_err_bind; [apply no_err_push|].
  intros u. apply no_err_ok.
Qed.

Lemma no_err_dict_edges d start suffix st : no_err (add_dict_edges d start suffix st).
Proof.
  unfold add_dict_edges. apply no_err_bind; [apply no_err_pd_prefix|]. intros ws. apply no_err_foldM. intros [l found] [n e].
  apply no_err_bind; [|intros x; apply no_err_bind; [apply no_err_add_edge|intros; apply no_err_ok]].
  unfold dict_edge. apply no_err_bind; [apply no_err_str_to|]. intros p. apply no_err_ok.
Qed.

Lemma no_err_categories cd c : no_err (lookup_categories cd c).
Proof.
  unfold lookup_categories, lt_eval, lt_eval_with. destruct (binary_search _ c) as [i|[|i]]; [apply no_err_idx|apply no_err_panic|apply no_err_idx].
Qed.

Lemma no_err_group cd k ord s : no_err (group_len cd k ord s).
Proof.
  induction s as [|c s IH]; cbn [group_len]; [apply no_err_ok|]. apply no_err_bind; [apply no_err_categories|]. intros cats.
  destruct (nth_error cats ord) as [j|]; [|apply no_err_ok]. destruct (Nat.eqb j k); [|apply no_err_ok].
  apply no_err_bind; [exact IH|]. intros n. apply no_err_ok.
Qed.

Lemma no_err_unknown cd ud k ord ue start suffix found l : no_err (process_unknown_word cd ud k ord ue start suffix found l).
Proof.
  unfold process_unknown_word. apply no_err_bind; [apply no_err_idx|]. intros data. apply no_err_bind.
  { destruct (_ || _); [|apply no_err_ok]. destruct (cd_group data); [|apply no_err_ok].
    apply no_err_bind; [apply no_err_group|]. intros n. apply no_err_ok. }
  intros n. destruct (Nat.ltb 0 n); [|apply no_err_ok]. apply no_err_bind; [apply no_err_idx|]. intros ids.
  apply no_err_bind; [|intros x; apply no_err_ok]. apply no_err_foldM. intros l0 id. apply no_err_bind; [apply no_err_idx|].
  intros e. apply no_err_add_edge.
Qed.

Lemma no_err_step d u cd ud text m st start : no_err (set_text_step d u cd ud text m st start).
Proof.
  unfold set_text_step. destruct st as [l ue]. apply no_err_bind; [apply no_err_idx|]. intros [|x ends]; [apply no_err_ok|].
  apply no_err_bind; [apply no_err_str_from|]. intros suffix.
  apply no_err_bind; [destruct u; [apply no_err_dict_edges|apply no_err_ok]|]. intros [l1 f1].
  apply no_err_bind; [apply no_err_dict_edges|]. intros [l2 f2].
  destruct (_ || _); [|apply no_err_ok]. destruct suffix as [|c s]; [apply no_err_ok|].
  apply no_err_bind; [apply no_err_categories|]. intros cats. apply no_err_foldM. intros [l3 ue3] [ord k]. apply no_err_unknown.
Qed.

Lemma no_err_set_text l d u cd ud text m : no_err (set_text l d u cd ud text m).
Proof.
  unfold set_text, add_edge. destruct (negb _); [apply no_err_panic|].
  apply no_err_bind; [apply no_err_push|]. intros x. apply no_err_bind; [apply no_err_push|]. intros y.
  apply no_err_bind; [|intros [z w]; apply no_err_ok]. apply no_err_foldM. intros st start. apply no_err_step.
Qed.

Lemma no_err_through cm m es re id : no_err (through_cost cm m es re id).
Proof.
  unfold through_cost. apply no_err_bind; [apply no_err_idx|]. intros le. apply no_err_bind; [|intros c; apply no_err_ok].
  unfold cm_cost. destruct (_ <? _)%N; [apply no_err_panic|apply no_err_read_i16].
Qed.

Lemma no_err_costs cm m l : no_err (calculate_path_costs cm m l).
Proof.
  unfold calculate_path_costs. apply no_err_bind; [|intros es; apply no_err_ok]. apply no_err_foldM. intros es i.
  apply no_err_bind; [apply no_err_idx|]. intros lefts. apply no_err_bind; [apply no_err_idx|]. intros rights.
  apply no_err_foldM. intros E r. unfold path_cost_step. apply no_err_bind; [apply no_err_idx|]. intros re.
  apply no_err_bind; [apply no_err_mapM; apply no_err_through|]. intros cs. destruct (min_by_cost cs) as [[b bl]|]; apply no_err_ok.
Qed.

Lemma no_err_sentence s : forall offs bp p, no_err (sentence_tokens s offs bp p).
Proof.
  induction offs as [|[a w] offs IH]; intros bp p; cbn [sentence_tokens]; [apply no_err_ok|].
  apply no_err_bind; [apply no_err_str_range|]. intros sf. apply no_err_bind; [apply IH|]. intros [[ts b] q]. apply no_err_ok.
Qed.

(** ** The lattice, whatever was found *)

Definition edge_at (start stop : nat) (e : edge) : Prop := e_start e = start /\ start < e_stop e /\ e_stop e <= stop.

Lemma search_pos da key v n : In (v, n) (common_prefix_search da key) -> 1 <= n.
Proof.
  unfold common_prefix_search. intros H. apply in_flat_map in H as (i & I & H). apply in_seq in I.
  destruct (exact_match_search da (firstn i key)); [|destruct H]. destruct H as [H|[]]. injection H as _ <-. lia.
Qed.

Lemma pd_prefix_pos d s ws : pd_prefix d s = Ok ws -> Forall (fun w => 1 <= fst w) ws.
Proof.
  unfold pd_prefix. intros H. apply bind_ok in H as (l & M & H). injection H as <-.
  apply mapM_ok_inv in M. apply Forall_forall. intros w I. apply in_concat in I as (x & Ix & I).
  assert (G : forall a b, Forall2 (fun '(v, n) y => (do es <- pd_entries d v; Ok (map (fun e => (n, e)) es)) = Ok y) a b ->
    (forall v n, In (v, n) a -> 1 <= n) -> In x b -> 1 <= fst w).
  { intros a b F. induction F as [|[v n] y a b H F IH]; intros P J; [destruct J|].
    destruct J as [<-|J]; [|apply IH; [intros v' n' K; apply (P v'); right; exact K|exact J]].
    apply bind_ok in H as (es & _ & H). injection H as <-. apply in_map_iff in I as (e & <- & _).
    cbn [fst]. apply (P v). left. reflexivity. }
  apply (G (common_prefix_search (pd_da d) (utf8 s)) l); [|intros v n; apply search_pos|exact Ix].
  clear - M. induction M as [|[v n] y a b H F IH]; constructor; auto.
Qed.

Lemma dict_edges_lat d len cap start suffix es f l' f' : start + blen suffix <= cap ->
  add_dict_edges d start suffix (lat_of len cap es, f) = Ok (l', f') ->
  exists new, l' = lat_of len cap (es ++ new) /\ Forall (edge_at start (start + blen suffix)) new.
Proof.
  unfold add_dict_edges. intros C H. apply bind_ok in H as (ws & P & H). apply pd_prefix_pos in P.
  revert es f H. induction P as [|[n e] ws P1 P IH]; intros es f H; cbn [foldM] in H.
  - injection H as <- _. exists []. rewrite app_nil_r. auto.
  - apply bind_ok in H as (st & H1 & H). apply bind_ok in H1 as (ed & D & H1). apply bind_ok in H1 as (l1 & L & H1). injection H1 as <-.
    unfold dict_edge in D. apply bind_ok in D as (p & T & D). injection D as <-.
    apply str_to_inv in T as (r & -> & B). rewrite blen_app in C. cbn [fst] in P1.
    rewrite add_edge_lat in L by (cbn [e_start e_stop]; lia). injection L as <-.
    apply IH in H as (new & -> & F). eexists (_ :: new). rewrite <- app_assoc. split; [reflexivity|]. constructor; [|exact F].
    rewrite blen_app. unfold edge_at. cbn [e_start e_stop]. lia.
Qed.

Lemma blen_firstn_pos n s : 1 <= n -> s <> [] -> 1 <= blen (firstn n s) /\ blen (firstn n s) <= blen s.
Proof.
  intros N NE. destruct s as [|c s]; [congruence|]. destruct n as [|n]; [lia|]. cbn [firstn blen]. pose proof (width_pos c).
  pose proof (firstn_skipn n s) as E. apply (f_equal blen) in E. rewrite blen_app in E. lia.
Qed.

Lemma unknown_lat cd ud k ord ue len cap start suffix found es l' ue' : start + blen suffix <= cap -> suffix <> [] ->
  process_unknown_word cd ud k ord ue start suffix found (lat_of len cap es) = Ok (l', ue') ->
  exists new, l' = lat_of len cap (es ++ new) /\ Forall (edge_at start (start + blen suffix)) new.
Proof.
  unfold process_unknown_word. intros C NE H. apply bind_ok in H as (data & _ & H). apply bind_ok in H as (n & _ & H).
  destruct (Nat.ltb 0 n) eqn:N0.
  - apply bind_ok in H as (ids & _ & H). apply bind_ok in H as (l1 & L & H). injection H as <- _.
    apply Nat.ltb_lt in N0. destruct (blen_firstn_pos n suffix N0 NE) as [B1 B2].
    revert es L. induction ids as [|id ids IH]; intros es L; cbn [foldM] in L.
    + injection L as <-. exists []. rewrite app_nil_r. auto.
    + apply bind_ok in L as (l2 & L1 & L). apply bind_ok in L1 as (e & _ & L1).
      rewrite add_edge_lat in L1 by (cbn [e_start e_stop]; lia). injection L1 as <-.
      apply IH in L as (new & -> & F). eexists (_ :: new). rewrite <- app_assoc. split; [reflexivity|]. constructor; [|exact F].
      unfold edge_at. cbn [e_start e_stop]. lia.
  - injection H as <- _. exists []. rewrite app_nil_r. auto.
Qed.

Lemma step_lat d u cd ud text m cap es ue start l' ue' : start < blen text -> blen text <= cap ->
  set_text_step d u cd ud text m (lat_of (blen text) cap es, ue) start = Ok (l', ue') ->
  exists new, l' = lat_of (blen text) cap (es ++ new) /\ Forall (edge_at start (blen text)) new /\ (new <> [] -> reachb es start = true).
Proof.
  intros L C H. unfold set_text_step in H. unfold lat_of at 1 in H. cbn [ends_at] in H. unfold idx in H.
  rewrite nth_error_map_seq in H by lia. cbn [bind Nat.add] in H.
  destruct (ends_of es start) as [|x0 xs] eqn:E.
  { injection H as <- _. exists []. rewrite app_nil_r. split; [reflexivity|]. split; [constructor|]. congruence. }
  assert (RB : reachb es start = true) by (rewrite ends_of_reach, E; reflexivity).
  apply bind_ok in H as (suffix & SF & H). apply str_from_inv in SF as (pre & -> & B). rewrite blen_app in *.
  assert (NE : suffix <> []) by (intros ->; cbn [blen] in L; lia).
  assert (Q : start + blen suffix = blen pre + blen suffix) by lia.
  apply bind_ok in H as ([l1 f1] & H1 & H).
  assert (K1 : exists n1, l1 = lat_of (blen pre + blen suffix) cap (es ++ n1) /\ Forall (edge_at start (blen pre + blen suffix)) n1).
  { destruct u as [u|].
    - rewrite <- Q in *. apply (dict_edges_lat u _ _ _ _ _ _ _ _ C H1).
    - injection H1 as <- _. exists []. rewrite app_nil_r. auto. }
  clear H1. destruct K1 as (n1 & -> & F1).
  apply bind_ok in H as ([l2 f2] & H1 & H).
  rewrite <- Q in *. destruct (dict_edges_lat d _ _ _ _ _ _ _ _ C H1) as (n2 & -> & F2). clear H1.
  rewrite <- app_assoc in H.
  destruct (is_search m || _).
  2:{ injection H as <- _. exists (n1 ++ n2). split; [reflexivity|]. split; [apply Forall_app; auto|auto]. }
  destruct suffix as [|c s] eqn:SS; [congruence|]. rewrite <- SS in *.
  apply bind_ok in H as (cats & _ & H).
  assert (G : forall cs es0 ue0, foldM (fun '(l, ue) '(ord, category) => process_unknown_word cd ud category ord ue start suffix f2 l) cs
      (lat_of (start + blen suffix) cap es0, ue0) = Ok (l', ue') ->
    exists new, l' = lat_of (start + blen suffix) cap (es0 ++ new) /\ Forall (edge_at start (start + blen suffix)) new).
  { induction cs as [|[ord k] cs IH]; intros es0 ue0 HF; cbn [foldM] in HF.
    - injection HF as <- _. exists []. rewrite app_nil_r. auto.
    - apply bind_ok in HF as ([l3 ue3] & H3 & HF).
      destruct (unknown_lat _ _ _ _ _ _ _ _ _ _ _ _ _ C ltac:(congruence) H3) as (n3 & -> & F3).
      destruct (IH _ _ HF) as (n4 & -> & F4). exists (n3 ++ n4). rewrite app_assoc. split; [reflexivity|]. apply Forall_app. auto. }
  destruct (G _ _ _ H) as (n3 & -> & F3). exists (n1 ++ n2 ++ n3). rewrite <- !app_assoc. split; [reflexivity|].
  split; [repeat (apply Forall_app; split); assumption|auto].
Qed.

Definition proper_edges (len : nat) (es : list edge) : Prop :=
  Forall (fun e => e_start e < e_stop e /\ e_stop e <= len) es /\ starts_reachable es.

Lemma set_text_lat l d u cd ud text m l' : text <> [] -> reusable l -> set_text l d u cd ud text m = Ok l' ->
  exists es, l' = lat_of (blen text) (Nat.max (capacity l) (blen text)) es /\ proper_edges (blen text) es.
Proof.
  intros NE RU H. pose proof (blen_0 text) as B0.
  assert (B : 0 < blen text) by (destruct (Nat.eq_dec (blen text) 0); [tauto|lia]).
  unfold set_text in H. rewrite set_capacity_reusable in H by assumption.
  set (cap := Nat.max (capacity l) (blen text)) in *.
  unfold add_edge in H. cbn [edges length app capacity starts_at ends_at Nat.eqb negb] in H.
  rewrite !(repeat_map_seq _ (S cap) 0) in H.
  rewrite !push_at_map in H by lia. cbn [bind] in H.
  match type of H with context [Lattice cap ?x ?y ?z] =>
    replace (Lattice cap x y z) with (lat_of (blen text) cap []) in H end.
  2:{ unfold lat_of. f_equal; apply map_ext; intros j; unfold starts_of, ends_of; cbn; destruct (Nat.eqb j _); reflexivity. }
  apply bind_ok in H as ([l1 ue] & H & K). injection K as <-.
  assert (G : forall ps es ue0, Forall (fun p => p < blen text) ps -> proper_edges (blen text) es ->
    foldM (set_text_step d u cd ud text m) ps (lat_of (blen text) cap es, ue0) = Ok (l1, ue) ->
    exists es', l1 = lat_of (blen text) cap es' /\ proper_edges (blen text) es').
  { induction ps as [|p ps IH]; intros es ue0 P W HF; cbn [foldM] in HF.
    - injection HF as <- _. exists es. auto.
    - apply bind_ok in HF as ([l2 ue2] & H2 & HF).
      destruct (step_lat _ _ _ _ _ _ _ _ _ _ _ _ (Forall_inv P) (Nat.le_max_r _ _) H2) as (new & -> & F & RB).
      apply (IH _ _ (Forall_inv_tail P)) in HF; [exact HF|]. destruct W as [W1 W2]. split.
      + apply Forall_app. split; [exact W1|]. eapply Forall_impl; [|exact F]. unfold edge_at. lia.
      + unfold starts_reachable in *. apply Forall_app. split.
        * eapply Forall_impl; [|exact W2]. cbn beta. intros e. apply reachb_app.
        * apply Forall_forall. intros e I. rewrite Forall_forall in F. destruct (F e I) as [-> _]. apply reachb_app. apply RB. intros ->. destruct I. }
  apply (G _ _ _) in H; [exact H| |].
  - apply Forall_forall. intros p I. apply in_seq in I. lia.
  - split; constructor.
Qed.

(** ** Paths *)

Section Paths.
Variables (cm : conn_matrix) (m : mode) (len cap : nat) (ws : list edge).
Hypothesis cap_len : len <= cap.
Hypothesis W : proper_edges len ws.

Let E0 := default_edge :: default_edge :: ws.

Definition lefts_ok (E : list edge) (id : nat) : Prop :=
  match ends_of ws (pos len ws id) with
  | [] => nth_error E id = nth_error E0 id
  | L => exists l, In l L /\ e_left (nthE E id) = Some l
  end.

Record linked (done : list nat) (E : list edge) : Prop := {
  lk_static : same_static E E0;
  lk_bos : ~ In 0 done;
  lk_rest : forall id, ~ In id done -> nth_error E id = nth_error E0 id;
  lk_good : forall id, In id done -> lefts_ok E id
}.

Lemma step_linked i done E r E' : linked done E -> In r (starts_of len ws i) ->
  path_cost_step cm m (ends_of ws i) E r = Ok E' -> linked (r :: done) E'.
Proof.
  intros [S NB RST G] Hr H. pose proof (starts_pos len ws _ _ Hr) as (Pr & Nr & Lr).
  assert (LE : length E = length E0) by (rewrite <- (map_length static E), S, map_length; reflexivity).
  unfold path_cost_step in H. apply bind_ok in H as (re & V & H). apply idx_ok in V. apply bind_ok in H as (cs & M & H).
  apply mapM_ok_inv in M. pose proof (min_by_cost_spec cs) as MS. destruct (min_by_cost cs) as [[b bl]|].
  - injection H as <-. destruct MS as (I & _).
    assert (IL : In bl (ends_of ws i)).
    { clear - M I. induction M as [|x y xs ys Q M IH]; [destruct I|]. destruct I as [->|I]; [|right; auto].
      left. unfold through_cost in Q. apply bind_ok in Q as (le & _ & Q). apply bind_ok in Q as (c & _ & Q). congruence. }
    set (e' := Edge _ _ _ _ _ _ _). constructor.
    + unfold same_static. rewrite (upd_static E r re e' V); [exact S|reflexivity].
    + intros [Q|Q]; [congruence|exact (NB Q)].
    + intros id Q. rewrite nth_error_upd_neq; [apply RST; intros J; apply Q; right; exact J|]. intros ->. apply Q. left. reflexivity.
    + intros id Q. unfold lefts_ok. destruct (Nat.eq_dec id r) as [->|N].
      * rewrite Pr. rewrite nthE_upd_eq by (unfold E0 in *; lia). destruct (ends_of ws i) as [|l0 L]; [destruct IL|].
        exists bl. split; [exact IL|reflexivity].
      * destruct Q as [Q|Q]; [congruence|]. specialize (G id Q). unfold lefts_ok in G.
        destruct (ends_of ws (pos len ws id)); [rewrite nth_error_upd_neq by congruence; exact G|].
        rewrite nthE_upd_neq by exact N. exact G.
  - injection H as <-. subst cs. assert (EL : ends_of ws i = []) by (inversion M; reflexivity). constructor; auto.
    + intros [Q|Q]; [congruence|exact (NB Q)].
    + intros id Q. apply RST. intros J. apply Q. right. exact J.
    + intros id [<-|Q]; [|apply G; exact Q]. destruct (in_dec Nat.eq_dec r done) as [D|D]; [apply G; exact D|].
      unfold lefts_ok. rewrite Pr, EL. apply RST. exact D.
Qed.

Lemma inner_linked i rs : forall done E E', linked done E -> (forall r, In r rs -> In r (starts_of len ws i)) ->
  foldM (path_cost_step cm m (ends_of ws i)) rs E = Ok E' -> linked (rev rs ++ done) E'.
Proof.
  induction rs as [|r rs IH]; intros done E E' K P H; cbn [foldM] in H.
  - injection H as <-. exact K.
  - apply bind_ok in H as (E1 & H1 & H). cbn [rev]. rewrite <- app_assoc. cbn [app].
    apply (IH (r :: done) E1 E'); [apply (step_linked i done E r E1 K); [apply P; left; reflexivity|exact H1]| |exact H].
    intros x Q. apply P. right. exact Q.
Qed.

Lemma outer_linked n : forall i done E E', i + n = S cap -> linked done E ->
  foldM (fun es i =>
             do lefts <- idx (ends_at (lat_of len cap ws)) i;
             do rights <- idx (starts_at (lat_of len cap ws)) i;
             foldM (path_cost_step cm m lefts) rights es) (seq i n) E = Ok E' ->
  exists done', linked done' E' /\ (forall id, In id done -> In id done') /\
    (forall j id, i <= j <= cap -> In id (starts_of len ws j) -> In id done').
Proof.
  induction n as [|n IH]; intros i done E E' EQ K H; cbn [seq foldM] in H.
  - injection H as <-. exists done. split; [exact K|]. split; [auto|]. intros j id Q. lia.
  - apply bind_ok in H as (E1 & H1 & H). unfold lat_of in H1 at 1 2. cbn [ends_at starts_at] in H1. unfold idx in H1.
    rewrite !nth_error_map_seq in H1 by lia. cbn [bind Nat.add] in H1.
    apply (inner_linked i _ done E E1 K (fun r Q => Q)) in H1.
    destruct (IH (S i) _ _ _ ltac:(lia) H1 H) as (done2 & K2 & M2 & N2). exists done2. split; [exact K2|]. split.
    + intros id Q. apply M2. apply in_app_iff. auto.
    + intros j id J Q. destruct (Nat.eq_dec j i) as [->|N]; [|apply (N2 j); [lia|exact Q]].
      apply M2. apply in_app_iff. left. rewrite <- in_rev. exact Q.
Qed.

Lemma costs_linked l2 : calculate_path_costs cm m (lat_of len cap ws) = Ok l2 ->
  exists E, l2 = Lattice cap E (starts_at (lat_of len cap ws)) (ends_at (lat_of len cap ws)) /\
    same_static E E0 /\ nth_error E 0 = Some default_edge /\ forall id, id <> 0 -> id < length E0 -> lefts_ok E id.
Proof.
  unfold calculate_path_costs. intros H. apply bind_ok in H as (E & H & K). injection K as <-.
  assert (L : length (starts_at (lat_of len cap ws)) = S cap) by (unfold lat_of; cbn [starts_at]; rewrite map_length, seq_length; reflexivity).
  rewrite L in H. change (edges (lat_of len cap ws)) with E0 in H.
  assert (K0 : linked [] E0) by (constructor; [reflexivity|auto|auto|intros id []]).
  destruct (outer_linked (S cap) 0 [] E0 E eq_refl K0 H) as (done & [I1 I2 I3 I4] & _ & D).
  exists E. split; [reflexivity|]. split; [exact I1|]. split; [rewrite I3 by exact I2; reflexivity|].
  intros id N B. apply I4. destruct W as [WP _]. apply (D (pos len ws id)).
  - destruct id as [|[|n]]; cbn; [lia|lia|]. destruct (nth_error ws n) as [e|] eqn:E1; [|lia].
    rewrite Forall_forall in WP. apply nth_error_In in E1. apply WP in E1. lia.
  - apply starts_in. destruct id as [|[|n]]; [congruence|auto|]. right. cbn in B.
    destruct (nth_error ws n) as [e|] eqn:E1.
    + exists n, e. cbn. rewrite E1. auto.
    + apply nth_error_None in E1. lia.
Qed.

(* offsets that cut the bytes from a to c into non-empty pieces *)
Inductive rising : nat -> nat -> list (nat * word_id) -> Prop :=
| ri_nil a : rising a a []
| ri_cons a b c w l : a < b -> rising b c l -> rising a c ((a, w) :: l).

Lemma rising_snoc a b l : rising a b l -> forall c w, b < c -> rising a c (l ++ [(b, w)]).
Proof.
  induction 1 as [a|a b c w l L R IH]; intros d x Q; cbn [app].
  - apply (ri_cons a d d); [exact Q|constructor].
  - apply (ri_cons a b d); [exact L|apply IH; exact Q].
Qed.

Section Final.
Variable E : list edge.
Hypothesis ES : same_static E E0.
Hypothesis EB : nth_error E 0 = Some default_edge.
Hypothesis EL : forall id, id <> 0 -> id < length E0 -> lefts_ok E id.

Lemma follow_rising p : forall id, In id (ends_of ws p) ->
  exists its, rising 0 p (rev its) /\ forall f, p < f -> follow f E id = Some (Ok its).
Proof.
  induction p as [p IH] using lt_wf_ind. intros id H. apply ends_in in H as [[-> ->]|(n & e & -> & Hn & Hs)].
  - exists []. split; [constructor|]. intros [|f] Q; [lia|]. cbn [follow]. rewrite EB. reflexivity.
  - destruct W as [WP WR]. assert (I : In e ws) by (eapply nth_error_In; exact Hn).
    assert (WE := WP). rewrite Forall_forall in WE. specialize (WE e I).
    destruct (same_static_nth E E0 (S (S n)) e ES Hn) as (e1 & V & SS).
    assert (ST : e_start e1 = e_start e) by (unfold static in SS; congruence).
    assert (G : lefts_ok E (S (S n))).
    { apply EL; [lia|]. unfold E0. cbn [length]. assert (n < length ws) by (apply nth_error_Some; congruence). lia. }
    unfold lefts_ok in G. cbn [pos] in G. rewrite Hn in G.
    assert (RE : reachb ws (e_start e) = true).
    { unfold starts_reachable in WR. rewrite Forall_forall in WR. apply WR. exact I. }
    rewrite ends_of_reach in RE. destruct (ends_of ws (e_start e)) as [|l0 L0] eqn:EE; [discriminate|].
    destruct G as (b & G1 & G2). rewrite <- EE in G1. rewrite (nthE_nth _ _ _ V) in G2.
    destruct (IH (e_start e) ltac:(lia) b G1) as (its & RI & FO).
    exists ((e_start e1, we_id (e_entry e1)) :: its). cbn [rev]. rewrite ST. split.
    + apply rising_snoc; [exact RI|lia].
    + intros [|f] Q; [lia|]. cbn [follow]. rewrite V, G2, FO by lia. cbn [bind]. rewrite ST. reflexivity.
Qed.

Lemma follow_eos : exists its, (its = [] \/ exists w, its = (0, w) :: tl its /\ rising 0 len (rev (tl its))) /\
  forall f, S len < f -> follow f E 1 = Some (Ok its).
Proof.
  destruct (same_static_nth E E0 1 default_edge ES eq_refl) as (e1 & V & SS).
  assert (ST : e_start e1 = 0) by (unfold static in SS; cbn in SS; congruence).
  assert (G : lefts_ok E 1) by (apply EL; [lia|unfold E0; cbn; lia]).
  unfold lefts_ok in G. cbn [pos] in G. destruct (ends_of ws len) as [|l0 L0] eqn:EE.
  - exists []. split; [left; reflexivity|]. intros [|f] Q; [lia|]. cbn [follow]. rewrite G. reflexivity.
  - destruct G as (b & G1 & G2). rewrite <- EE in G1. rewrite (nthE_nth _ _ _ V) in G2.
    destruct (follow_rising len b G1) as (its & RI & FO).
    exists ((0, we_id (e_entry e1)) :: its). split.
    + right. exists (we_id (e_entry e1)). cbn [tl]. auto.
    + intros [|f] Q; [lia|]. cbn [follow]. rewrite V, G2, FO by lia. cbn [bind]. rewrite ST. reflexivity.
Qed.
End Final.
End Paths.

(** ** Sentences and texts *)

Lemma tokens_cut s offs : forall pre rest bp p r, s = pre ++ rest -> rising (blen pre) (blen s) offs ->
  sentence_tokens s offs bp p = Ok r -> exists ts, r = (ts, bp + blen rest, p + length ts) /\ tiles_from bp p rest ts.
Proof.
  induction offs as [|[a w] offs IH]; intros pre rest bp p r E RI H; cbn [sentence_tokens] in H.
  - injection H as <-. inversion RI as [x Q1 Q2 Q3|]; subst. rewrite blen_app in *. 
    assert (B : rest = []) by (apply blen_0; lia). subst. exists []. cbn. rewrite !Nat.add_0_r. auto.
  - inversion RI as [|? b ? ? ? L R]; subst.
    assert (NX : match offs with [] => blen (pre ++ rest) | (n, _) :: _ => n end = b).
    { destruct offs as [|[n w'] offs]; inversion R; subst; reflexivity. }
    rewrite NX in H. apply bind_ok in H as (sf & SR & H). apply bind_ok in H as ([[ts b1] p1] & H1 & H). injection H as <-.
    apply str_range_inv in SR as (x & y & Q & B1 & B2).
    apply app_same_blen in Q as [<- ->]; [|congruence].
    assert (SN : sf <> []) by (intros ->; cbn [blen] in B2; lia).
    apply (IH (pre ++ sf) y) in H1; [|rewrite <- app_assoc; reflexivity|rewrite blen_app; replace (blen pre + blen sf) with b by lia; exact R].
    destruct H1 as (ts1 & Q & TI). injection Q as -> -> ->.
    exists (Token sf bp (bp + blen sf) p 1 w :: ts1). cbn [length]. rewrite blen_app. split; [f_equal; [f_equal; lia|lia]|].
    cbn [tiles_from tk_text tk_start tk_end tk_position tk_position_length]. repeat split; auto. exists y. auto.
Qed.

Lemma sentence_any t l toks bp p s : reusable l -> s <> [] ->
  exists r, tokenize_sentence t (l, toks, bp, p) s = Some r /\ no_err r /\
    forall l2 toks2 bp2 p2, r = Ok (l2, toks2, bp2, p2) -> reusable l2 /\ exists ts, toks2 = toks ++ ts /\
      ((ts = [] /\ bp2 = bp /\ p2 = p) \/ (tiles_from bp p s ts /\ bp2 = bp + blen s /\ p2 = p + length ts)).
Proof.
  intros RU NE. unfold tokenize_sentence.
  destruct (set_text l _ _ _ _ s _) as [l1|k|] eqn:ST.
  2:{ exfalso. exact (no_err_set_text _ _ _ _ _ _ _ _ ST). }
  2:{ exists Panic. split; [reflexivity|]. split; [apply no_err_panic|discriminate]. }
  destruct (set_text_lat _ _ _ _ _ _ _ _ NE RU ST) as (ws & -> & W).
  set (cap := Nat.max (capacity l) (blen s)) in *.
  destruct (calculate_path_costs _ _ _) as [l2|k|] eqn:PC.
  2:{ exfalso. exact (no_err_costs _ _ _ _ PC). }
  2:{ exists Panic. split; [reflexivity|]. split; [apply no_err_panic|discriminate]. }
  assert (CL : blen s <= cap) by lia.
  destruct (costs_linked _ _ _ _ _ CL W _ PC) as (E & -> & ES & EB & EL).
  destruct (follow_eos _ _ _ CL W E ES EB EL) as (its & SH & FO).
  unfold tokens_offset. cbn [starts_at edges].
  assert (LS : length (starts_at (lat_of (blen s) cap ws)) = S cap) by (unfold lat_of; cbn [starts_at]; rewrite map_length, seq_length; reflexivity).
  rewrite LS, FO by lia. cbn [bind]. eexists. split; [reflexivity|]. split.
  { apply no_err_bind; [apply no_err_sentence|]. intros [[ts b] q]. apply no_err_ok. }
  intros l3 toks2 bp2 p2 H. apply bind_ok in H as ([[ts b] q] & T & H). injection H as <- <- <- <-. split.
  { right. cbn [starts_at ends_at capacity]. split; [exact LS|]. unfold lat_of. cbn [ends_at length]. rewrite map_length, seq_length. reflexivity. }
  exists ts. split; [reflexivity|]. destruct SH as [->|(w & Q & RI)].
  - left. cbn in T. injection T as <- <- <-. auto.
  - right. rewrite Q in T. cbn [rev] in T. rewrite removelast_last in T.
    apply (tokens_cut s _ [] s) in T as (ts1 & Q1 & TI); [|reflexivity|exact RI]. injection Q1 as -> -> ->. auto.
Qed.

Lemma tiles_from_app ts1 : forall off pos s1 s2 ts2, tiles_from off pos s1 ts1 ->
  tiles_from (off + blen s1) (pos + length ts1) s2 ts2 -> tiles_from off pos (s1 ++ s2) (ts1 ++ ts2).
Proof.
  induction ts1 as [|x ts1 IH]; intros off ps s1 s2 ts2 H1 H2; cbn [tiles_from app] in *.
  - subst. cbn in H2. rewrite !Nat.add_0_r in H2. exact H2.
  - destruct H1 as (A1 & A2 & A3 & A4 & A5 & rest & -> & T). repeat split; auto. exists (rest ++ s2). rewrite <- app_assoc.
    split; [reflexivity|]. apply IH; [exact T|]. rewrite blen_app in H2. cbn [length] in H2.
    replace (tk_end x + blen rest) with (off + (blen (tk_text x) + blen rest)) by lia.
    replace (S ps + length ts1) with (ps + S (length ts1)) by lia. exact H2.
Qed.

Lemma tiles_from_texts ts : forall off pos s, tiles_from off pos s ts -> concat (map tk_text ts) = s.
Proof.
  induction ts as [|x ts IH]; intros off ps s H; cbn [tiles_from map concat] in *; [congruence|].
  destruct H as (_ & _ & _ & _ & _ & rest & -> & T). f_equal. apply (IH _ _ _ T).
Qed.

Lemma sentences_any t ss : Forall (fun s => s <> []) ss -> forall l toks bp p, reusable l ->
  exists r, tokenize_sentences t ss (l, toks, bp, p) = Some r /\ no_err r /\
    forall l2 toks2 bp2 p2, r = Ok (l2, toks2, bp2, p2) -> exists tss, toks2 = toks ++ concat tss /\
      Forall2 (fun s ts => ts = [] \/ concat (map tk_text ts) = s) ss tss /\
      tiles_from bp p (concat (map tk_text (concat tss))) (concat tss).
Proof.
  induction 1 as [|s ss NE F IH]; intros l toks bp p RU; cbn [tokenize_sentences].
  - eexists. split; [reflexivity|]. split; [apply no_err_ok|]. intros l2 toks2 bp2 p2 H. injection H as <- <- <- <-.
    exists []. cbn. rewrite app_nil_r. split; [reflexivity|]. split; [constructor|reflexivity].
  - destruct (sentence_any t l toks bp p s RU NE) as (r & -> & N & K). destruct r as [[[[l2 toks2] bp2] p2]|k|].
    + destruct (K l2 toks2 bp2 p2 eq_refl) as (RU2 & ts & -> & D).
      destruct (IH l2 (toks ++ ts) bp2 p2 RU2) as (r2 & -> & N2 & K2). exists r2. split; [reflexivity|]. split; [exact N2|].
      intros l3 toks3 bp3 p3 ->. destruct (K2 l3 toks3 bp3 p3 eq_refl) as (tss & -> & F2 & TI).
      exists (ts :: tss). cbn [concat]. rewrite app_assoc. split; [reflexivity|]. destruct D as [(-> & -> & ->)|(TS & -> & ->)].
      * split; [constructor; [left; reflexivity|exact F2]|exact TI].
      * pose proof (tiles_from_texts _ _ _ _ TS) as TT. split; [constructor; [right; exact TT|exact F2]|].
        rewrite map_app, concat_app, TT. apply tiles_from_app; assumption.
    + exfalso. exact (N k eq_refl).
    + exists Panic. split; [reflexivity|]. split; [apply no_err_panic|discriminate].
Qed.

Lemma tokenize_any t text : exists r, tokenize t text = Some r /\ no_err r.
Proof.
  unfold tokenize.
  destruct (sentences_any t (split_inclusive is_delimiter text) (sentences_nonempty _ _ (split_sentences text))
              default_lattice [] 0 0 default_reusable) as (r & -> & N & _).
  eexists. split; [reflexivity|]. apply no_err_bind; [exact N|]. intros [[[l2 ts] b] q]. apply no_err_ok.
Qed.

Lemma tokenize_any_tokens t text ss ts : sentences text ss -> tokenize t text = Some (Ok ts) ->
  exists tss, ts = concat tss /\ Forall2 (fun s l => l = [] \/ concat (map tk_text l) = s) ss tss /\
    tiles (concat (map tk_text ts)) ts.
Proof.
  intros S H. unfold tokenize in H. rewrite (sentences_unique _ _ S) in H.
  destruct (sentences_any t ss (sentences_nonempty _ _ S) default_lattice [] 0 0 default_reusable) as (r & E & _ & K).
  rewrite E in H. destruct r as [[[[l2 toks2] bp2] p2]|k|]; try discriminate. cbn [bind] in H. injection H as <-.
  destruct (K l2 toks2 bp2 p2 eq_refl) as (tss & -> & F & TI). exists tss. auto.
Qed.
