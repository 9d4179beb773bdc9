(** Lattice construction: the imperative scan equals a pure one, and what its edges are. *)
From Coq Require Import List NArith ZArith Bool Lia ZifyBool ZifyNat ZifyN.
From Verif Require Import MBase MUtf8 MCodec MDict MCharDef MUnk MLattice MTokenizer STok LBase LUtf8.
Import ListNotations.

(** ** Lattices as functions of their list of word edges *)

Fixpoint ids_from (n : nat) (f : edge -> bool) (es : list edge) : list nat :=
  match es with
  | [] => []
  | e :: r => if f e then n :: ids_from (S n) f r else ids_from (S n) f r
  end.

Lemma ids_from_app f a : forall n b, ids_from n f (a ++ b) = ids_from n f a ++ ids_from (n + length a) f b.
Proof.
  induction a as [|e a IH]; intros n b; cbn [app ids_from length].
  - rewrite Nat.add_0_r. reflexivity.
  - rewrite IH. replace (S n + length a) with (n + S (length a)) by lia.
    destruct (f e); reflexivity.
Qed.

Lemma ids_from_in f es : forall n id, In id (ids_from n f es) <-> exists e, n <= id /\ nth_error es (id - n) = Some e /\ f e = true.
Proof.
  induction es as [|e es IH]; intros n id; cbn [ids_from].
  - split; [easy|]. intros (e & _ & H & _). destruct (id - n); discriminate.
  - assert (T : In id (ids_from (S n) f es) <-> exists e0, S n <= id /\ nth_error (e :: es) (id - n) = Some e0 /\ f e0 = true).
    { rewrite IH. split; intros (e0 & H1 & H2 & H3); exists e0; (split; [lia|]).
      - replace (id - n) with (S (id - S n)) by lia. auto.
      - replace (id - n) with (S (id - S n)) in H2 by lia. auto. }
    destruct (f e) eqn:E.
    + cbn [In]. rewrite T. split.
      * intros [<-|(e0 & H1 & H2)].
        -- exists e. rewrite Nat.sub_diag. auto.
        -- exists e0. split; [lia|auto].
      * intros (e0 & H1 & H2 & H3). destruct (Nat.eq_dec n id) as [->|N]; [auto|].
        right. exists e0. split; [lia|auto].
    + rewrite T. split; intros (e0 & H1 & H2 & H3).
      * exists e0. split; [lia|auto].
      * exists e0. split; [|auto]. destruct (Nat.eq_dec n id) as [->|N]; [|lia].
        rewrite Nat.sub_diag in H2. cbn in H2. congruence.
Qed.

Definition starts_of (len : nat) (es : list edge) (i : nat) : list nat :=
  (if Nat.eqb i len then [1] else []) ++ ids_from 2 (fun e => Nat.eqb (e_start e) i) es.
Definition ends_of (es : list edge) (i : nat) : list nat :=
  (if Nat.eqb i 0 then [0] else []) ++ ids_from 2 (fun e => Nat.eqb (e_stop e) i) es.

Definition lat_of (len cap : nat) (es : list edge) : lattice :=
  Lattice cap (default_edge :: default_edge :: es)
    (map (starts_of len es) (seq 0 (S cap)))
    (map (ends_of es) (seq 0 (S cap))).

Lemma push_at_map g n i x : i < n ->
  push_at (map g (seq 0 n)) i x = Ok (map (fun j => if Nat.eqb j i then g j ++ [x] else g j) (seq 0 n)).
Proof.
  intros H. unfold push_at, idx. rewrite nth_error_map_seq by assumption. cbn [bind]. cbn [Nat.add].
  rewrite upd_map_seq. f_equal. apply map_ext. intros j. cbn [Nat.add].
  destruct (Nat.eqb j i) eqn:E; [|reflexivity]. apply Nat.eqb_eq in E. subst. reflexivity.
Qed.

Lemma add_edge_lat len cap es e : e_start e <= cap -> e_stop e <= cap ->
  add_edge_in_lattice (lat_of len cap es) e = Ok (lat_of len cap (es ++ [e])).
Proof.
  intros H1 H2. unfold add_edge_in_lattice, add_edge, lat_of. cbn [edges starts_at ends_at capacity].
  rewrite !push_at_map by lia. cbn [bind]. f_equal. f_equal.
  - apply map_ext. intros j. unfold starts_of. rewrite ids_from_app. cbn [ids_from length].
    rewrite (Nat.eqb_sym (e_start e) j).
    destruct (Nat.eqb j (e_start e)) eqn:E; [|rewrite app_nil_r; reflexivity].
    rewrite app_assoc. reflexivity.
  - apply map_ext. intros j. unfold ends_of. rewrite ids_from_app. cbn [ids_from length].
    rewrite (Nat.eqb_sym (e_stop e) j).
    destruct (Nat.eqb j (e_stop e)) eqn:E; [|rewrite app_nil_r; reflexivity].
    rewrite app_assoc. reflexivity.
Qed.

(* a lattice that set_capacity has seen, or a fresh one *)
Definition reusable (l : lattice) : Prop :=
  (capacity l = 0 /\ starts_at l = [] /\ ends_at l = []) \/
  (length (starts_at l) = S (capacity l) /\ length (ends_at l) = S (capacity l)).

Lemma map_const_repeat {A B} (b : B) (l : list A) : map (fun _ => b) l = repeat b (length l).
Proof. induction l; cbn; congruence. Qed.

Lemma firstn_repeat {A} (x : A) : forall m n, n <= m -> firstn n (repeat x m) = repeat x n.
Proof. induction m; intros [|n] H; cbn; try reflexivity; try lia. f_equal. apply IHm. lia. Qed.

Lemma resize_repeat m n : resize (repeat [] m) n = repeat [] n.
Proof.
  unfold resize. rewrite repeat_length. destruct (Nat.le_gt_cases n m) as [H|H].
  - replace (n - m) with 0 by lia. cbn. rewrite app_nil_r.
    apply firstn_repeat. exact H.
  - rewrite firstn_all2 by (rewrite repeat_length; lia). rewrite <- repeat_app. f_equal. lia.
Qed.

Lemma set_capacity_reusable l len : reusable l -> 0 < len ->
  set_capacity l len =
    Lattice (Nat.max (capacity l) len) [] (repeat [] (S (Nat.max (capacity l) len)))
            (repeat [] (S (Nat.max (capacity l) len))).
Proof.
  intros R H. unfold set_capacity, clear. cbn [capacity starts_at ends_at].
  rewrite !map_const_repeat.
  destruct (Nat.ltb (capacity l) len) eqn:E.
  - rewrite !resize_repeat. replace (Nat.max (capacity l) len) with len by lia.
    replace (len + 1) with (S len) by lia. reflexivity.
  - replace (Nat.max (capacity l) len) with (capacity l) by lia.
    destruct R as [(H1 & H2 & H3)|(H1 & H2)]; [lia|]. rewrite H1, H2. reflexivity.
Qed.

Lemma repeat_map_seq {A} (x : A) n : forall a, repeat x n = map (fun _ => x) (seq a n).
Proof. induction n; intros a; cbn; [reflexivity|]. f_equal. apply IHn. Qed.

(** ** The scan as a pure function *)

Section Scan.
Variable A : adict.

Definition word_edge (ty : edge_type) (start : nat) (w : word) : edge :=
  let '(k, e) := w in Edge ty e i32_max None start (start + blen k) (is_kanji_only k).

Definition dict_words (s : str) : list word := prefix_words (a_usr A) s ++ prefix_words (a_sys A) s.

(* number of characters of s with category k at rank ord, at its start *)
Fixpoint run_len (k ord : nat) (s : str) : nat :=
  match s with
  | [] => 0
  | c :: r => match nth_error (a_cats A c) ord with
              | Some k' => if Nat.eqb k' k then S (run_len k ord r) else 0
              | None => 0
              end
  end.

(* surface of the unknown word for one category, if it is generated *)
Definition unk_surface (found : bool) (s : str) (ord k : nat) : option str :=
  if a_invoke A k || negb found
  then Some (firstn (S (if a_group A k then run_len k ord (tl s) else 0)) s)
  else None.

Definition unk_step (found : bool) (start : nat) (s : str) (st : list edge * option nat) (ok : nat * nat)
  : list edge * option nat :=
  let '(es, ue) := st in
  let '(ord, k) := ok in
  match unk_surface found s ord k with
  | Some w => (es ++ map (fun e => word_edge UNKNOWN start (w, e)) (a_unk A k), Some (start + blen w))
  | None => (es, ue)
  end.

Definition reachb (es : list edge) (p : nat) : bool := Nat.eqb p 0 || existsb (fun e => Nat.eqb (e_stop e) p) es.

Definition unk_active (m : mode) (ue : option nat) (start : nat) : bool :=
  is_search m || match ue with Some i => Nat.leb i start | None => true end.

Definition pos_step (m : mode) (start : nat) (s : str) (st : list edge * option nat) : list edge * option nat :=
  let '(es, ue) := st in
  let ws := dict_words s in
  let es1 := es ++ map (word_edge KNOWN start) ws in
  if unk_active m ue start then
    match s with
    | [] => (es1, ue)
    | c :: _ => fold_left (unk_step (negb (MText.is_nil ws)) start s) (enumerate (a_cats A c)) (es1, ue)
    end
  else (es1, ue).

Definition suffix_at (text : str) (start : nat) : str :=
  match str_from text start with Ok s => s | _ => [] end.

Definition pure_step (m : mode) (text : str) (st : list edge * option nat) (start : nat) : list edge * option nat :=
  if reachb (fst st) start then pos_step m start (suffix_at text start) st else st.

Definition scan (m : mode) (text : str) : list edge :=
  fst (fold_left (pure_step m text) (seq 0 (blen text)) ([], None)).

(** ** Properties of the edges *)

(* an edge for word (k, e) of the text *)
Definition edge_word (text : str) (ed : edge) (pre k rest : str) : Prop :=
  text = pre ++ k ++ rest /\ k <> [] /\ e_start ed = blen pre /\ e_stop ed = blen pre + blen k /\
  e_kanji ed = is_kanji_only k /\ e_path_cost ed = i32_max /\ e_left ed = None /\
  candidate A (k ++ rest) k (e_entry ed) /\
  (e_type ed = KNOWN -> dict_word A (k ++ rest) k (e_entry ed)) /\
  (e_type ed <> KNOWN -> unknown_word A (k ++ rest) k (e_entry ed)).

Definition edges_ok (text : str) (es : list edge) : Prop :=
  Forall (fun ed => exists pre k rest, edge_word text ed pre k rest) es.

Lemma prefix_words_in tbl s k e :
  In (k, e) (prefix_words tbl s) <-> k <> [] /\ (exists r, s = k ++ r) /\ In e (entries_of tbl k).
Proof.
  unfold prefix_words. rewrite in_flat_map. split.
  - intros (n & Hn & H). apply in_seq in Hn. apply in_map_iff in H as (e' & E & H).
    injection E as <- <-.
    split.
    { destruct s; [cbn in Hn; lia|]. destruct n; [lia|]. discriminate. }
    split; [|exact H]. exists (skipn n s). symmetry. apply firstn_skipn.
  - intros (Hk & (r & ->) & H). exists (length k). split.
    + apply in_seq. rewrite app_length. destruct k; [congruence|]. cbn. lia.
    + rewrite firstn_app_exact. apply in_map. exact H.
Qed.

Lemma dict_words_in s k e : In (k, e) (dict_words s) <-> dict_word A s k e.
Proof.
  unfold dict_words, dict_word. rewrite in_app_iff, !prefix_words_in. tauto.
Qed.

Lemma dict_words_nil s : dict_words s = [] -> no_dict_word A s.
Proof. intros H k e D. apply dict_words_in in D. rewrite H in D. exact D. Qed.

Lemma run_len_spec k ord s :
  Forall (has_cat A ord k) (firstn (run_len k ord s) s) /\
  (forall d r, skipn (run_len k ord s) s = d :: r -> ~ has_cat A ord k d).
Proof.
  induction s as [|c s [IH1 IH2]]; cbn [run_len].
  - split; [constructor|]. intros d r H. discriminate.
  - unfold has_cat in *. destruct (nth_error (a_cats A c) ord) as [k'|] eqn:E.
    + destruct (Nat.eqb k' k) eqn:K.
      * apply Nat.eqb_eq in K. subst k'. cbn [firstn skipn]. split; [constructor; assumption|exact IH2].
      * cbn [firstn skipn]. split; [constructor|]. intros d r H. injection H as <- <-. rewrite E.
        intros X. injection X as ->. rewrite Nat.eqb_refl in K. discriminate.
    + cbn [firstn skipn]. split; [constructor|]. intros d r H. injection H as <- <-. congruence.
Qed.

Lemma unk_surface_span found c r ord k w :
  unk_surface found (c :: r) ord k = Some w ->
  unk_span A ord k (c :: r) w /\ (a_invoke A k = true \/ found = false).
Proof.
  unfold unk_surface. destruct (a_invoke A k || negb found) eqn:E; [|discriminate].
  intros H. injection H as <-. cbn [tl firstn]. split.
  - set (n := if a_group A k then run_len k ord r else 0).
    exists c, (firstn n r), (skipn n r). rewrite firstn_skipn. split; [reflexivity|]. split; [reflexivity|].
    subst n. destruct (a_group A k).
    + apply run_len_spec.
    + reflexivity.
  - destruct (a_invoke A k); [auto|]. right. destruct found; [discriminate|reflexivity].
Qed.

Lemma unk_surface_prefix found s ord k w :
  unk_surface found s ord k = Some w -> exists rest, s = w ++ rest.
Proof.
  unfold unk_surface. destruct (_ || _); [|discriminate].
  set (n := S _). intros H. assert (E : w = firstn n s) by congruence.
  exists (skipn n s). rewrite E. symmetry. apply firstn_skipn.
Qed.

Lemma unk_surface_nonempty found c r ord k w : unk_surface found (c :: r) ord k = Some w -> w <> [].
Proof. unfold unk_surface. destruct (_ || _); [|discriminate]. intros H. injection H as <-. discriminate. Qed.

(* edges added by one category *)
Lemma unk_step_ok text pre c r found ord k es ue :
  text = pre ++ c :: r ->
  has_cat A ord k c ->
  (found = false -> no_dict_word A (c :: r)) ->
  edges_ok text es ->
  edges_ok text (fst (unk_step found (blen pre) (c :: r) (es, ue) (ord, k))).
Proof.
  intros T C F H. unfold unk_step. destruct (unk_surface found (c :: r) ord k) as [w|] eqn:E; [|exact H].
  cbn [fst]. apply Forall_app. split; [exact H|].
  apply Forall_forall. intros ed Hed. apply in_map_iff in Hed as (e & <- & He).
  pose proof (unk_surface_nonempty _ _ _ _ _ _ E) as NE.
  pose proof (unk_surface_prefix _ _ _ _ _ E) as (rest & P).
  pose proof (unk_surface_span _ _ _ _ _ _ E) as (SP & IV).
  assert (U : unknown_word A (w ++ rest) w e).
  { rewrite <- P. exists c, r, ord, k. repeat split; auto.
    destruct IV; auto. }
  exists pre, w, rest. unfold edge_word, word_edge. cbn.
  split; [rewrite T, P; reflexivity|]. split; [exact NE|].
  repeat (split; [reflexivity|]). split; [right; exact U|].
  split; [discriminate|intros _; exact U].
Qed.

Lemma unk_fold_ok text pre c r found cats es ue :
  text = pre ++ c :: r ->
  (forall ord k, In (ord, k) cats -> has_cat A ord k c) ->
  (found = false -> no_dict_word A (c :: r)) ->
  edges_ok text es ->
  edges_ok text (fst (fold_left (unk_step found (blen pre) (c :: r)) cats (es, ue))).
Proof.
  intros T C F. revert es ue. induction cats as [|[ord k] cats IH]; intros es ue H; [exact H|].
  cbn [fold_left].
  assert (S1 : edges_ok text (fst (unk_step found (blen pre) (c :: r) (es, ue) (ord, k)))).
  { apply unk_step_ok; auto. apply C. left. reflexivity. }
  destruct (unk_step found (blen pre) (c :: r) (es, ue) (ord, k)) as [es1 ue1]. cbn [fst] in S1.
  apply IH; auto. intros o k' H'. apply C. right. exact H'.
Qed.

Lemma enumerate_cat c ord k : In (ord, k) (enumerate (a_cats A c)) -> has_cat A ord k c.
Proof. unfold enumerate. intros H. apply enumerate_in in H as [_ H]. rewrite Nat.sub_0_r in H. exact H. Qed.

Lemma known_edges_ok text pre s : text = pre ++ s ->
  edges_ok text (map (word_edge KNOWN (blen pre)) (dict_words s)).
Proof.
  intros T. apply Forall_forall. intros ed H. apply in_map_iff in H as ([k e] & <- & H).
  apply dict_words_in in H. pose proof H as D. destruct H as (NE & (rest & ->) & _).
  exists pre, k, rest. unfold edge_word, word_edge. cbn.
  split; [exact T|]. split; [exact NE|].
  repeat (split; [reflexivity|]). split; [left; exact D|].
  split; [intros _; exact D|congruence].
Qed.

Lemma is_nil_false {X} (l : list X) : negb (MText.is_nil l) = false -> l = [].
Proof. destruct l; [reflexivity|discriminate]. Qed.

Lemma pos_step_ok m text pre s es ue : text = pre ++ s ->
  edges_ok text es -> edges_ok text (fst (pos_step m (blen pre) s (es, ue))).
Proof.
  intros T H. unfold pos_step.
  assert (K : edges_ok text (es ++ map (word_edge KNOWN (blen pre)) (dict_words s))).
  { apply Forall_app. split; [exact H|]. apply known_edges_ok. exact T. }
  destruct (unk_active m ue (blen pre)); [|exact K].
  destruct s as [|c r]; [exact K|].
  apply unk_fold_ok; auto.
  - apply enumerate_cat.
  - intros F. apply dict_words_nil. apply is_nil_false. exact F.
Qed.

(* positions that edges end on are character boundaries *)
Lemma reach_boundary text es p : edges_ok text es -> reachb es p = true -> exists pre s, text = pre ++ s /\ blen pre = p.
Proof.
  intros H R. unfold reachb in R. apply orb_true_iff in R as [R|R].
  - apply Nat.eqb_eq in R. subst. exists [], text. auto.
  - apply existsb_exists in R as (ed & I & E). apply Nat.eqb_eq in E.
    unfold edges_ok in H. rewrite Forall_forall in H. apply H in I as (pre & k & rest & (T & _ & _ & S & _)).
    exists (pre ++ k), rest. rewrite blen_app, <- app_assoc. split; [exact T|]. lia.
Qed.

Lemma suffix_at_app pre s : suffix_at (pre ++ s) (blen pre) = s.
Proof. unfold suffix_at. rewrite str_from_app. reflexivity. Qed.

Lemma pure_step_ok m text es ue p : edges_ok text es -> edges_ok text (fst (pure_step m text (es, ue) p)).
Proof.
  intros H. unfold pure_step. cbn [fst]. destruct (reachb es p) eqn:R; [|exact H].
  apply (reach_boundary text) in R as (pre & s & -> & <-); [|exact H].
  rewrite suffix_at_app. apply pos_step_ok; auto.
Qed.

Lemma scan_fold_ok m text ps : forall es ue, edges_ok text es ->
  edges_ok text (fst (fold_left (pure_step m text) ps (es, ue))).
Proof.
  induction ps as [|p ps IH]; intros es ue H; [exact H|].
  cbn [fold_left]. pose proof (pure_step_ok m text es ue p H) as H1.
  destruct (pure_step m text (es, ue) p) as [es1 ue1]. apply IH. exact H1.
Qed.

Lemma scan_ok m text : edges_ok text (scan m text).
Proof. apply scan_fold_ok. constructor. Qed.

(** ** Edges only grow, and start at reachable positions *)

Lemma unk_fold_grows found start s cats : forall es ue,
  exists new, fst (fold_left (unk_step found start s) cats (es, ue)) = es ++ new /\ Forall (fun e => e_start e = start) new.
Proof.
  induction cats as [|[ord k] cats IH]; intros es ue; cbn [fold_left].
  - exists []. rewrite app_nil_r. auto.
  - unfold unk_step at 2. destruct (unk_surface found s ord k) as [w|].
    + destruct (IH (es ++ map (fun e => word_edge UNKNOWN start (w, e)) (a_unk A k)) (Some (start + blen w))) as (new & -> & F).
      exists (map (fun e => word_edge UNKNOWN start (w, e)) (a_unk A k) ++ new). rewrite app_assoc. split; [reflexivity|].
      apply Forall_app. split; [|exact F].
      apply Forall_forall. intros ed H. apply in_map_iff in H as (e & <- & _). reflexivity.
    + apply IH.
Qed.

Lemma pos_step_grows m start s es ue :
  exists new, fst (pos_step m start s (es, ue)) = es ++ new /\ Forall (fun e => e_start e = start) new.
Proof.
  assert (K : Forall (fun e => e_start e = start) (map (word_edge KNOWN start) (dict_words s))).
  { apply Forall_forall. intros ed H. apply in_map_iff in H as ([k e] & <- & _). reflexivity. }
  unfold pos_step. destruct (unk_active m ue start).
  - destruct s as [|c r].
    + eexists. split; [reflexivity|exact K].
    + destruct (unk_fold_grows (negb (MText.is_nil (dict_words (c :: r)))) start (c :: r) (enumerate (a_cats A c))
                  (es ++ map (word_edge KNOWN start) (dict_words (c :: r))) ue) as (new & -> & F).
      eexists. rewrite <- app_assoc. split; [reflexivity|]. apply Forall_app. auto.
  - eexists. split; [reflexivity|exact K].
Qed.

Lemma pure_step_grows m text es ue start :
  exists new, fst (pure_step m text (es, ue) start) = es ++ new /\
    Forall (fun e => e_start e = start /\ reachb es start = true) new.
Proof.
  unfold pure_step. cbn [fst]. destruct (reachb es start) eqn:R.
  - destruct (pos_step_grows m start (suffix_at text start) es ue) as (new & E & F).
    exists new. split; [exact E|]. eapply Forall_impl; [|exact F]. auto.
  - exists []. rewrite app_nil_r. auto.
Qed.

Lemma reachb_app es new p : reachb es p = true -> reachb (es ++ new) p = true.
Proof. unfold reachb. rewrite existsb_app. destruct (Nat.eqb p 0), (existsb _ es); cbn; auto; discriminate. Qed.

Definition starts_reachable (es : list edge) : Prop := Forall (fun e => reachb es (e_start e) = true) es.

Lemma scan_fold_reachable m text ps : forall es ue, starts_reachable es ->
  starts_reachable (fst (fold_left (pure_step m text) ps (es, ue))).
Proof.
  induction ps as [|p ps IH]; intros es ue H; [exact H|].
  cbn [fold_left]. destruct (pure_step_grows m text es ue p) as (new & E & F).
  destruct (pure_step m text (es, ue) p) as [es1 ue1]. cbn [fst] in E. subst es1. apply IH.
  apply Forall_app. split.
  - eapply Forall_impl; [|exact H]. intros e He. apply reachb_app. exact He.
  - eapply Forall_impl; [|exact F]. intros e [-> He]. apply reachb_app. exact He.
Qed.

Lemma scan_reachable m text : starts_reachable (scan m text).
Proof. apply scan_fold_reachable. constructor. Qed.

(** ** The end of the text is reachable *)

Lemma unk_fold_last found start s cats : forall es ue,
  (forall ord k, In (ord, k) cats -> a_unk A k <> []) ->
  let st := fold_left (unk_step found start s) cats (es, ue) in
  snd st = ue \/ (exists w rest, snd st = Some (start + blen w) /\ s = w ++ rest /\ (s <> [] -> w <> []) /\
                  existsb (fun e => Nat.eqb (e_stop e) (start + blen w)) (fst st) = true).
Proof.
  induction cats as [|[ord k] cats IH]; intros es ue U; cbn [fold_left].
  - left. reflexivity.
  - set (st1 := unk_step found start s (es, ue) (ord, k)).
    destruct st1 as [es1 ue1] eqn:E1. subst st1.
    assert (U' : forall o k', In (o, k') cats -> a_unk A k' <> []) by (intros o k' H; apply (U o); right; exact H).
    destruct (IH es1 ue1 U') as [L|L]; [|right; exact L].
    cbv zeta in L. rewrite L. unfold unk_step in E1. destruct (unk_surface found s ord k) as [w|] eqn:S.
    + injection E1 as <- <-. right. pose proof (unk_surface_prefix _ _ _ _ _ S) as (rest & P).
      exists w, rest. split; [reflexivity|]. split; [exact P|]. split.
      { intros NE. destruct s; [congruence|]. eapply unk_surface_nonempty. exact S. }
      match goal with |- existsb _ (fst (fold_left ?f ?c ?x)) = _ =>
        destruct (unk_fold_grows found start s c (fst x) (snd x)) as (new & EQ & _) end.
      cbn [fst snd] in EQ. rewrite EQ, !existsb_app.
      destruct (a_unk A k) as [|e0 l0] eqn:UK; [exfalso; eapply U; [left; reflexivity|exact UK]|].
      cbn [map existsb word_edge e_stop]. rewrite Nat.eqb_refl. cbn.
      rewrite orb_true_r. reflexivity.
    + injection E1 as <- <-. left. reflexivity.
Qed.

(* with nothing found, some unknown word is generated *)
Lemma unk_fold_progress start s cats es ue :
  cats <> [] -> s <> [] ->
  (forall ord k, In (ord, k) cats -> a_unk A k <> []) ->
  let st := fold_left (unk_step false start s) cats (es, ue) in
  exists w rest, snd st = Some (start + blen w) /\ s = w ++ rest /\ w <> [] /\
                  existsb (fun e => Nat.eqb (e_stop e) (start + blen w)) (fst st) = true.
Proof.
  intros NC NS U. destruct cats as [|[ord k] cats]; [congruence|].
  cbn [fold_left]. set (st1 := unk_step false start s (es, ue) (ord, k)).
  destruct st1 as [es1 ue1] eqn:E1. subst st1.
  assert (U' : forall o k', In (o, k') cats -> a_unk A k' <> []) by (intros o k' H; apply (U o); right; exact H).
  destruct (unk_fold_last false start s cats es1 ue1 U') as [L|L].
  - cbv zeta in L. unfold unk_step in E1.
    assert (US : unk_surface false s ord k = Some (firstn (S (if a_group A k then run_len k ord (tl s) else 0)) s)).
    { unfold unk_surface. rewrite orb_true_r. reflexivity. }
    rewrite US in E1.
    set (w := firstn (S (if a_group A k then run_len k ord (tl s) else 0)) s) in *.
    injection E1 as <- <-. pose proof (unk_surface_prefix _ _ _ _ _ US) as (rest & P).
    exists w, rest. rewrite L. split; [reflexivity|]. split; [exact P|]. split.
    { destruct s; [congruence|]. eapply unk_surface_nonempty. exact US. }
    match goal with |- existsb _ (fst (fold_left ?f ?c ?x)) = _ =>
      destruct (unk_fold_grows false start s c (fst x) (snd x)) as (new & EQ & _) end.
    cbn [fst snd] in EQ. rewrite EQ, !existsb_app.
    destruct (a_unk A k) as [|e0 l0] eqn:UK; [exfalso; eapply U; [left; reflexivity|exact UK]|].
    cbn [map existsb word_edge e_stop]. rewrite Nat.eqb_refl. cbn.
    rewrite orb_true_r. reflexivity.
  - destruct L as (w & rest & L1 & L2 & L3 & L4). exists w, rest. auto.
Qed.

(* some reachable position at or after `start` is not strictly inside the latest unknown span *)
Definition live (m : mode) (len start : nat) (es : list edge) (ue : option nat) : Prop :=
  exists p, start <= p /\ p <= len /\ reachb es p = true /\
    (is_search m = true \/ match ue with Some u => u <= p | None => True end).

Lemma enumerate_nonempty {X} (l : list X) : l <> [] -> enumerate l <> [].
Proof. destruct l; [congruence|discriminate]. Qed.

Lemma pos_step_live m text pre s es ue :
  text = pre ++ s -> s <> [] -> covered A text ->
  live m (blen text) (blen pre) es ue -> reachb es (blen pre) = true ->
  live m (blen text) (S (blen pre)) (fst (pos_step m (blen pre) s (es, ue))) (snd (pos_step m (blen pre) s (es, ue))).
Proof.
  intros T NS CV (p & P1 & P2 & P3 & P4) R.
  destruct s as [|c r]; [congruence|].
  assert (Cc : a_cats A c <> [] /\ (forall k, In k (a_cats A c) -> a_unk A k <> [])).
  { apply CV. rewrite T. apply in_or_app. right. left. reflexivity. }
  destruct Cc as [C1 C2].
  assert (U : forall ord k, In (ord, k) (enumerate (a_cats A c)) -> a_unk A k <> []).
  { intros ord k H. apply C2. apply in_combine_r in H. exact H. }
  assert (BL : forall w rest, c :: r = w ++ rest -> w <> [] -> S (blen pre) <= blen pre + blen w /\ blen pre + blen w <= blen text).
  { intros w rest E NE. rewrite T, E, !blen_app. pose proof (blen_0 w). destruct (Nat.eq_dec (blen w) 0); [tauto|]. lia. }
  destruct (pos_step_grows m (blen pre) (c :: r) es ue) as (new & G & _).
  unfold pos_step in *.
  destruct (unk_active m ue (blen pre)) eqn:UA.
  - (* unknown words are tried here *)
    destruct (negb (MText.is_nil (dict_words (c :: r)))) eqn:F.
    + destruct (unk_fold_last true (blen pre) (c :: r) (enumerate (a_cats A c))
        (es ++ map (word_edge KNOWN (blen pre)) (dict_words (c :: r))) ue U) as [L|(w & rest & L1 & L2 & L3 & L4)].
      * (* unchanged unknown end: use the longest dictionary word found *)
        cbv zeta in L. rewrite L, G.
        destruct (Nat.eq_dec p (blen pre)) as [->|NP].
        -- destruct (dict_words (c :: r)) as [|[k e] dl] eqn:DW; [discriminate|].
           assert (D : dict_word A (c :: r) k e) by (apply dict_words_in; rewrite DW; left; reflexivity).
           destruct D as (NE & (rest & E) & _). destruct (BL _ _ E NE) as [B1 B2].
           exists (blen pre + blen k). split; [exact B1|]. split; [exact B2|]. split.
           { unfold reachb.
             destruct (unk_fold_grows true (blen pre) (c :: r) (enumerate (a_cats A c))
               (es ++ map (word_edge KNOWN (blen pre)) ((k, e) :: dl)) ue) as (new2 & EQ & _).
             assert (EQ' := eq_trans (eq_sym G) EQ). rewrite EQ'.
             rewrite !existsb_app. cbn [map existsb word_edge e_stop]. rewrite Nat.eqb_refl.
             rewrite !orb_true_r. reflexivity. }
           destruct P4 as [P4|P4]; [auto|]. right. destruct ue; [lia|auto].
        -- exists p. split; [lia|]. split; [lia|]. split; [apply reachb_app; exact P3|]. exact P4.
      * rewrite L1. destruct (BL w rest L2 (L3 NS)) as [B1 B2].
        exists (blen pre + blen w). split; [exact B1|]. split; [exact B2|]. split; [|right; lia].
        unfold reachb. rewrite L4. apply orb_true_r.
    + pose proof (unk_fold_progress (blen pre) (c :: r) (enumerate (a_cats A c))
        (es ++ map (word_edge KNOWN (blen pre)) (dict_words (c :: r))) ue (enumerate_nonempty _ C1) NS U) as L.
      cbv zeta in L. destruct L as (w & rest & L1 & L2 & L3 & L4).
      rewrite L1. destruct (BL w rest L2 L3) as [B1 B2].
      exists (blen pre + blen w). split; [exact B1|]. split; [exact B2|]. split; [|right; lia].
      unfold reachb. rewrite L4. apply orb_true_r.
  - cbn [fst snd] in *. unfold unk_active in UA. apply orb_false_iff in UA as [UA1 UA2].
    destruct ue as [u|]; [|discriminate].
    exists p. destruct P4 as [P4|P4]; [congruence|].
    split; [lia|]. split; [lia|]. split; [apply reachb_app; exact P3|]. right. exact P4.
Qed.

Lemma pure_step_live m text es ue start :
  start < blen text -> covered A text -> edges_ok text es ->
  live m (blen text) start es ue ->
  live m (blen text) (S start) (fst (pure_step m text (es, ue) start)) (snd (pure_step m text (es, ue) start)).
Proof.
  intros LT CV OK LV. unfold pure_step. cbn [fst]. destruct (reachb es start) eqn:R.
  - destruct (reach_boundary text es start OK R) as (pre & s & -> & <-). rewrite suffix_at_app.
    apply pos_step_live; auto. intros ->. rewrite app_nil_r in LT. lia.
  - cbn [fst snd]. destruct LV as (p & P1 & P2 & P3 & P4). exists p.
    split; [|auto]. destruct (Nat.eq_dec p start); [congruence|lia].
Qed.

Lemma scan_fold_live m text n : forall start es ue,
  start + n = blen text -> covered A text -> edges_ok text es ->
  live m (blen text) start es ue ->
  let st := fold_left (pure_step m text) (seq start n) (es, ue) in
  live m (blen text) (blen text) (fst st) (snd st).
Proof.
  induction n as [|n IH]; intros start es ue E CV OK LV; cbn [seq fold_left].
  - cbn [fst snd]. replace (blen text) with start at 2 by lia. exact LV.
  - pose proof (pure_step_ok m text es ue start OK) as OK1.
    assert (LV1 := pure_step_live m text es ue start ltac:(lia) CV OK LV).
    destruct (pure_step m text (es, ue) start) as [es1 ue1]. cbn [fst snd] in *.
    apply IH; auto. lia.
Qed.

Lemma scan_reaches_end m text : covered A text -> reachb (scan m text) (blen text) = true.
Proof.
  intros CV.
  pose proof (scan_fold_live m text (blen text) 0 [] None eq_refl CV (Forall_nil _)) as H.
  cbv zeta in H. destruct H as (p & P1 & P2 & P3 & _).
  - exists 0. cbn. repeat split; auto; lia.
  - replace p with (blen text) in P3 by lia. exact P3.
Qed.

End Scan.
