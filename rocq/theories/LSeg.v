(** Chains of edges and segmentations of the text. *)
From Coq Require Import List NArith ZArith Bool Lia ZifyBool ZifyNat ZifyN.
From Verif Require Import MBase MUtf8 MText MCodec MDict MCharDef MUnk MLattice MTokenizer STok LBase LUtf8 LScan LLat LVit.
Import ListNotations.
Ltac Zify.zify_post_hook ::= Z.div_mod_to_equations.

Lemma blen_pos s : s <> [] -> 0 < blen s.
Proof. intros H. pose proof (blen_0 s). destruct (Nat.eq_dec (blen s) 0); [tauto|lia]. Qed.

Lemma blen_chars s : blen s <= 4 * length s.
Proof. induction s as [|c s IH]; cbn [blen length]; [lia|]. unfold width. repeat (destruct (_ <? _)%N); lia. Qed.

Lemma fits_small m s : fits_i32 m s -> (Z.of_nat (blen s) < 4 * 32768)%Z.
Proof.
  unfold fits_i32. intros H. assert (0 <= penalty_max m)%Z by (destruct m; cbn; lia). pose proof (blen_chars s). nia.
Qed.

Lemma penalty_exact m s e k :
  fits_i32 m s -> blen k <= blen s -> e_stop e = e_start e + blen k -> e_kanji e = is_kanji_only k ->
  penalty_cost m e = surface_penalty m k /\ (3 * Z.abs (surface_penalty m k) <= penalty_max m * Z.of_nat (blen k))%Z.
Proof.
  intros F L S K. pose proof (fits_small m s F) as B.
  destruct m as [|p]; cbn [penalty_cost surface_penalty]; [cbn; lia|].
  unfold penalty_of, num_chars. rewrite S, K. replace (e_start e + blen k - e_start e) with (blen k) by lia.
  change (is_kanji_only k) with (forallb kanji k).
  unfold fits_i32 in F. cbn [penalty_max] in *.
  set (M := Z.max (Z.abs (kanji_penalty p)) (Z.abs (other_penalty p))) in *.
  set (q := blen k / 3).
  assert (Q : (3 * Z.of_nat q <= Z.of_nat (blen k))%Z) by (subst q; lia).
  clearbody q.
  assert (MM : (0 <= M)%Z) by lia.
  assert (N1 : (M * Z.of_nat (blen k) < 3 * 2147483647)%Z) by nia.
  assert (PB : forall x th, (0 <= th < Z.of_nat q)%Z -> (Z.abs x <= M)%Z ->
            is_i32 ((Z.of_nat q - th) * x) /\ (3 * Z.abs ((Z.of_nat q - th) * x) <= M * Z.of_nat (blen k))%Z).
  { intros x th T X. rewrite Z.abs_mul.
    assert (3 * (Z.abs (Z.of_nat q - th) * Z.abs x) <= M * Z.of_nat (blen k))%Z by nia.
    split; [|lia]. unfold is_i32.
    assert (Z.abs ((Z.of_nat q - th) * x) < 2147483647)%Z by (rewrite Z.abs_mul; lia). lia. }
  destruct (N.of_nat q <=? kanji_threshold p)%N eqn:E1.
  - replace (Z.of_nat q <=? Z.of_N (kanji_threshold p))%Z with true by lia. cbn. split; lia.
  - replace (Z.of_nat q <=? Z.of_N (kanji_threshold p))%Z with false by lia.
    destruct (forallb kanji k).
    + rewrite (wrap32_id (Z.of_N _)) by (unfold is_i32; lia).
      replace (Z.of_N (N.of_nat q - kanji_threshold p)) with (Z.of_nat q - Z.of_N (kanji_threshold p))%Z by lia.
      destruct (PB (kanji_penalty p) (Z.of_N (kanji_threshold p))) as [P1 P2]; [lia|lia|].
      rewrite wrap32_id by exact P1. split; [reflexivity|exact P2].
    + destruct (other_threshold p <? N.of_nat q)%N eqn:E2.
      * replace (Z.of_N (other_threshold p) <? Z.of_nat q)%Z with true by lia.
        rewrite (wrap32_id (Z.of_N _)) by (unfold is_i32; lia).
        replace (Z.of_N (N.of_nat q - other_threshold p)) with (Z.of_nat q - Z.of_N (other_threshold p))%Z by lia.
        destruct (PB (other_penalty p) (Z.of_N (other_threshold p))) as [P1 P2]; [lia|lia|].
        rewrite wrap32_id by exact P1. split; [reflexivity|exact P2].
      * replace (Z.of_N (other_threshold p) <? Z.of_nat q)%Z with false by lia. cbn. split; lia.
Qed.

Section Seg.
Variable t : tokenizer.
Variable A : adict.
Hypothesis R : represents t A.
Variable m : mode.
Variable text : str.
Hypothesis V : valid_str text.

Let ws := scan A m text.

Lemma has_cat_in ord k c : has_cat A ord k c -> In k (a_cats A c).
Proof. unfold has_cat. apply nth_error_In. Qed.

Lemma candidate_entry_ok s k e : valid_str s -> candidate A s k e -> entry_ok A e.
Proof.
  intros Vs [(NE & _ & [H|H])|(c & r & ord & i & -> & HC & _ & _ & H)].
  - eapply (rep_usr_ok t A R). exact H.
  - eapply (rep_sys_ok t A R). exact H.
  - inversion Vs; subst. eapply (rep_unk_ok t A R c i); auto. eapply has_cat_in. exact HC.
Qed.

Lemma scan_entries : Forall (fun e => entry_ok A (e_entry e)) ws.
Proof.
  eapply Forall_impl; [|exact (scan_ok A m text)].
  intros e (pre & k & rest & T & _ & _ & _ & _ & _ & _ & C & _).
  eapply candidate_entry_ok; [|exact C]. rewrite T in V. apply valid_str_app in V. apply V.
Qed.

Lemma scan_positions : Forall (fun e => e_start e < e_stop e /\ e_stop e <= blen text) ws.
Proof.
  eapply Forall_impl; [|exact (scan_ok A m text)].
  intros e (pre & k & rest & T & NE & S1 & S2 & _).
  pose proof (blen_pos k NE). rewrite T, !blen_app. lia.
Qed.

Notation chain := (chain ws).
Notation rc := (rc A m).
Notation last_pen := (last_pen m).

Lemma edge_info e : In e ws -> exists pre k rest, edge_word A text e pre k rest.
Proof. intros I. pose proof (scan_ok A m text) as H. unfold edges_ok in H. rewrite Forall_forall in H. apply H. exact I. Qed.

(* a chain has no more edges than there are characters before its end *)
Lemma chain_chars p l : chain p l -> exists a b, text = a ++ b /\ blen a = p /\ length l <= length a.
Proof.
  intros C. induction C as [|e l I C (a & b & T & B & L)]; [exists [], text; cbn; auto|].
  destruct (edge_info e I) as (pre & k & rest & T' & NE & S1 & S2 & _).
  assert (pre = a) as ->.
  { pose proof (str_to_app pre (k ++ rest)) as X. rewrite <- T', T, <- S1, <- B, str_to_app in X. congruence. }
  exists (a ++ k), rest. rewrite <- app_assoc. split; [exact T'|]. rewrite blen_app, app_length. split; [lia|].
  destruct k; [contradiction|cbn [length]; lia].
Qed.

Lemma chain_bound : fits_i32 m text -> forall p l, chain p l ->
  (3 * (Z.abs (rc l) + Z.abs (last_pen l)) <= 3 * 65536 * Z.of_nat (length l) + penalty_max m * Z.of_nat p)%Z
  /\ (last_right l < a_fsize A)%N.
Proof.
  intros F p l C. induction C as [|e l I C [IH1 IH2]].
  - pose proof (rep_sizes t A R) as [F0 _]. cbn [length]. change (Z.of_nat 0) with 0%Z. rewrite !Z.mul_0_r. split; [apply Z.le_refl | exact F0].
  - destruct (edge_info e I) as (pre & k & rest & T & NE & S1 & S2 & S3 & _).
    pose proof scan_entries as EN. rewrite Forall_forall in EN. destruct (EN e I) as (E1 & E2 & E3).
    destruct (rep_conn t A R _ _ IH2 E2) as [_ CN].
    assert (BK : blen k <= blen text) by (rewrite T, !blen_app; lia).
    destruct (penalty_exact m text e k F BK) as [P1 P2]; [lia|exact S3|].
    pose proof (blen_pos k NE) as KP.
    split; [|exact E1]. cbn [LVit.rc LVit.last_pen length]. rewrite P1.
    unfold is_i16 in *. assert (0 <= penalty_max m)%Z by (destruct m; cbn; lia).
    rewrite S2 in *. rewrite S1 in *. nia.
Qed.

Lemma chain_room : fits_i32 m text -> forall p l, chain p l ->
  (3 * (Z.abs (rc l) + Z.abs (last_pen l)) + 3 * 32768 < 3 * 2147483647)%Z /\ (last_right l < a_fsize A)%N.
Proof.
  intros F p l C. destruct (chain_bound F p l C) as [B1 B2]. split; [|exact B2].
  destruct (chain_chars p l C) as (a & b & T & B & L). unfold fits_i32 in F.
  assert (0 <= penalty_max m)%Z by (destruct m; cbn; lia). rewrite T, blen_app, app_length in F. nia.
Qed.

Lemma fits_nowrap : fits_i32 m text -> nowrap A m ws.
Proof.
  intros F p l C. destruct (chain_room F p l C) as [B3 B2].
  split; [unfold is_i32; lia|]. intros b Hb.
  destruct (rep_conn t A R _ _ B2 Hb) as [_ CN]. unfold is_i16, is_i32 in *. lia.
Qed.

Lemma chain_strict0 : fits_i32 m text -> forall p l, chain p l -> (-2147483647 < rc l < 2147483647)%Z.
Proof.
  intros F p l C. destruct (chain_room F p l C) as [B3 B2]. lia.
Qed.

Lemma chain_strict : fits_i32 m text -> forall p l, chain p l -> forall b, (b < a_bsize A)%N ->
  (-2147483647 < rc l + a_conn A (last_right l) b + last_pen l < 2147483647)%Z.
Proof.
  intros F p l C b Hb. destruct (chain_room F p l C) as [B3 B2].
  destruct (rep_conn t A R _ _ B2 Hb) as [_ CN]. unfold is_i16 in CN. lia.
Qed.

(** ** From chains to segmentations *)

(* the admitted words: those with an edge *)
Definition admitted (pre s k : str) (e : word_entry) : Prop :=
  exists ed rest, In ed ws /\ s = k ++ rest /\ edge_word A text ed pre k rest /\ e_entry ed = e.

(* the unknown words among them *)
Definition admitted_unk (pre s k : str) (e : word_entry) : Prop :=
  exists ed rest, In ed ws /\ s = k ++ rest /\ edge_word A text ed pre k rest /\ e_entry ed = e /\ e_type ed <> KNOWN.

Definition edge_item (w : word) (start : nat) : nat * word_id := (start, we_id (snd w)).

Fixpoint items (start : nat) (l : list word) : list (nat * word_id) :=
  match l with [] => [] | w :: r => edge_item w start :: items (start + blen (fst w)) r end.

Lemma items_app a : forall s b, items s (a ++ b) = items s a ++ items (s + blen (concat (map fst a))) b.
Proof.
  induction a as [|w a IH]; intros s b; cbn [app items map concat].
  - cbn [blen]. rewrite Nat.add_0_r. reflexivity.
  - rewrite IH, blen_app, Nat.add_assoc. reflexivity.
Qed.

(* the edge lies over this word of the text *)
Definition shows (ed : edge) (w : word) : Prop := exists pre rest, edge_word A text ed pre (fst w) rest /\ e_entry ed = snd w.

Lemma chain_seg p l : chain p l -> forall pre s tail,
  text = pre ++ s -> blen pre = p -> seg admitted pre s tail ->
  exists wl, seg admitted [] text (wl ++ tail) /\ concat (map fst wl) = pre /\
    rev (map path_item l) = items 0 wl /\
    (fits_i32 m text ->
     seg_cost A m (wl ++ tail) = (rc l + last_pen l + cost_from A m (last_right l) tail)%Z) /\
    Forall2 shows (rev l) wl.
Proof.
  intros C. induction C as [|e l I C IH]; intros pre s tail T P S.
  - exists []. destruct pre; [|pose proof (blen_pos (c :: pre)); assert (0 < blen (c :: pre)) by (apply H; discriminate); lia].
    cbn [app] in T. subst s. split; [exact S|]. split; [reflexivity|]. split; [reflexivity|]. split; [|constructor]. intros _. cbn. unfold seg_cost. lia.
  - destruct (edge_info e I) as (pre' & k & rest & EW). pose proof EW as (T' & NE & S1 & S2 & S3 & _).
    assert (Q : pre ++ s = (pre' ++ k) ++ rest) by (rewrite <- app_assoc; congruence).
    apply app_same_blen in Q; [|rewrite blen_app; lia]. destruct Q as [-> ->].
    destruct (IH pre' (k ++ rest) ((k, e_entry e) :: tail)) as (wl & W1 & W2 & W3 & W4 & W5).
    + rewrite <- app_assoc in T. exact T.
    + lia.
    + constructor; [exact NE| |exact S]. exists e, rest. auto.
    + exists (wl ++ [(k, e_entry e)]). rewrite <- app_assoc. cbn [app]. split; [exact W1|].
      split; [rewrite map_app, concat_app; cbn; rewrite app_nil_r; f_equal; exact W2|].
      split.
      * cbn [map rev]. rewrite W3, items_app. cbn [items Nat.add]. unfold path_item, edge_item. cbn [snd]. rewrite S1.
        do 4 f_equal. symmetry. exact W2.
      * split; [|cbn [rev]; apply Forall2_app; [exact W5|constructor; [exists pre', rest; split; [exact EW|reflexivity]|constructor]]].
        intros F. etransitivity; [exact (W4 F)|]. cbn [cost_from LVit.rc LVit.last_pen LVit.last_right].
        assert (BK : blen k <= blen text) by (rewrite T', !blen_app; lia).
        destruct (penalty_exact m text e k F BK) as [P1 _]; [lia|exact S3|]. rewrite P1. lia.
Qed.

(* and back *)
Lemma seg_chain pre s tail : seg admitted pre s tail -> text = pre ++ s -> forall l, chain (blen pre) l ->
  exists l', chain (blen text) l' /\
   (fits_i32 m text -> total A m l' = (rc l + last_pen l + cost_from A m (last_right l) tail)%Z) /\
   exists lt, rev l' = rev l ++ lt /\ Forall2 shows lt tail.
Proof.
  intros S. induction S as [pre|pre k e rest tl NE P S IH]; intros T l C.
  - exists l. rewrite app_nil_r in T. rewrite T. split; [exact C|]. split; [intros _; unfold total; cbn; lia|].
    exists []. rewrite app_nil_r. split; [reflexivity|constructor].
  - destruct P as (ed & rest' & I & ER & EW & <-). apply app_inv_head in ER. subst rest'.
    pose proof EW as (T' & _ & S1 & S2 & S3 & _).
    destruct (IH ltac:(rewrite <- app_assoc; exact T) (ed :: l)) as (l' & C' & W & lt & W2 & W3).
    + rewrite blen_app, <- S2. apply ch_cons; [exact I|]. rewrite S1. exact C.
    + exists l'. split; [exact C'|]. split.
      2:{ exists (ed :: lt). cbn [rev] in W2. rewrite <- app_assoc in W2. split; [exact W2|]. constructor; [|exact W3].
          exists pre, rest. split; [exact EW|reflexivity]. }
      intros F. rewrite (W F). cbn [cost_from LVit.rc LVit.last_pen LVit.last_right].
      assert (BK : blen k <= blen text) by (rewrite T', !blen_app; lia).
      destruct (penalty_exact m text ed k F BK) as [P1 _]; [lia|exact S3|]. rewrite P1. lia.
Qed.

(** ** Ties *)

Lemma shows_key ed ed' w w' : shows ed w -> shows ed' w' -> key ed = key ed' -> w = w'.
Proof.
  intros (pre & rest & (T & _ & S1 & S2 & _) & E) (pre' & rest' & (T' & _ & S1' & S2' & _) & E') K. destruct w as [k e], w' as [k' e'].
  cbn [fst snd] in *. unfold key in K.
  assert (KE : e_entry ed = e_entry ed' /\ e_start ed = e_start ed' /\ e_stop ed = e_stop ed') by (repeat split; congruence). destruct KE as (K1 & K2 & K3).
  rewrite T in T'. apply app_same_blen in T'; [|lia]. destruct T' as [<- T']. apply app_same_blen in T'; [|lia]. destruct T' as [<- _]. congruence.
Qed.

Lemma shows_keys l : forall l' ws1 ws2, Forall2 shows l ws1 -> Forall2 shows l' ws2 -> map key l = map key l' -> ws1 = ws2.
Proof.
  induction l as [|x l IH]; intros l' ws1 ws2 F1 F2 K; destruct l' as [|x' l']; try discriminate; inversion F1; subst; inversion F2; subst; [reflexivity|].
  cbn [map] in K. injection K as K1 K2. f_equal; [eapply shows_key; eauto; unfold key; congruence|]. eapply IH; eauto.
Qed.

Definition tied_words (wl wl' : list word) : Prop := wl = wl' \/
  exists a w z b w' e e', wl = a ++ w :: z /\ wl' = b ++ w' :: z /\ w <> w' /\ shows e w /\ shows e' w' /\
    In e ws /\ In e' ws /\ e_stop e = e_stop e' /\ e_stop e + blen (concat (map fst z)) = blen text /\ made_before ws e e'.

Lemma chain_rest z : forall p l z1, chain p (z ++ l) -> Forall2 shows (rev z) z1 ->
  exists q, chain q l /\ q + blen (concat (map fst z1)) = p.
Proof.
  induction z as [|x z IH]; intros p l z1 C F; cbn [app rev] in *.
  - inversion F; subst. exists p. split; [exact C|]. cbn. lia.
  - inversion C as [|? ? I C']; subst. apply Forall2_app_inv_l in F. destruct F as (z2 & z3 & F1 & F2 & ->).
    inversion F2 as [|? w ? ? S F3]; subst. inversion F3; subst. destruct (IH _ _ _ C' F1) as (q & C2 & Q). exists q. split; [exact C2|].
    destruct S as (pre & rest & (_ & _ & S1 & S2 & _) & _). rewrite map_app, concat_app, blen_app. cbn [map concat]. rewrite app_nil_r. rewrite S2, <- S1, <- Q, Nat.add_assoc. reflexivity.
Qed.

Lemma tied_shown l l' wl wl' : chain (blen text) l -> tied ws l l' -> Forall2 shows (rev l) wl -> Forall2 shows (rev l') wl' -> tied_words wl wl'.
Proof.
  intros C [K|(z & a & e & z' & b & e' & -> & -> & K & I & I' & ST & KN & MB)] F1 F2.
  - left. eapply shows_keys; [exact F1|exact F2|]. rewrite !map_rev, K. reflexivity.
  - right. rewrite rev_app_distr in F1, F2. cbn [rev] in F1, F2. rewrite <- app_assoc in F1, F2. cbn [app] in F1, F2.
    apply Forall2_app_inv_l in F1. destruct F1 as (a1 & c1 & _ & F1 & ->). inversion F1 as [|? w ? z1 S1 F1']; subst.
    apply Forall2_app_inv_l in F2. destruct F2 as (a2 & c2 & _ & F2 & ->). inversion F2 as [|? w' ? z2 S2 F2']; subst.
    assert (z1 = z2) as <- by (eapply shows_keys; [exact F1'|exact F2'|]; rewrite !map_rev, K; reflexivity).
    exists a1, w, z1, a2, w', e, e'. split; [reflexivity|]. split; [reflexivity|]. split.
    2:{ destruct (chain_rest _ _ _ _ C F1') as (q & C2 & Q). inversion C2; subst. auto 8. }
    intros ->. apply KN. destruct S1 as (p1 & r1 & (T1 & _ & A1 & B1 & D1 & _) & E1), S2 as (p2 & r2 & (T2 & _ & A2 & B2 & D2 & _) & E2).
    unfold key. rewrite E1, E2, ST, D1, D2. replace (e_start e') with (e_start e) by lia. reflexivity.
Qed.

(** ** The search result *)

Lemma follow_items l wl i f E : rev (map path_item l) = items 0 wl ->
  follow f E 1 = Some (Ok (i :: map path_item l)) ->
  match follow f E 1 with None => None | Some r => Some (do x <- r; Ok (removelast (rev x))) end = Some (Ok (items 0 wl)).
Proof. intros H ->. cbn [bind rev]. rewrite removelast_last, H. reflexivity. Qed.

Lemma path_costs_cap cap : blen text <= cap ->
  forall E, calculate_path_costs (d_matrix (t_dictionary t)) m (lat_of (blen text) (blen text) ws) =
    Ok (Lattice (blen text) E (starts_at (lat_of (blen text) (blen text) ws)) (ends_at (lat_of (blen text) (blen text) ws))) ->
  calculate_path_costs (d_matrix (t_dictionary t)) m (lat_of (blen text) cap ws) =
    Ok (Lattice cap E (starts_at (lat_of (blen text) cap ws)) (ends_at (lat_of (blen text) cap ws))).
Proof.
  intros CL E. unfold calculate_path_costs.
  assert (LS : forall c, length (starts_at (lat_of (blen text) c ws)) = S c) by (intros c; unfold lat_of; cbn [starts_at]; rewrite map_length, seq_length; reflexivity).
  rewrite !LS. replace (S cap) with (S (blen text) + (cap - blen text)) by lia. rewrite seq_app, foldM_app.
  set (f1 := fun es i => do lefts <- idx (ends_at (lat_of (blen text) (blen text) ws)) i; _).
  set (f2 := fun es i => do lefts <- idx (ends_at (lat_of (blen text) cap ws)) i; _).
  assert (X : forall ps es, (forall i, In i ps -> i <= blen text) -> foldM f1 ps es = foldM f2 ps es).
  { induction ps as [|i ps IH]; intros es H; [reflexivity|]. cbn [foldM].
    assert (Q : f1 es i = f2 es i).
    { subst f1 f2. unfold lat_of. cbn [ends_at starts_at]. unfold idx.
      assert (i <= blen text) by (apply H; left; reflexivity). rewrite !nth_error_map_seq by lia. reflexivity. }
    rewrite Q. destruct (f2 es i); cbn [bind]; [|reflexivity|reflexivity]. apply IH. intros j J. apply H. right. exact J. }
  assert (Y : forall ps es, (forall i, In i ps -> blen text < i <= cap) -> foldM f2 ps es = Ok es).
  { induction ps as [|i ps IH]; intros es H; [reflexivity|]. cbn [foldM].
    assert (Q : f2 es i = Ok es).
    { subst f2. unfold lat_of. cbn [ends_at starts_at]. unfold idx.
      assert (blen text < i <= cap) by (apply H; left; reflexivity). rewrite !nth_error_map_seq by lia. cbn [bind Nat.add].
      assert (Z : starts_of (blen text) ws i = []).
      { destruct (starts_of (blen text) ws i) as [|x l] eqn:Q; [reflexivity|].
        assert (IN : In x (starts_of (blen text) ws i)) by (rewrite Q; left; reflexivity).
        apply starts_in in IN as [[-> _]|(n & e & _ & IN & <-)]; [lia|].
        apply nth_error_In in IN. pose proof scan_positions as SP. rewrite Forall_forall in SP. apply SP in IN. lia. }
      rewrite Z. reflexivity. }
    rewrite Q. cbn [bind]. apply IH. intros j J. apply H. right. exact J. }
  change (edges (lat_of (blen text) (blen text) ws)) with (edges (lat_of (blen text) cap ws)).
  rewrite X by (intros i I; apply in_seq in I; lia).
  destruct (foldM f2 (seq 0 (S (blen text))) (edges (lat_of (blen text) cap ws))) as [E1| |]; cbn [bind]; try discriminate.
  intros H. injection H as ->. rewrite Y by (intros i I; apply in_seq in I; lia). reflexivity.
Qed.

Lemma sentence_search : text <> [] ->
  exists E wl, 
    (forall cap, blen text <= cap ->
      let l2 := Lattice cap E (starts_at (lat_of (blen text) cap ws)) (ends_at (lat_of (blen text) cap ws)) in
      calculate_path_costs (d_matrix (t_dictionary t)) m (lat_of (blen text) cap ws) = Ok l2 /\
      tokens_offset l2 = Some (Ok (items 0 wl))) /\
    if reachb ws (blen text)
    then seg admitted [] text wl /\
         (fits_i32 m text -> forall wl', seg admitted [] text wl' -> (seg_cost A m wl <= seg_cost A m wl')%Z) /\
         (fits_i32 m text -> exists eos, nth_error E 1 = Some eos /\ e_path_cost eos = seg_cost A m wl) /\
         (fits_i32 m text -> Forall (fun e => (-2147483647 < e_path_cost e < 2147483647)%Z) E) /\
         (exists eos, nth_error E 1 = Some eos /\ is_i32 (e_path_cost eos)) /\
         (fits_i32 m text -> forall wl', seg admitted [] text wl' -> (seg_cost A m wl' <= seg_cost A m wl)%Z -> tied_words wl wl')
    else wl = [].
Proof.
  intros NE. pose proof (blen_pos text NE) as BP.
  destruct (path_costs_final t A R m (blen text) ws scan_entries scan_positions (blen text) (le_n _)) as (E & EQ & F).
  exists E. unfold tokens_offset. cbn [edges starts_at].
  assert (LS : forall cap, length (starts_at (lat_of (blen text) cap ws)) = S cap) by (intros cap; unfold lat_of; cbn [starts_at]; rewrite map_length, seq_length; reflexivity).
  destruct (reachb ws (blen text)) eqn:RB.
  - destruct (eos_path t A R m (blen text) ws scan_entries scan_positions (scan_reachable A m text) E F RB)
      as (l & C & FO & OPT & (EV & EC) & TIE).
    assert (S0 : seg admitted text [] []) by constructor.
    destruct (chain_seg _ _ C text [] []) as (wl & W1 & W2 & W3 & W4 & W5); [rewrite app_nil_r; reflexivity|reflexivity|exact S0|].
    rewrite app_nil_r in *.
    assert (EOS : fits_i32 m text -> e_path_cost (nthE E 1) = seg_cost A m wl /\ (-2147483647 < seg_cost A m wl < 2147483647)%Z).
    { intros FI. pose proof (fits_nowrap FI) as NW. specialize (W4 FI). cbn [cost_from] in W4.
      rewrite EC, (wrc_rc A m ws scan_entries NW _ _ C). 
      assert (BL : (0 < a_bsize A)%N) by apply (rep_sizes t A R).
      destruct (NW _ _ C) as [_ N2]. destruct (N2 _ BL) as [N3 N4].
      rewrite (wrap32_id _ N3), !(wrap32_id _ N4). split; [lia|].
      pose proof (chain_strict FI _ _ C 0%N BL). lia. }
    exists wl. split.
    + intros cap CL. split; [apply path_costs_cap; assumption|]. rewrite LS.
      destruct (FO (S (S (S cap)))) as [i FO']; [lia|]. eapply follow_items; eassumption.
    + split; [exact W1|]. split; [|split; [|split; [|split]]].
      * intros FI wl' S'.
        destruct (seg_chain [] text wl' S' eq_refl []) as (l' & C' & W' & _); [constructor|].
        specialize (OPT (fits_nowrap FI) l' C'). specialize (W4 FI). specialize (W' FI).
        rewrite W4. unfold seg_cost. cbn in W'. unfold total in OPT at 1. cbn [cost_from]. lia.
      * intros FI. exists (nthE E 1). split; [exact EV|]. apply EOS. exact FI.
      * intros FI. apply Forall_forall. intros e IE. apply In_nth_error in IE as [id IE].
        pose proof (fits_nowrap FI) as NW.
        destruct id as [|[|n]].
        -- rewrite (fin_bos _ _ _ _ _ F) in IE. injection IE as <-. cbn. lia.
        -- rewrite EV in IE. injection IE as <-. destruct (EOS FI) as [-> X]. exact X.
        -- assert (LE : length E = S (S (length ws))).
           { pose proof (fin_static _ _ _ _ _ F) as ST. unfold same_static in ST. rewrite <- (map_length static E), ST, map_length. reflexivity. }
           assert (NL : n < length ws) by (assert (S (S n) < length E) by (apply nth_error_Some; congruence); lia).
           destruct (nth_error ws n) as [w|] eqn:EW; [|apply nth_error_None in EW; lia].
           destruct (edge_chain A m (blen text) ws scan_positions (scan_reachable A m text) E F (e_stop w) (S (S n))) as (lc & C1 & C2 & _).
           { apply ends_in. right. exists n, w. auto. }
           destruct C2 as (C2 & _). rewrite (nthE_nth _ _ _ IE) in C2. rewrite C2, (wrc_rc A m ws scan_entries NW _ _ C1).
           pose proof (chain_strict0 FI _ _ C1). lia.
      * exists (nthE E 1). split; [exact EV|]. rewrite EC. apply wrap32_range.
      * intros FI wl' S' LE. destruct (seg_chain [] text wl' S' eq_refl []) as (l' & C' & W' & lt & L1 & L2); [constructor|].
        specialize (W4 FI). specialize (W' FI). cbn [rev app] in L1. rewrite <- L1 in L2. apply (tied_shown l l'); [exact C| |exact W5|exact L2].
        apply (TIE (fits_nowrap FI) l' C'). rewrite W4 in LE. unfold seg_cost in LE. cbn in W'. unfold total at 2. cbn [cost_from] in LE. lia.
  - exists []. split; [|reflexivity]. intros cap CL. split; [apply path_costs_cap; assumption|].
    rewrite LS, (eos_no_path A m (blen text) ws E) by (assumption || lia). reflexivity.
Qed.

End Seg.
