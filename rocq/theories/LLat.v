(** The imperative lattice construction computes the pure scan. *)
From Coq Require Import List NArith ZArith Bool Lia ZifyBool ZifyNat ZifyN.
From Verif Require Import MBase MUtf8 MText MCodec MDict MCharDef MUnk MLattice MTokenizer STok LBase LUtf8 LScan.
Import ListNotations.

Section Refine.
Variable t : tokenizer.
Variable A : adict.
Hypothesis R : represents t A.

Let d := t_dictionary t.

Lemma foldM_dict_edges len cap start s ws : forall es f,
  (forall k e, In (k, e) ws -> exists r, s = k ++ r) -> start + blen s <= cap ->
  foldM (fun '(l, _) w => do e <- dict_edge start s w; do l' <- add_edge_in_lattice l e; Ok (l', true))
        (map (fun '(k, e) => (blen k, e)) ws) (lat_of len cap es, f)
  = Ok (lat_of len cap (es ++ map (word_edge KNOWN start) ws), f || negb (is_nil ws)).
Proof.
  induction ws as [|[k e] ws IH]; intros es f P C; cbn [map foldM is_nil negb].
  - rewrite app_nil_r, orb_false_r. reflexivity.
  - destruct (P k e) as [r E]; [left; reflexivity|].
    unfold dict_edge at 1. rewrite E at 1. rewrite str_to_app. cbn [bind].
    rewrite add_edge_lat; cbn [e_start e_stop].
    2:{ lia. }
    2:{ rewrite E, blen_app in C. lia. }
    cbn [bind]. rewrite IH; [|intros k' e' H; apply (P k' e'); right; exact H|exact C].
    rewrite <- app_assoc. cbn [app]. rewrite !orb_true_r. reflexivity.
Qed.

Lemma add_dict_edges_lat pd tbl len cap start s es f :
  dict_means pd tbl -> valid_str s -> start + blen s <= cap ->
  add_dict_edges pd start s (lat_of len cap es, f)
  = Ok (lat_of len cap (es ++ map (word_edge KNOWN start) (prefix_words tbl s)), f || negb (is_nil (prefix_words tbl s))).
Proof.
  intros M V C. unfold add_dict_edges. rewrite M by exact V. cbn [bind].
  apply foldM_dict_edges; [|exact C]. intros k e H. apply prefix_words_in in H. tauto.
Qed.

Lemma group_len_run k ord s : valid_str s -> group_len (d_chardef d) k ord s = Ok (run_len A k ord s).
Proof.
  induction s as [|c s IH]; intros V; cbn [group_len run_len]; [reflexivity|].
  inversion V; subst. rewrite (rep_cats t A R) by assumption. cbn [bind].
  unfold category_id in *.   destruct (nth_error (a_cats A c) ord) as [k'|]; [|reflexivity].
  destruct (Nat.eqb k' k); [|reflexivity]. rewrite IH by assumption. reflexivity.
Qed.

Lemma foldM_unk_edges len cap start w ids : forall es ents,
  mapM (ud_word_entry (d_unknown d)) ids = Ok ents -> start + blen w <= cap ->
  foldM (fun l id => do entry <- ud_word_entry (d_unknown d) id;
               add_edge_in_lattice l (Edge UNKNOWN entry i32_max None start (start + blen w) (is_kanji_only w)))
        ids (lat_of len cap es)
  = Ok (lat_of len cap (es ++ map (fun e => word_edge UNKNOWN start (w, e)) ents)).
Proof.
  induction ids as [|id ids IH]; intros es ents M C; cbn [mapM foldM] in *.
  - injection M as <-. cbn. rewrite app_nil_r. reflexivity.
  - destruct (ud_word_entry (d_unknown d) id) as [e| |] eqn:E; try discriminate. cbn [bind] in *.
    destruct (mapM (ud_word_entry (d_unknown d)) ids) as [es'| |]; try discriminate. cbn [bind] in M.
    injection M as <-. rewrite add_edge_lat by (cbn; lia). cbn [bind].
    erewrite IH by (reflexivity || assumption). cbn [map]. rewrite <- app_assoc. reflexivity.
Qed.

Lemma process_unknown_lat len cap c r start found es ue ord k :
  valid_str (c :: r) -> In k (a_cats A c) -> start + blen (c :: r) <= cap ->
  process_unknown_word (d_chardef d) (d_unknown d) k ord ue start (c :: r) found (lat_of len cap es)
  = Ok (lat_of len cap (fst (unk_step A found start (c :: r) (es, ue) (ord, k))), snd (unk_step A found start (c :: r) (es, ue) (ord, k))).
Proof.
  intros V I C. inversion V as [|? ? Vc Vr]; subst.
  destruct (rep_def t A R c k Vc I) as [n D]. destruct (rep_unk t A R c k Vc I) as (ids & L & M).
  unfold process_unknown_word, unk_step, unk_surface. fold d in D, L, M. rewrite D. cbn [bind cd_invoke cd_group].
  destruct (a_invoke A k || negb found) eqn:E.
  - cbn [tl]. rewrite group_len_run by assumption.
    set (g := if a_group A k then run_len A k ord r else 0).
    assert (G : (if a_group A k then bind (Ok (run_len A k ord r)) (fun k0 => Ok (S k0)) else Ok 1) = Ok (S g)).
    { subst g. destruct (a_group A k); reflexivity. }
    rewrite G. cbn [bind]. cbn [Nat.ltb Nat.leb]. rewrite L. cbn [bind].
    set (w := firstn (S g) (c :: r)).
    assert (B : start + blen w <= cap).
    { assert (H : blen (c :: r) = blen w + blen (skipn (S g) (c :: r))) by (unfold w; rewrite <- blen_app, firstn_skipn; reflexivity).
      rewrite H in C. lia. }
    rewrite (foldM_unk_edges len cap start w ids es (a_unk A k) M B). cbn [bind fst snd]. reflexivity.
  - cbn [bind Nat.ltb Nat.leb fst snd]. reflexivity.
Qed.

Lemma foldM_unknown len cap c r start found cats : forall es ue,
  valid_str (c :: r) -> (forall ord k, In (ord, k) cats -> In k (a_cats A c)) -> start + blen (c :: r) <= cap ->
  foldM (fun '(l, ue) '(ord, category) =>
           process_unknown_word (d_chardef d) (d_unknown d) category ord ue start (c :: r) found l)
        cats (lat_of len cap es, ue)
  = Ok (lat_of len cap (fst (fold_left (unk_step A found start (c :: r)) cats (es, ue))),
        snd (fold_left (unk_step A found start (c :: r)) cats (es, ue))).
Proof.
  induction cats as [|[ord k] cats IH]; intros es ue V I C; [reflexivity|].
  cbn [foldM fold_left]. rewrite process_unknown_lat; auto; [|apply (I ord); left; reflexivity].
  cbn [bind]. rewrite IH; auto.
  - destruct (unk_step A found start (c :: r) (es, ue) (ord, k)). reflexivity.
  - intros o k' H. apply (I o). right. exact H.
Qed.

Lemma ends_of_reach es p : reachb es p = match ends_of es p with [] => false | _ => true end.
Proof.
  unfold reachb, ends_of. destruct (Nat.eqb p 0); [reflexivity|]. cbn [orb app].
  assert (G : forall n, existsb (fun e => Nat.eqb (e_stop e) p) es = match ids_from n (fun e => Nat.eqb (e_stop e) p) es with [] => false | _ => true end).
  { induction es as [|e es IH]; intros n; cbn [existsb ids_from]; [reflexivity|].
    destruct (Nat.eqb (e_stop e) p); [reflexivity|]. cbn [orb]. apply IH. }
  apply G.
Qed.

Lemma set_text_step_lat m text cap es ue start :
  valid_str text -> start < blen text -> blen text <= cap -> edges_ok A text es ->
  set_text_step (d_dict d) (option_map u_dict (t_user t)) (d_chardef d) (d_unknown d) text m
    (lat_of (blen text) cap es, ue) start
  = Ok (lat_of (blen text) cap (fst (pure_step A m text (es, ue) start)), snd (pure_step A m text (es, ue) start)).
Proof.
  intros V L C OK. unfold set_text_step, pure_step. cbn [fst].
  unfold lat_of at 1. cbn [ends_at]. unfold idx. rewrite nth_error_map_seq by lia. cbn [bind Nat.add].
  rewrite ends_of_reach. destruct (ends_of es start) as [|x0 xs] eqn:E; [reflexivity|].
  assert (RB : reachb es start = true) by (rewrite ends_of_reach, E; reflexivity).
  destruct (reach_boundary A text es start OK RB) as (pre & s & -> & <-).
  rewrite str_from_app, suffix_at_app. cbn [bind].
  apply valid_str_app in V as [V1 V2].
  assert (C2 : blen pre + blen s <= cap) by (rewrite blen_app in C; lia).
  assert (U : match option_map u_dict (t_user t) with
              | Some u => add_dict_edges u (blen pre) s (lat_of (blen (pre ++ s)) cap es, false)
              | None => Ok (lat_of (blen (pre ++ s)) cap es, false)
              end = Ok (lat_of (blen (pre ++ s)) cap (es ++ map (word_edge KNOWN (blen pre)) (prefix_words (a_usr A) s)),
                        negb (is_nil (prefix_words (a_usr A) s)))).
  { pose proof (rep_usr t A R) as RU. destruct (t_user t) as [u|]; cbn [option_map].
    - rewrite (add_dict_edges_lat _ (a_usr A)) by assumption. reflexivity.
    - rewrite RU. unfold prefix_words. cbn [entries_of].
      assert (Z : flat_map (fun n => map (pair (firstn n s)) ([] : list word_entry)) (seq 1 (length s)) = []).
      { induction (seq 1 (length s)); auto. }
      cbn [map] in *. rewrite Z. cbn. rewrite app_nil_r. reflexivity. }
  rewrite U. cbn [bind].
  rewrite (add_dict_edges_lat _ (a_sys A)) by (apply (rep_sys t A R) || assumption). cbn [bind].
  rewrite <- app_assoc, <- map_app. fold (dict_words A s).
  assert (F : negb (is_nil (prefix_words (a_usr A) s)) || negb (is_nil (prefix_words (a_sys A) s)) = negb (is_nil (dict_words A s))).
  { unfold dict_words. destruct (prefix_words (a_usr A) s); reflexivity. }
  rewrite F. unfold pos_step. fold (unk_active m ue (blen pre)).
  destruct (unk_active m ue (blen pre)); [|reflexivity].
  destruct s as [|c r]; [reflexivity|].
  inversion V2; subst. rewrite (rep_cats t A R) by assumption. cbn [bind].
  rewrite foldM_unknown; auto.
  intros ord k H'. apply in_combine_r in H'. exact H'.
Qed.

Lemma scan_refine m text cap n : forall start es ue,
  start + n = blen text -> valid_str text -> blen text <= cap -> edges_ok A text es ->
  foldM (set_text_step (d_dict d) (option_map u_dict (t_user t)) (d_chardef d) (d_unknown d) text m)
    (seq start n) (lat_of (blen text) cap es, ue)
  = Ok (lat_of (blen text) cap (fst (fold_left (pure_step A m text) (seq start n) (es, ue))),
        snd (fold_left (pure_step A m text) (seq start n) (es, ue))).
Proof.
  induction n as [|n IH]; intros start es ue E V C OK; [reflexivity|].
  cbn [seq foldM fold_left]. rewrite set_text_step_lat by (assumption || lia). cbn [bind].
  pose proof (pure_step_ok A m text es ue start OK) as OK1.
  destruct (pure_step A m text (es, ue) start) as [es1 ue1]. cbn [fst snd] in *.
  apply IH; auto. lia.
Qed.

Lemma set_text_scan l m text :
  valid_str text -> text <> [] -> reusable l ->
  set_text l (d_dict d) (option_map u_dict (t_user t)) (d_chardef d) (d_unknown d) text m
  = Ok (lat_of (blen text) (Nat.max (capacity l) (blen text)) (scan A m text)).
Proof.
  intros V NE RU. pose proof (blen_0 text) as B0.
  assert (B : 0 < blen text) by (destruct (Nat.eq_dec (blen text) 0); [tauto|lia]).
  unfold set_text. rewrite set_capacity_reusable by assumption.
  set (cap := Nat.max (capacity l) (blen text)).
  unfold add_edge. cbn [edges length app capacity starts_at ends_at Nat.eqb negb].
  rewrite !(repeat_map_seq _ (S cap) 0).
  rewrite !push_at_map by lia. cbn [bind].
  match goal with |- context [Lattice cap ?x ?y ?z] =>
    replace (Lattice cap x y z) with (lat_of (blen text) cap []) end.
  2:{ unfold lat_of. f_equal; apply map_ext; intros j; unfold starts_of, ends_of; cbn; destruct (Nat.eqb j _); reflexivity. }
  rewrite scan_refine; [reflexivity|reflexivity|assumption|lia|constructor].
Qed.

End Refine.
