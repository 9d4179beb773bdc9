(** Lemmas on the number of calls of lookup_categories. *)
From Coq Require Import List NArith ZArith Bool Lia.
From Verif Require Import MBase MUtf8 MText MCodec MDict MCharDef MUnk MLattice MTokenizer MReads STok SWork LUtf8 LScan LLat LCand LWork LBase.
Import ListNotations.

(** ** Forgetting the counter *)
Definition forget {X Y} (r : res (X * Y)) : res X := do '(x, _) <- r; Ok x.

Lemma forget_group cd k ord s : forget (counted_group cd k ord s) = group_len cd k ord s.
Proof.
  induction s as [|c s IH]; cbn [counted_group group_len]; [reflexivity|]. destruct (lookup_categories cd c) as [cats| |]; try reflexivity. cbn [bind].
  unfold category_id in *. destruct (nth_error cats ord) as [k'|]; [|reflexivity]. destruct (Nat.eqb k' k); [|reflexivity].
  rewrite <- IH. destruct (counted_group cd k ord s) as [[n x]| |]; reflexivity.
Qed.
Lemma forget_unknown cd ud k ord ue start suffix found l total :
  forget (counted_unknown_word cd ud k ord ue start suffix found l total) = process_unknown_word cd ud k ord ue start suffix found l.
Proof.
  unfold counted_unknown_word, process_unknown_word. destruct (lookup_definition cd k) as [data| |]; try reflexivity. cbn [bind].
  assert (T : forall n x, forget (if Nat.ltb 0 n then
    let unknown_word := firstn n suffix in
    do ids <- ud_lookup_word_ids ud k;
    do l' <- foldM (fun l id =>
               do entry <- ud_word_entry ud id;
               add_edge_in_lattice l
                 (Edge UNKNOWN entry i32_max None start (start + blen unknown_word) (is_kanji_only unknown_word)))
             ids l;
    Ok (l', Some (start + blen unknown_word), total + x)
  else Ok (l, ue, total + x)) = if Nat.ltb 0 n then
    let unknown_word := firstn n suffix in
    do ids <- ud_lookup_word_ids ud k;
    do l' <- foldM (fun l id =>
               do entry <- ud_word_entry ud id;
               add_edge_in_lattice l
                 (Edge UNKNOWN entry i32_max None start (start + blen unknown_word) (is_kanji_only unknown_word)))
             ids l;
    Ok (l', Some (start + blen unknown_word))
  else Ok (l, ue)).
  { intros n x. destruct (Nat.ltb 0 n); [|reflexivity]. cbv zeta. destruct (ud_lookup_word_ids ud k) as [ids| |]; try reflexivity. cbn [bind].
    destruct (foldM _ ids l) as [l'| |]; reflexivity. }
  destruct (cd_invoke data || negb found); [|apply T]. destruct (cd_group data); [|apply T]. rewrite <- forget_group.
  destruct (counted_group cd k ord (tl suffix)) as [[n x]| |]; try reflexivity. cbn [bind forget]. apply T.
Qed.
Lemma forget_unknowns cd ud start suffix found cats : forall l ue total,
  forget (foldM (fun '(l, ue, total) '(ord, category) => counted_unknown_word cd ud category ord ue start suffix found l total) cats (l, ue, total))
  = foldM (fun '(l, ue) '(ord, category) => process_unknown_word cd ud category ord ue start suffix found l) cats (l, ue).
Proof.
  induction cats as [|[ord k] cats IH]; intros l ue total; cbn [foldM]; [reflexivity|]. rewrite <- (forget_unknown cd ud k ord ue start suffix found l total).
  destruct (counted_unknown_word cd ud k ord ue start suffix found l total) as [[[l' ue'] n]| |]; try reflexivity. cbn [bind forget]. apply IH.
Qed.
Lemma forget_step dict user cd ud text m l ue total start :
  forget (counted_step dict user cd ud text m (l, ue, total) start) = set_text_step dict user cd ud text m (l, ue) start.
Proof.
  unfold counted_step, set_text_step. destruct (idx (ends_at l) start) as [[|x ends]| |]; try reflexivity. cbn [bind].
  destruct (str_from text start) as [suffix| |]; try reflexivity. cbn [bind].
  destruct (match user with Some u => add_dict_edges u start suffix (l, false) | None => Ok (l, false) end) as [[l1 f1]| |]; try reflexivity. cbn [bind].
  destruct (add_dict_edges dict start suffix (l1, f1)) as [[l2 f2]| |]; try reflexivity. cbn [bind].
  destruct (is_search m || match ue with Some i => Nat.leb i start | None => true end); [|reflexivity].
  destruct suffix as [|c r]; [reflexivity|]. destruct (lookup_categories cd c) as [cats| |]; try reflexivity. cbn [bind]. apply forget_unknowns.
Qed.
Theorem forget_text l dict user cd ud text m : forget (counted_text l dict user cd ud text m) = set_text l dict user cd ud text m.
Proof.
  unfold counted_text, set_text. destruct (add_edge (set_capacity l (blen text)) default_edge) as [a l1]. destruct (add_edge l1 default_edge) as [b l2].
  destruct (negb (Nat.eqb b 1)); [reflexivity|]. destruct (push_at (ends_at l2) 0 a) as [t| |]; try reflexivity. cbn [bind].
  destruct (push_at (starts_at l2) (blen text) b) as [s| |]; try reflexivity. cbn [bind].
  assert (G : forall ps l ue n, forget (foldM (counted_step dict user cd ud text m) ps (l, ue, n)) = foldM (set_text_step dict user cd ud text m) ps (l, ue)).
  { induction ps as [|p ps IH]; intros l0 ue n; cbn [foldM]; [reflexivity|]. rewrite <- (forget_step dict user cd ud text m l0 ue n p).
    destruct (counted_step dict user cd ud text m (l0, ue, n) p) as [[[l' ue'] n']| |]; try reflexivity. cbn [bind forget]. apply IH. }
  rewrite <- (G _ _ _ 0). destruct (foldM (counted_step dict user cd ud text m) _ _) as [[[l' ue'] n']| |]; reflexivity.
Qed.

(** ** The counter as a function of the abstract state *)
Section looks.
Variables (t : tokenizer) (A : adict).
Hypothesis R : represents t A.
Local Notation d := (t_dictionary t).

Fixpoint look_len (k ord : nat) (s : str) : nat :=
  match s with
  | [] => 0
  | c :: r => match nth_error (a_cats A c) ord with
              | Some k' => if Nat.eqb k' k then S (look_len k ord r) else 1
              | None => 1
              end
  end.
Definition unk_looks (found : bool) (s : str) (ok : nat * nat) : nat :=
  let '(ord, k) := ok in if a_invoke A k || negb found then if a_group A k then look_len k ord (tl s) else 0 else 0.
Definition pos_looks (m : mode) (start : nat) (s : str) (ue : option nat) : nat :=
  if unk_active m ue start then
    match s with
    | [] => 0
    | c :: _ => S (list_sum (map (unk_looks (negb (MText.is_nil (dict_words A s))) s) (enumerate (a_cats A c))))
    end
  else 0.
Definition step_looks (m : mode) (text : str) (st : list edge * option nat) (start : nat) : nat :=
  if reachb (fst st) start then pos_looks m start (suffix_at text start) (snd st) else 0.
Fixpoint looks (m : mode) (text : str) (ps : list nat) (st : list edge * option nat) : nat :=
  match ps with
  | [] => 0
  | p :: ps => step_looks m text st p + looks m text ps (pure_step A m text st p)
  end.

Lemma counted_group_run k ord s : valid_str s -> counted_group (d_chardef d) k ord s = Ok (run_len A k ord s, look_len k ord s).
Proof.
  induction s as [|c s IH]; intros V; cbn [counted_group run_len look_len]; [reflexivity|].
  inversion V; subst. rewrite (rep_cats t A R) by assumption. cbn [bind].
  unfold category_id in *. destruct (nth_error (a_cats A c) ord) as [k'|]; [|reflexivity].
  destruct (Nat.eqb k' k); [|reflexivity]. rewrite IH by assumption. reflexivity.
Qed.

Lemma counted_unknown_total cd ud k ord ue start suffix found l total l' ue' n :
  counted_unknown_word cd ud k ord ue start suffix found l total = Ok (l', ue', n) ->
  exists data, lookup_definition cd k = Ok data /\
    n = total + match (if cd_invoke data || negb found then if cd_group data then do '(a, b) <- counted_group cd k ord (tl suffix); Ok b else Ok 0 else Ok 0) with Ok b => b | _ => 0 end.
Proof.
  unfold counted_unknown_word. intros H. destruct (lookup_definition cd k) as [data| |]; try discriminate. exists data. split; [reflexivity|]. cbn [bind] in H.
  assert (T : forall i x, (if Nat.ltb 0 i then
    let unknown_word := firstn i suffix in
    do ids <- ud_lookup_word_ids ud k;
    do l' <- foldM (fun l id =>
               do entry <- ud_word_entry ud id;
               add_edge_in_lattice l
                 (Edge UNKNOWN entry i32_max None start (start + blen unknown_word) (is_kanji_only unknown_word)))
             ids l;
    Ok (l', Some (start + blen unknown_word), total + x)
  else Ok (l, ue, total + x)) = Ok (l', ue', n) -> n = total + x).
  { intros i x. destruct (Nat.ltb 0 i); [|intros [= _ _ <-]; reflexivity]. cbv zeta. destruct (ud_lookup_word_ids ud k) as [ids| |]; try discriminate. cbn [bind].
    destruct (foldM _ ids l) as [l0| |]; try discriminate. intros [= _ _ <-]. reflexivity. }
  destruct (cd_invoke data || negb found); [|exact (T 0 0 H)]. destruct (cd_group data); [|exact (T 1 0 H)].
  destruct (counted_group cd k ord (tl suffix)) as [[a b]| |]; try discriminate. exact (T (S a) b H).
Qed.

Lemma with_total {X Y} (r : res (X * Y)) x : forget r = Ok x -> exists y, r = Ok (x, y).
Proof. destruct r as [[a b]| |]; cbn; try discriminate. intros [= ->]. exists b. reflexivity. Qed.

Lemma same_total {X Y} (a a' : X) (b b' : Y) (n n' : nat) : Ok (a, b, n) = Ok (a', b', n') -> n = n'.
Proof. intros [= _ _ H]. exact H. Qed.

Lemma counted_unknown_lat len cap c r start found es ue ord k total :
  valid_str (c :: r) -> In k (a_cats A c) -> start + blen (c :: r) <= cap ->
  counted_unknown_word (d_chardef d) (d_unknown d) k ord ue start (c :: r) found (lat_of len cap es) total
  = Ok (lat_of len cap (fst (unk_step A found start (c :: r) (es, ue) (ord, k))), snd (unk_step A found start (c :: r) (es, ue) (ord, k)),
        total + unk_looks found (c :: r) (ord, k)).
Proof.
  intros V I C. pose proof (forget_unknown (d_chardef d) (d_unknown d) k ord ue start (c :: r) found (lat_of len cap es) total) as F.
  rewrite (process_unknown_lat t A R) in F by assumption. apply with_total in F as [n F]. rewrite F. f_equal. f_equal.
  apply counted_unknown_total in F as (data & D & ->). f_equal. inversion V as [|? ? Vc Vr]; subst. destruct (rep_def t A R c k Vc I) as [q D']. rewrite D' in D. injection D as <-.
  cbn [cd_invoke cd_group tl unk_looks]. destruct (a_invoke A k || negb found); [|reflexivity]. destruct (a_group A k); [|reflexivity]. rewrite counted_group_run by assumption. reflexivity.
Qed.
Lemma counted_unknowns len cap c r start found cats : forall es ue total,
  valid_str (c :: r) -> (forall ord k, In (ord, k) cats -> In k (a_cats A c)) -> start + blen (c :: r) <= cap ->
  foldM (fun '(l, ue, total) '(ord, category) =>
           counted_unknown_word (d_chardef d) (d_unknown d) category ord ue start (c :: r) found l total)
        cats (lat_of len cap es, ue, total)
  = Ok (lat_of len cap (fst (fold_left (unk_step A found start (c :: r)) cats (es, ue))),
        snd (fold_left (unk_step A found start (c :: r)) cats (es, ue)), total + list_sum (map (unk_looks found (c :: r)) cats)).
Proof.
  induction cats as [|[ord k] cats IH]; intros es ue total V I C; [cbn; rewrite Nat.add_0_r; reflexivity|].
  cbn [foldM fold_left]. rewrite counted_unknown_lat; auto; [|apply (I ord); left; reflexivity].
  cbn [bind]. rewrite IH; auto.
  - destruct (unk_step A found start (c :: r) (es, ue) (ord, k)). cbn [fst snd map]. f_equal. f_equal. unfold list_sum. cbn [fold_right]. lia.
  - intros o k' H. apply (I o). right. exact H.
Qed.
Lemma counted_step_lat m text cap es ue start total :
  valid_str text -> start < blen text -> blen text <= cap -> edges_ok A text es ->
  counted_step (d_dict d) (option_map u_dict (t_user t)) (d_chardef d) (d_unknown d) text m
    (lat_of (blen text) cap es, ue, total) start
  = Ok (lat_of (blen text) cap (fst (pure_step A m text (es, ue) start)), snd (pure_step A m text (es, ue) start),
        total + step_looks m text (es, ue) start).
Proof.
  intros V L C OK. pose proof (forget_step (d_dict d) (option_map u_dict (t_user t)) (d_chardef d) (d_unknown d) text m (lat_of (blen text) cap es) ue total start) as F.
  rewrite (set_text_step_lat t A R) in F by assumption. apply with_total in F as [n F]. rewrite F. f_equal. f_equal.
  unfold counted_step, lat_of at 1 in F. cbn [ends_at] in F. unfold idx in F. rewrite nth_error_map_seq in F by lia. cbn [bind Nat.add] in F.
  unfold step_looks. cbn [fst snd]. rewrite ends_of_reach. destruct (ends_of es start) as [|x0 xs] eqn:E; [apply same_total in F; lia|].
  assert (RB : reachb es start = true) by (rewrite ends_of_reach, E; reflexivity).
  destruct (reach_boundary A text es start OK RB) as (pre & s & -> & <-).
  rewrite str_from_app in F. rewrite suffix_at_app. cbn [bind] in F.
  apply valid_str_app in V as [V1 V2].
  assert (C2 : blen pre + blen s <= cap) by (rewrite blen_app in C; lia).
  assert (U : match option_map u_dict (t_user t) with
              | Some u => add_dict_edges u (blen pre) s (lat_of (blen (pre ++ s)) cap es, false)
              | None => Ok (lat_of (blen (pre ++ s)) cap es, false)
              end = Ok (lat_of (blen (pre ++ s)) cap (es ++ map (word_edge KNOWN (blen pre)) (prefix_words (a_usr A) s)),
                        negb (is_nil (prefix_words (a_usr A) s)))).
  { pose proof (rep_usr t A R) as RU. destruct (t_user t) as [u|]; cbn [option_map].
    - rewrite (add_dict_edges_lat _ (a_usr A)) by assumption. reflexivity.
    - rewrite RU. unfold prefix_words. cbn [entries_of].
      assert (Z : flat_map (fun n => map (pair (firstn n s)) ([] : list word_entry)) (seq 1 (length s)) = []).
      { induction (seq 1 (length s)); auto. }
      cbn [map] in *. rewrite Z. cbn. rewrite app_nil_r. reflexivity. }
  rewrite U in F. cbn [bind] in F.
  rewrite (add_dict_edges_lat _ (a_sys A)) in F by (apply (rep_sys t A R) || assumption). cbn [bind] in F.
  assert (FD : negb (is_nil (prefix_words (a_usr A) s)) || negb (is_nil (prefix_words (a_sys A) s)) = negb (is_nil (dict_words A s))).
  { unfold dict_words. destruct (prefix_words (a_usr A) s); reflexivity. }
  rewrite FD in F. unfold pos_looks. fold (unk_active m ue (blen pre)) in F.
  destruct (unk_active m ue (blen pre)); [|apply same_total in F; lia].
  destruct s as [|c r]; [apply same_total in F; lia|].
  inversion V2; subst. rewrite (rep_cats t A R) in F by assumption. cbn [bind] in F.
  rewrite counted_unknowns in F; auto; [apply same_total in F; rewrite <- F; apply Nat.add_succ_comm|].
  intros ord k H'. apply in_combine_r in H'. exact H'.
Qed.
Lemma counted_refine m text cap n : forall start es ue total,
  start + n = blen text -> valid_str text -> blen text <= cap -> edges_ok A text es ->
  foldM (counted_step (d_dict d) (option_map u_dict (t_user t)) (d_chardef d) (d_unknown d) text m)
    (seq start n) (lat_of (blen text) cap es, ue, total)
  = Ok (lat_of (blen text) cap (fst (fold_left (pure_step A m text) (seq start n) (es, ue))),
        snd (fold_left (pure_step A m text) (seq start n) (es, ue)), total + looks m text (seq start n) (es, ue)).
Proof.
  induction n as [|n IH]; intros start es ue total E V C OK; [cbn; rewrite Nat.add_0_r; reflexivity|].
  cbn [seq foldM fold_left looks]. rewrite counted_step_lat by (assumption || lia). cbn [bind].
  pose proof (pure_step_ok A m text es ue start OK) as OK1.
  destruct (pure_step A m text (es, ue) start) as [es1 ue1]. cbn [fst snd] in *.
  rewrite IH by (auto || lia). rewrite Nat.add_assoc. reflexivity.
Qed.
Lemma counted_text_looks l m text :
  valid_str text -> text <> [] -> reusable l ->
  counted_text l (d_dict d) (option_map u_dict (t_user t)) (d_chardef d) (d_unknown d) text m
  = Ok (lat_of (blen text) (Nat.max (capacity l) (blen text)) (scan A m text), looks m text (seq 0 (blen text)) ([], None)).
Proof.
  intros V NE RU. pose proof (blen_0 text) as B0.
  assert (B : 0 < blen text) by (destruct (Nat.eq_dec (blen text) 0); [tauto|lia]).
  unfold counted_text. rewrite set_capacity_reusable by assumption.
  set (cap := Nat.max (capacity l) (blen text)).
  unfold add_edge. cbn [edges length app capacity starts_at ends_at Nat.eqb negb].
  rewrite !(repeat_map_seq _ (S cap) 0).
  rewrite !push_at_map by lia. cbn [bind].
  match goal with |- context [Lattice cap ?x ?y ?z] =>
    replace (Lattice cap x y z) with (lat_of (blen text) cap []) end.
  2:{ unfold lat_of. f_equal; apply map_ext; intros j; unfold starts_of, ends_of; cbn; destruct (Nat.eqb j _); reflexivity. }
  rewrite counted_refine; [reflexivity|reflexivity|assumption|lia|constructor].
Qed.
End looks.

(** ** Bounds *)
Fixpoint over (f : str -> nat) (s : str) : nat :=
  match s with
  | [] => 0
  | _ :: r => f s + over f r
  end.
Lemma sum_over f text : f [] = 0 -> list_sum (map (fun i => f (suffix_at text i)) (seq 0 (blen text))) = over f text.
Proof.
  intros Z. induction text as [|c r IH]; [reflexivity|]. cbn [blen over]. rewrite seq_app, map_app, list_sum_app. f_equal.
  - pose proof (width_pos c) as WP. destruct (width c) as [|n] eqn:W; [lia|]. cbn [seq map]. unfold list_sum. cbn [fold_right]. change (fold_right Nat.add 0) with list_sum. rewrite sum_zero.
    + unfold suffix_at. change (str_from (c :: r) 0) with (str_from ([] ++ c :: r) (blen [])). rewrite str_from_app. cbn [app]. lia.
    + intros i I. apply in_seq in I. rewrite suffix_at_inside; [exact Z|lia].
  - rewrite <- IH. f_equal. cbn [Nat.add]. assert (G : forall n i, map (fun i => f (suffix_at (c :: r) i)) (seq (width c + i) n) = map (fun i => f (suffix_at r i)) (seq i n)).
    { induction n as [|n IHn]; intros i; cbn [seq map]; [reflexivity|]. f_equal; [rewrite suffix_at_over; reflexivity|]. replace (S (width c + i)) with (width c + S i) by lia. apply IHn. }
    specialize (G (blen r) 0). rewrite Nat.add_0_r in G. exact G.
Qed.

Lemma look_le A k ord s : look_len A k ord s <= length s.
Proof. induction s as [|c s IH]; cbn [look_len length]; [lia|]. destruct (nth_error (a_cats A c) ord) as [k'|]; [|lia]. destruct (Nat.eqb k' k); lia. Qed.
Lemma look_run A k ord s : look_len A k ord s <= S (run_len A k ord s).
Proof. induction s as [|c s IH]; cbn [look_len run_len]; [lia|]. destruct (nth_error (a_cats A c) ord) as [k'|]; [|lia]. destruct (Nat.eqb k' k); lia. Qed.
Lemma run_le A k ord s : run_len A k ord s <= length s.
Proof. induction s as [|c s IH]; cbn [run_len length]; [lia|]. destruct (nth_error (a_cats A c) ord) as [k'|]; [|lia]. destruct (Nat.eqb k' k); lia. Qed.
Lemma unk_looks_le A found s ok : unk_looks A found s ok <= length (tl s).
Proof. destruct ok as [ord k]. unfold unk_looks. destruct (a_invoke A k || negb found); [|lia]. destruct (a_group A k); [apply look_le|lia]. Qed.
Lemma enumerate_length {X} (l : list X) : length (enumerate l) = length l.
Proof. unfold enumerate. rewrite combine_length, seq_length. lia. Qed.

Definition any_at (C : nat) (s : str) : nat := match s with [] => 0 | _ :: r => 1 + C * length r end.
Lemma looks_any A m C text : (forall c, In c text -> length (a_cats A c) <= C) ->
  forall n start st, looks A m text (seq start n) st <= list_sum (map (fun i => any_at C (suffix_at text i)) (seq start n)).
Proof.
  intros HC. induction n as [|n IH]; intros start st; [cbn; lia|]. cbn [seq looks map]. unfold list_sum. cbn [fold_right]. change (fold_right Nat.add 0) with list_sum.
  apply Nat.add_le_mono; [|apply IH]. unfold step_looks. destruct (reachb (fst st) start); [|lia]. unfold pos_looks. destruct (unk_active m (snd st) start); [|lia].
  destruct (suffix_at text start) as [|c r] eqn:E; [lia|]. cbn [any_at]. assert (I : In c text).
  { unfold suffix_at in E. destruct (str_from text start) as [x| |] eqn:F; try discriminate. subst x. apply str_from_inv in F as (a & -> & _). apply in_or_app. right. left. reflexivity. }
  apply HC in I. rewrite <- enumerate_length in I. revert I. generalize (enumerate (a_cats A c)). intros l L.
  assert (G : list_sum (map (unk_looks A (negb (MText.is_nil (dict_words A (c :: r)))) (c :: r)) l) <= length l * length r).
  { clear. induction l as [|x l IH]; [cbn; lia|]. cbn [map length]. unfold list_sum in *. cbn [fold_right]. pose proof (unk_looks_le A (negb (MText.is_nil (dict_words A (c :: r)))) (c :: r) x) as B. cbn [tl] in B. lia. }
  nia.
Qed.
Lemma over_any C text : 2 * over (any_at C) text + C * length text = 2 * length text + C * (length text * length text).
Proof. induction text as [|c r IH]; cbn [over length any_at]; [lia|]. nia. Qed.

Theorem counted_any t A m C text l n : represents t A -> valid_str text -> text <> [] -> (forall c, In c text -> length (a_cats A c) <= C) ->
  counted_text default_lattice (d_dict (t_dictionary t)) (option_map u_dict (t_user t)) (d_chardef (t_dictionary t)) (d_unknown (t_dictionary t)) text m = Ok (l, n) ->
  2 * n + C * length text <= 2 * length text + C * (length text * length text).
Proof.
  intros R V NE HC H. rewrite (counted_text_looks t A R) in H; [|exact V|exact NE|left; auto]. apply (f_equal (fun r => match r with Ok (_, x) => x | _ => 0 end)) in H. cbn beta iota in H. subst n.
  pose proof (looks_any A m C text HC (blen text) 0 ([], None)) as B. rewrite (sum_over (any_at C)) in B by reflexivity. pose proof (over_any C text). lia.
Qed.

(* how many characters start before byte q *)
Definition chars_before (text : str) (q : nat) : nat := list_sum (map (fun i => match suffix_at text i with [] => 0 | _ => 1 end) (seq 0 q)).
Lemma chars_before_add text q n : chars_before text (q + n) = chars_before text q + list_sum (map (fun i => match suffix_at text i with [] => 0 | _ => 1 end) (seq q n)).
Proof. unfold chars_before. rewrite seq_app, map_app, list_sum_app. reflexivity. Qed.
Lemma chars_before_mono text p q : p <= q -> chars_before text p <= chars_before text q.
Proof. intros L. replace q with (p + (q - p)) by lia. rewrite chars_before_add. lia. Qed.
Lemma chars_before_S text q : chars_before text (S q) = chars_before text q + match suffix_at text q with [] => 0 | _ => 1 end.
Proof. rewrite <- Nat.add_1_r, chars_before_add. cbn [seq map]. unfold list_sum. cbn [fold_right]. lia. Qed.
Lemma chars_before_pre pre s : chars_before (pre ++ s) (blen pre) = length pre.
Proof.
  induction pre as [|c pre IH]; [reflexivity|]. cbn [blen length app]. unfold chars_before in *. rewrite seq_app, map_app, list_sum_app. cbn [Nat.add].
  pose proof (width_pos c) as WP. destruct (width c) as [|k] eqn:W; [lia|]. cbn [seq map]. unfold list_sum at 1. cbn [fold_right]. change (fold_right Nat.add 0) with list_sum. rewrite sum_zero.
  2:{ intros i I. apply in_seq in I. rewrite suffix_at_inside; [reflexivity|lia]. }
  assert (G : forall n i, map (fun i => match suffix_at (c :: pre ++ s) i with [] => 0 | _ => 1 end) (seq (width c + i) n) = map (fun i => match suffix_at (pre ++ s) i with [] => 0 | _ => 1 end) (seq i n)).
  { induction n as [|n IHn]; intros i; cbn [seq map]; [reflexivity|]. f_equal; [rewrite suffix_at_over; reflexivity|]. replace (S (width c + i)) with (width c + S i) by lia. apply IHn. }
  specialize (G (blen pre) 0). rewrite Nat.add_0_r, W in G. rewrite G, IH. pose proof (suffix_at_app [] (c :: pre ++ s)) as Z. cbn [app blen] in Z. rewrite Z. reflexivity.
Qed.
Lemma chars_before_all text q : chars_before text q <= length text.
Proof.
  destruct (Nat.le_gt_cases q (blen text)) as [L|L].
  - apply (chars_before_mono text) in L. pose proof (chars_before_pre text []) as E. rewrite app_nil_r in E. lia.
  - replace q with (blen text + (q - blen text)) by lia. rewrite chars_before_add. pose proof (chars_before_pre text []) as E. rewrite app_nil_r in E. rewrite E, sum_zero; [lia|].
    intros i I. apply in_seq in I. unfold suffix_at. destruct (str_from text i) as [x| |] eqn:F; try reflexivity. apply str_from_inv in F as (a & -> & B). rewrite blen_app in I. assert (Z : blen x = 0) by lia. apply blen_0 in Z. subst x. reflexivity.
Qed.

Definition seen (p : nat) (ue : option nat) : nat := match ue with Some i => Nat.max p i | None => p end.

Lemma looks_normal A m text : is_search m = false -> (forall c, In c text -> length (a_cats A c) <= 1) ->
  forall n start st, looks A m text (seq start n) st + 2 * chars_before text (seen start (snd st)) <= 2 * length text.
Proof.
  intros NS HC. induction n as [|n IH]; intros start [es ue]; cbn [seq looks snd]; [pose proof (chars_before_all text (seen start ue)); lia|].
  specialize (IH (S start) (pure_step A m text (es, ue) start)).
  assert (G : step_looks A m text (es, ue) start + 2 * chars_before text (seen start ue) <= 2 * chars_before text (seen (S start) (snd (pure_step A m text (es, ue) start)))); [|lia].
  assert (M : chars_before text (seen start ue) <= chars_before text (seen (S start) ue)) by (apply chars_before_mono; destruct ue; cbn [seen]; lia).
  unfold step_looks, pure_step. cbn [fst snd]. destruct (reachb es start); [|cbn [snd]; lia]. unfold pos_looks, pos_step.
  destruct (unk_active m ue start) eqn:UA; [|cbn [snd]; lia]. unfold unk_active in UA. rewrite NS in UA. cbn [orb] in UA.
  destruct (suffix_at text start) as [|c r] eqn:E; [cbn [snd]; lia|].
  assert (SE : seen start ue = start) by (destruct ue as [i|]; cbn [seen]; [apply Nat.leb_le in UA; lia|reflexivity]). rewrite SE.
  assert (SS : forall u, S start <= seen (S start) u) by (intros [i|]; cbn [seen]; lia).
  pose proof (chars_before_S text start) as CS. rewrite E in CS.
  assert (T : exists pre, text = pre ++ c :: r /\ blen pre = start).
  { unfold suffix_at in E. destruct (str_from text start) as [x| |] eqn:F; try discriminate. subst x. apply str_from_inv in F as (a & -> & B). exists a. auto. }
  destruct T as (pre & -> & <-). specialize (HC c (in_or_app pre (c :: r) c (or_intror (or_introl eq_refl)))).
  destruct (a_cats A c) as [|k [|k2 ks]]; [|clear HC|cbn [length] in HC; lia].
  - cbn. pose proof (chars_before_mono (pre ++ c :: r) _ _ (SS ue)). lia.
  - cbn [enumerate length seq combine map fold_left]. unfold enumerate. cbn [length seq combine map fold_left]. unfold list_sum. cbn [fold_right]. unfold unk_step, unk_looks, unk_surface. cbn [tl].
    destruct (a_invoke A k || negb (negb (MText.is_nil (dict_words A (c :: r))))).
    + cbn [snd]. destruct (a_group A k).
      * pose proof (look_run A k 0 r) as LR. pose proof (run_le A k 0 r) as RL. set (q := run_len A k 0 r) in *.
        assert (CB : chars_before (pre ++ c :: r) (blen pre + blen (firstn (S q) (c :: r))) = length pre + S q).
        { rewrite <- blen_app. replace (pre ++ c :: r) with ((pre ++ firstn (S q) (c :: r)) ++ skipn (S q) (c :: r)) by (rewrite <- app_assoc, firstn_skipn; reflexivity).
          rewrite chars_before_pre, app_length, firstn_length_le; [reflexivity|cbn [length]; lia]. }
        cbn [seen]. rewrite chars_before_pre. match goal with |- context [chars_before _ (Nat.max ?a ?b)] => pose proof (chars_before_mono (pre ++ c :: r) b (Nat.max a b) (Nat.le_max_r a b)) as MX end. rewrite CB in MX. lia.
      * match goal with |- context [seen ?a ?b] => pose proof (chars_before_mono (pre ++ c :: r) _ _ (SS b)) end. lia.
    + cbn [snd]. pose proof (chars_before_mono (pre ++ c :: r) _ _ (SS ue)). lia.
Qed.

Theorem counted_normal t A m text l n : represents t A -> valid_str text -> text <> [] -> is_search m = false -> (forall c, In c text -> length (a_cats A c) <= 1) ->
  counted_text default_lattice (d_dict (t_dictionary t)) (option_map u_dict (t_user t)) (d_chardef (t_dictionary t)) (d_unknown (t_dictionary t)) text m = Ok (l, n) ->
  n <= 2 * length text.
Proof.
  intros R V NE NS HC H. rewrite (counted_text_looks t A R) in H; [|exact V|exact NE|left; auto]. apply (f_equal (fun r => match r with Ok (_, x) => x | _ => 0 end)) in H. cbn beta iota in H. subst n.
  pose proof (looks_normal A m text NS HC (blen text) 0 ([], None)) as B. lia.
Qed.

(** ** When every place is reached and tried *)
Lemma looks_every A m text (g : str -> nat) : forall n pre s, text = pre ++ s -> blen s = n -> forall st,
  (forall pre' c r, s = pre' ++ c :: r -> reachb (fst (fold_left (pure_step A m text) (seq (blen pre) (blen pre')) st)) (blen pre + blen pre') = true /\
     pos_looks A m (blen pre + blen pre') (c :: r) (snd (fold_left (pure_step A m text) (seq (blen pre) (blen pre')) st)) = g (c :: r)) ->
  g [] = 0 -> looks A m text (seq (blen pre) n) st = list_sum (map (fun i => g (suffix_at text i)) (seq (blen pre) n)).
Proof.
  intros n pre s T B st H Z.
  assert (G : forall k, k <= n -> looks A m text (seq (blen pre) k) st = list_sum (map (fun i => g (suffix_at text i)) (seq (blen pre) k))); [|apply G; lia].
  assert (S1 : forall k p st0, looks A m text (seq p (S k)) st0 = looks A m text (seq p k) st0 + step_looks A m text (fold_left (pure_step A m text) (seq p k) st0) (p + k)).
  { induction k as [|k IH]; intros p st0; [cbn; rewrite !Nat.add_0_r; reflexivity|]. change (looks A m text (seq p (S (S k))) st0) with (step_looks A m text st0 p + looks A m text (seq (S p) (S k)) (pure_step A m text st0 p)).
    rewrite IH. cbn [seq looks fold_left]. replace (S p + k) with (p + S k) by lia. lia. }
  induction k as [|k IH]; intros L; [reflexivity|]. rewrite S1, seq_S, map_app, list_sum_app, IH by lia. f_equal. unfold list_sum. cbn [map fold_right]. rewrite Nat.add_0_r.
  destruct (suffix_at text (blen pre + k)) as [|c r] eqn:E.
  - unfold step_looks. destruct (reachb _ _); [|lia]. unfold pos_looks. rewrite E. destruct (unk_active _ _ _); lia.
  - unfold suffix_at in E. destruct (str_from text (blen pre + k)) as [x| |] eqn:F; try discriminate. subst x. pose proof F as F0. apply str_from_inv in F as (a & E & B').
    assert (P : exists pre', s = pre' ++ c :: r /\ blen pre' = k).
    { rewrite T in E. clear - E B'. revert a E B'. induction pre as [|x pre IH]; intros a E B'; [exists a; cbn in *; split; [exact E|lia]|].
      destruct a as [|y a]; [cbn [blen] in B'; pose proof (width_pos x); lia|]. cbn [app] in E. injection E as -> E. apply (IH a E). cbn [blen] in B'. lia. }
    destruct P as (pre' & P & <-). destruct (H pre' c r P) as [RB PL]. unfold step_looks. rewrite RB. unfold suffix_at. rewrite F0. apply PL.
Qed.
