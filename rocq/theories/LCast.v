(** The casts to 32 bits change nothing in texts of a reasonable size. *)
From Coq Require Import List NArith ZArith Bool Lia ZifyBool ZifyNat ZifyN.
From Verif Require Import MBase MUtf8 MText MCodec MDict MCharDef MUnk MLattice MTokenizer MLattice32 STok SWork SCast LBase LUtf8 LScan LLat LTok LWork.
Import ListNotations.

Definition max32 : Z := 4294967296%Z.

Lemma u32_small n : (Z.of_nat n < max32)%Z -> u32 n = n.
Proof. intros H. unfold u32, wrap_u. rewrite Z.mod_small by (unfold max32 in H; lia). lia. Qed.

(* an edge whose fields fit *)
Definition fine (e : edge) : Prop := e_start e <= e_stop e /\ (Z.of_nat (e_stop e) < max32)%Z.

Lemma num_chars32_fine e : fine e -> num_chars32 e = num_chars e.
Proof.
  intros [H1 H2]. unfold num_chars32, num_chars. f_equal. unfold wrap_u. rewrite Z.mod_small by (unfold max32 in H2; lia). lia.
Qed.
Lemma penalty_cost32_fine m e : fine e -> penalty_cost32 m e = penalty_cost m e.
Proof. intros H. destruct m as [|p]; [reflexivity|]. cbn [penalty_cost32 penalty_cost]. unfold penalty_of32, penalty_of. rewrite num_chars32_fine by exact H. reflexivity. Qed.

(* what a successful step has added *)
Definition adds (l l' : lattice) : Prop := exists new, edges l' = edges l ++ new /\ Forall fine new.
Definition small (l : lattice) : Prop := (Z.of_nat (length (edges l)) <= max32)%Z.
Lemma adds_refl l : adds l l.
Proof. exists []. rewrite app_nil_r. auto. Qed.
Lemma adds_trans a b c : adds a b -> adds b c -> adds a c.
Proof. intros (x & E & F) (y & E' & F'). exists (x ++ y). rewrite E', E, app_assoc. split; [reflexivity|]. apply Forall_app. auto. Qed.
Lemma adds_small l l' : adds l l' -> small l' -> small l.
Proof. intros (x & E & _) H. unfold small in *. rewrite E, app_length in H. lia. Qed.

Lemma add_edge_adds l e l' : add_edge_in_lattice l e = Ok l' -> edges l' = edges l ++ [e].
Proof.
  unfold add_edge_in_lattice, add_edge. intros H. apply bind_ok in H as (s & _ & H). apply bind_ok in H as (t & _ & H). injection H as <-. reflexivity.
Qed.
Lemma add_edge32_same l e l' : add_edge_in_lattice l e = Ok l' -> small l' -> add_edge_in_lattice32 l e = Ok l'.
Proof.
  intros H S. pose proof (add_edge_adds _ _ _ H) as E. unfold add_edge_in_lattice32, add_edge32. rewrite u32_small; [exact H|].
  unfold small in S. rewrite E, app_length in S. cbn [length] in S. lia.
Qed.

Lemma dict_edges_same start suffix ws : (Z.of_nat (start + blen suffix) < max32)%Z -> forall l f l' f',
  foldM (fun '(l, found) w => do e <- dict_edge start suffix w; do l' <- add_edge_in_lattice l e; Ok (l', true)) ws (l, f) = Ok (l', f') ->
  adds l l' /\ (small l' ->
  foldM (fun '(l, found) w => do e <- dict_edge32 start suffix w; do l' <- add_edge_in_lattice32 l e; Ok (l', true)) ws (l, f : bool) = Ok (l', f')).
Proof.
  intros B. induction ws as [|[n en] ws IH]; intros l f l' f' H; cbn [foldM] in *.
  - injection H as <- <-. split; [apply adds_refl|reflexivity].
  - apply bind_ok in H as ([l1 f1] & H1 & H2). apply bind_ok in H1 as (e & E & H1). apply bind_ok in H1 as (l2 & A2 & H1). injection H1 as <- <-.
    destruct (IH _ _ _ _ H2) as [G K]. unfold dict_edge in E. apply bind_ok in E as (p & P & E). injection E as <-.
    assert (N : n <= blen suffix) by (destruct (str_to_inv _ _ _ P) as (b & -> & <-); rewrite blen_app; lia).
    assert (G1 : adds l l2).
    { pose proof (add_edge_adds _ _ _ A2) as E. exists [Edge KNOWN en i32_max None start (start + n) (is_kanji_only p)]. split; [exact E|]. repeat constructor; cbn; lia. }
    split; [eapply adds_trans; eassumption|]. intros S. specialize (K S). unfold dict_edge32 at 1. rewrite P. cbn [bind]. rewrite !u32_small by lia.
    rewrite (add_edge32_same _ _ _ A2) by (eapply adds_small; eassumption). cbn [bind]. exact K.
Qed.
Lemma add_dict_edges_same d start suffix l f l' f' : (Z.of_nat (start + blen suffix) < max32)%Z -> add_dict_edges d start suffix (l, f) = Ok (l', f') ->
  adds l l' /\ (small l' -> add_dict_edges32 d start suffix (l, f) = Ok (l', f')).
Proof.
  intros B H. unfold add_dict_edges in H. apply bind_ok in H as (ws & W & H). destruct (dict_edges_same start suffix ws B _ _ _ _ H) as [G K].
  split; [exact G|]. intros S. unfold add_dict_edges32. rewrite W. cbn [bind]. apply K, S.
Qed.

Lemma unknown_same cd ud cat ord ue start suffix found l l' ue' : (Z.of_nat (start + blen suffix) < max32)%Z ->
  process_unknown_word cd ud cat ord ue start suffix found l = Ok (l', ue') ->
  adds l l' /\ (small l' -> process_unknown_word32 cd ud cat ord ue start suffix found l = Ok (l', ue')).
Proof.
  intros B H. unfold process_unknown_word in H. unfold process_unknown_word32. apply bind_ok in H as (data & D & H). rewrite D. cbn [bind].
  apply bind_ok in H as (n & N & H). rewrite N. cbn [bind]. destruct (Nat.ltb 0 n); [|injection H as <- <-; split; [apply adds_refl|reflexivity]].
  cbv zeta in *. apply bind_ok in H as (ids & I & H). rewrite I. cbn [bind]. apply bind_ok in H as (l1 & F & H). injection H as <- <-.
  set (w := firstn n suffix) in *. assert (BW : blen w <= blen suffix) by (rewrite <- (firstn_skipn n suffix), blen_app; subst w; lia).
  clearbody w. clear D N I n. cut (adds l l1 /\ (small l1 -> foldM (fun l id => do entry <- ud_word_entry ud id;
      add_edge_in_lattice32 l (Edge UNKNOWN entry i32_max None (u32 start) (u32 (start + blen w)) (is_kanji_only w))) ids l = Ok l1)).
  { intros [G K]. split; [exact G|]. intros S. rewrite (K S). reflexivity. }
  revert l F. induction ids as [|id ids IH]; intros l F; cbn [foldM] in *.
  - injection F as <-. split; [apply adds_refl|reflexivity].
  - apply bind_ok in F as (l2 & F1 & F2). apply bind_ok in F1 as (en & EN & F1). destruct (IH _ F2) as [G K].
    assert (G1 : adds l l2).
    { pose proof (add_edge_adds _ _ _ F1) as E. eexists [_]. split; [exact E|]. repeat constructor; cbn; lia. }
    split; [eapply adds_trans; eassumption|]. intros S. rewrite EN. cbn [bind]. rewrite !u32_small by lia.
    rewrite (add_edge32_same _ _ _ F1) by (eapply adds_small; eassumption). cbn [bind].
    rewrite <- (K S). rewrite !u32_small by lia. reflexivity.
Qed.

Lemma categories_same cd ud start suffix found : (Z.of_nat (start + blen suffix) < max32)%Z -> forall cats l ue l' ue',
  foldM (fun '(l, ue) '(ord, category) => process_unknown_word cd ud category ord ue start suffix found l) cats (l, ue) = Ok (l', ue') ->
  adds l l' /\ (small l' ->
  foldM (fun '(l, ue) '(ord, category) => process_unknown_word32 cd ud category ord ue start suffix found l) cats (l, ue) = Ok (l', ue')).
Proof.
  intros B. induction cats as [|[ord cat] cats IH]; intros l ue l' ue' H; cbn [foldM] in *.
  - injection H as <- <-. split; [apply adds_refl|reflexivity].
  - apply bind_ok in H as ([l1 ue1] & H1 & H2). destruct (IH _ _ _ _ H2) as [G K]. destruct (unknown_same _ _ _ _ _ _ _ _ _ _ _ B H1) as [G1 K1].
    split; [eapply adds_trans; eassumption|]. intros S. rewrite K1 by (eapply adds_small; eassumption). cbn [bind]. apply K, S.
Qed.

Lemma step_same dict user cd ud text m l ue start l' ue' : (Z.of_nat (blen text) < max32)%Z ->
  set_text_step dict user cd ud text m (l, ue) start = Ok (l', ue') ->
  adds l l' /\ (small l' -> set_text_step32 dict user cd ud text m (l, ue) start = Ok (l', ue')).
Proof.
  intros B H. unfold set_text_step in H. unfold set_text_step32. apply bind_ok in H as (ends & E & H). rewrite E. cbn [bind].
  destruct ends as [|x ends]; [injection H as <- <-; split; [apply adds_refl|reflexivity]|].
  apply bind_ok in H as (suffix & SF & H). rewrite SF. cbn [bind]. destruct (str_from_inv _ _ _ SF) as (pre & -> & <-). rewrite blen_app in B.
  apply bind_ok in H as ([l1 f1] & H1 & H). apply bind_ok in H as ([l2 f2] & H2 & H).
  assert (U : adds l l1 /\ (small l1 -> match user with Some u => add_dict_edges32 u (blen pre) suffix (l, false) | None => Ok (l, false) end = Ok (l1, f1))).
  { destruct user as [u|]; [apply add_dict_edges_same; assumption|]. injection H1 as <- <-. split; [apply adds_refl|reflexivity]. }
  destruct U as [G1 K1]. destruct (add_dict_edges_same _ _ _ _ _ _ _ B H2) as [G2 K2].
  assert (C : adds l2 l' /\ (small l' -> (if is_search m || match ue with Some i => Nat.leb i (blen pre) | None => true end then
      match suffix with [] => Ok (l2, ue) | c :: _ => do cats <- lookup_categories cd c;
        foldM (fun '(l, ue) '(ord, category) => process_unknown_word32 cd ud category ord ue (blen pre) suffix f2 l) (enumerate cats) (l2, ue) end
    else Ok (l2, ue)) = Ok (l', ue'))).
  { destruct (is_search m || match ue with Some i => Nat.leb i (blen pre) | None => true end)%bool; [|injection H as <- <-; split; [apply adds_refl|reflexivity]].
    destruct suffix as [|c r]; [injection H as <- <-; split; [apply adds_refl|reflexivity]|].
    apply bind_ok in H as (cats & CT & H). rewrite CT. cbn [bind]. apply categories_same; assumption. }
  destruct C as [G3 K3]. assert (G23 : adds l1 l') by (eapply adds_trans; eassumption).
  split; [eapply adds_trans; eassumption|]. intros S. rewrite K1 by (eapply adds_small; eassumption). cbn [bind].
  rewrite K2 by (eapply adds_small; eassumption). cbn [bind]. apply K3, S.
Qed.
Lemma steps_same dict user cd ud text m : (Z.of_nat (blen text) < max32)%Z -> forall starts l ue l' ue',
  foldM (set_text_step dict user cd ud text m) starts (l, ue) = Ok (l', ue') ->
  adds l l' /\ (small l' -> foldM (set_text_step32 dict user cd ud text m) starts (l, ue) = Ok (l', ue')).
Proof.
  intros B. induction starts as [|s starts IH]; intros l ue l' ue' H; cbn [foldM] in *.
  - injection H as <- <-. split; [apply adds_refl|reflexivity].
  - apply bind_ok in H as ([l1 ue1] & H1 & H2). destruct (IH _ _ _ _ H2) as [G K]. destruct (step_same _ _ _ _ _ _ _ _ _ _ _ B H1) as [G1 K1].
    split; [eapply adds_trans; eassumption|]. intros S. rewrite K1 by (eapply adds_small; eassumption). cbn [bind]. apply K, S.
Qed.

Lemma set_text_same l dict user cd ud text m l' : (Z.of_nat (blen text) < max32)%Z -> set_text l dict user cd ud text m = Ok l' -> small l' ->
  set_text32 l dict user cd ud text m = Ok l' /\ Forall fine (edges l').
Proof.
  intros B H S. unfold set_text in H. unfold set_text32. cbv zeta in *. unfold add_edge in H. unfold add_edge32.
  assert (E0 : edges (set_capacity l (blen text)) = []) by (unfold set_capacity, clear; cbn [capacity]; destruct (Nat.ltb (capacity l) (blen text)); reflexivity).
  cbn [edges capacity starts_at ends_at] in *. rewrite E0 in *. cbn [app length] in *. rewrite !u32_small by (cbn; unfold max32; lia).
  destruct (negb (Nat.eqb 1 1)); [discriminate|]. apply bind_ok in H as (t & T & H). rewrite T. cbn [bind]. apply bind_ok in H as (s & ST & H). rewrite ST. cbn [bind].
  apply bind_ok in H as ([l1 ue] & F & H). injection H as <-. destruct (steps_same _ _ _ _ _ _ B _ _ _ _ _ F) as [(new & G1 & G2) K].
  rewrite (K S). split; [reflexivity|]. rewrite G1. cbn [edges app]. assert (D : fine default_edge) by (split; cbn; unfold max32; lia). repeat constructor; assumption.
Qed.

Lemma through_same cm m es right lefts : Forall fine es -> mapM (through_cost32 cm m es right) lefts = mapM (through_cost cm m es right) lefts.
Proof.
  intros F. induction lefts as [|i lefts IH]; [reflexivity|]. cbn [mapM]. rewrite IH. f_equal. unfold through_cost32, through_cost, idx.
  destruct (nth_error es i) as [e|] eqn:N; cbn [bind]; [|reflexivity]. rewrite penalty_cost32_fine; [reflexivity|]. rewrite Forall_forall in F. apply F. eapply nth_error_In, N.
Qed.
Lemma forall_upd {X} (P : X -> Prop) l : forall i x, Forall P l -> P x -> Forall P (upd l i x).
Proof. induction l as [|y l IH]; intros [|i] x F H; cbn [upd]; try constructor; inversion F; subst; auto. Qed.
Lemma path_cost_same cm m lefts rights : forall es, Forall fine es ->
  foldM (path_cost_step32 cm m lefts) rights es = foldM (path_cost_step cm m lefts) rights es /\
  forall es', foldM (path_cost_step cm m lefts) rights es = Ok es' -> Forall fine es'.
Proof.
  induction rights as [|i rights IH]; intros es F; cbn [foldM]; [split; [reflexivity|intros es' H; injection H as <-; exact F]|].
  assert (E : path_cost_step32 cm m lefts es i = path_cost_step cm m lefts es i).
  { unfold path_cost_step32, path_cost_step. destruct (idx es i) as [re| |]; cbn [bind]; [|reflexivity|reflexivity]. rewrite through_same by exact F. reflexivity. }
  rewrite E. destruct (path_cost_step cm m lefts es i) as [es1| |] eqn:P; cbn [bind]; [|split; [reflexivity|discriminate]|split; [reflexivity|discriminate]].
  apply IH. unfold path_cost_step in P. apply bind_ok in P as (re & R & P). apply bind_ok in P as (cs & _ & P). destruct (min_by_cost cs) as [[best left]|]; injection P as <-; [|exact F].
  apply forall_upd; [exact F|]. unfold idx in R. destruct (nth_error es i) as [x|] eqn:N; [|discriminate]. injection R as ->. rewrite Forall_forall in F. apply (F re). eapply nth_error_In, N.
Qed.
Lemma calculate_same cm m l : Forall fine (edges l) -> calculate_path_costs32 cm m l = calculate_path_costs cm m l.
Proof.
  intros F. unfold calculate_path_costs32, calculate_path_costs. f_equal. generalize (seq 0 (length (starts_at l))). intros is. revert F. generalize (edges l).
  induction is as [|i is IH]; intros es F; cbn [foldM]; [reflexivity|].
  destruct (idx (ends_at l) i) as [lefts| |]; cbn [bind]; [|reflexivity|reflexivity]. destruct (idx (starts_at l) i) as [rights| |]; cbn [bind]; [|reflexivity|reflexivity].
  destruct (path_cost_same cm m lefts rights es F) as [-> K]. destruct (foldM (path_cost_step cm m lefts) rights es) as [es1| |]; cbn [bind]; [|reflexivity|reflexivity]. apply IH, K. reflexivity.
Qed.

Section Same.
Variables (t : tokenizer) (A : adict).
Hypothesis R : represents t A.

Lemma sentence_same l toks bp p s : valid_str s -> s <> [] -> fits_u32 A s -> reusable l ->
  tokenize_sentence32 t (l, toks, bp, p) s = tokenize_sentence t (l, toks, bp, p) s.
Proof.
  intros V NE [F1 F2] RU. pose proof (set_text_scan t A R l (t_mode t) s V NE RU) as ST. unfold tokenize_sentence32, tokenize_sentence.
  destruct (scan_counts A (t_mode t) s) as [L _]. rewrite sum_places in L.
  destruct (set_text_same _ _ _ _ _ _ _ _ F1 ST) as [E F]. { unfold small, lat_of, max32. cbn [edges length]. lia. }
  rewrite E, ST, calculate_same by exact F. reflexivity.
Qed.
Lemma sentences_same ss : Forall (fun s => valid_str s /\ s <> [] /\ fits_u32 A s) ss -> forall l toks bp p, reusable l ->
  tokenize_sentences32 t ss (l, toks, bp, p) = tokenize_sentences t ss (l, toks, bp, p).
Proof.
  induction 1 as [|s ss (V & NE & F) _ IH]; intros l toks bp p RU; [reflexivity|]. cbn [tokenize_sentences32 tokenize_sentences].
  rewrite sentence_same by assumption. destruct (sentence_chosen t A R s V NE) as (wl & RUN & _). destruct (RUN l toks bp p RU) as (l2 & RU2 & E). rewrite E. apply IH, RU2.
Qed.
End Same.

Theorem same_tokens t A : represents t A -> forall text ss, valid_str text -> sentences text ss -> Forall (fits_u32 A) ss -> tokenize32 t text = tokenize t text.
Proof.
  intros R text ss V S F. unfold tokenize32, tokenize. rewrite (sentences_unique _ _ S). rewrite (sentences_same t A R); [reflexivity| |apply default_reusable].
  pose proof (sentences_concat _ _ S) as C. pose proof (sentences_nonempty _ _ S) as N. clear S. subst text. unfold valid_str in *.
  induction F as [|s ss Fs _ IH]; [constructor|]. cbn [concat] in V. apply Forall_app in V as [V1 V2]. inversion N; subst. constructor; [repeat split; try assumption; apply Fs|]. apply IH; assumption.
Qed.

Lemma blen_le s : blen s <= 4 * length s.
Proof. induction s as [|c s IH]; cbn [blen length]; [lia|]. assert (width c <= 4) by (unfold width; repeat destruct (_ <? _)%N; lia). lia. Qed.
Theorem long_enough A n e c u s : dict_size A n e c u ->
  (Z.of_nat (4 * length s) < 4294967296 /\ Z.of_nat ((2 * n * e + c * u) * length s) + 2 <= 4294967296)%Z -> fits_u32 A s.
Proof.
  intros D [H1 H2]. split; [pose proof (blen_le s); lia|].
  pose proof (words_in_le A (2 * n * e + c * u) s (fun pre r _ => words_bounded A n e c u r D)). lia.
Qed.

(** ** The fields are 32 bits wide, whatever the dictionary *)
Lemma u32_fits n : is_u32_nat (u32 n).
Proof. unfold is_u32_nat, u32, wrap_u. rewrite N_nat_Z. pose proof (Z.mod_pos_bound (Z.of_nat n) (2 ^ 32) ltac:(lia)). lia. Qed.
Definition edge_fits (e : edge) : Prop := is_u32_nat (e_start e) /\ is_u32_nat (e_stop e).

Lemma push_at_fits v i x v' : push_at v i x = Ok v' -> is_u32_nat x -> (forall ids id, In ids v -> In id ids -> is_u32_nat id) ->
  forall ids id, In ids v' -> In id ids -> is_u32_nat id.
Proof.
  intros H X V. unfold push_at in H. apply bind_ok in H as (c & C & H). injection H as <-. unfold idx in C. destruct (nth_error v i) as [c'|] eqn:N; [|discriminate]. injection C as ->.
  assert (W : Forall (fun ids => forall id, In id ids -> is_u32_nat id) (upd v i (c ++ [x]))).
  { apply forall_upd; [apply Forall_forall; intros ids I id J; eapply V; eassumption|]. intros id I. apply in_app_or in I as [I|[<-|[]]]; [|exact X]. eapply V; [eapply nth_error_In, N|exact I]. }
  rewrite Forall_forall in W. intros ids id I J. exact (W ids I id J).
Qed.
Lemma add_fits l e l' : add_edge_in_lattice32 l e = Ok l' -> edge_fits e -> fields_fit l -> fields_fit l'.
Proof.
  unfold add_edge_in_lattice32, add_edge32. intros H E [F1 F2]. apply bind_ok in H as (s & S & H). apply bind_ok in H as (t & T & H). injection H as <-. cbn [edges starts_at ends_at] in *. split; cbn [edges starts_at ends_at].
  - intros x I. apply in_app_or in I as [I|[<-|[]]]; [apply F1, I|exact E].
  - intros ids id I J. apply in_app_or in I as [I|I].
    + eapply (push_at_fits _ _ _ _ S); [apply u32_fits| |exact I|exact J]. intros ids' id' I' J'. eapply F2; [apply in_or_app; left; exact I'|exact J'].
    + eapply (push_at_fits _ _ _ _ T); [apply u32_fits| |exact I|exact J]. intros ids' id' I' J'. eapply F2; [apply in_or_app; right; exact I'|exact J'].
Qed.
Lemma foldM_keeps {X Y} (P : X -> Prop) (f : X -> Y -> res X) : (forall x y x', f x y = Ok x' -> P x -> P x') -> forall l x x', foldM f l x = Ok x' -> P x -> P x'.
Proof.
  intros F. induction l as [|y l IH]; intros x x' H K; cbn [foldM] in H; [injection H as <-; exact K|]. apply bind_ok in H as (x1 & H1 & H2). eapply IH; [exact H2|]. eapply F; eassumption.
Qed.
Lemma dict_fits d start suffix st st' : add_dict_edges32 d start suffix st = Ok st' -> fields_fit (fst st) -> fields_fit (fst st').
Proof.
  unfold add_dict_edges32. intros H. apply bind_ok in H as (ws & _ & H). revert H. apply (foldM_keeps (fun st => fields_fit (fst st))). intros [l f] [n en] [l' f'] H F. cbn [fst] in *.
  apply bind_ok in H as (e & E & H). apply bind_ok in H as (l2 & A2 & H). injection H as <- <-. unfold dict_edge32 in E. apply bind_ok in E as (p & _ & E). injection E as <-.
  eapply add_fits; [exact A2| |exact F]. split; cbn; apply u32_fits.
Qed.
Lemma unknown_fits cd ud cat ord ue start suffix found l st : process_unknown_word32 cd ud cat ord ue start suffix found l = Ok st -> fields_fit l -> fields_fit (fst st).
Proof.
  unfold process_unknown_word32. intros H F. apply bind_ok in H as (data & _ & H). apply bind_ok in H as (n & _ & H). destruct (Nat.ltb 0 n); [|injection H as <-; exact F].
  cbv zeta in H. apply bind_ok in H as (ids & _ & H). apply bind_ok in H as (l1 & H1 & H). injection H as <-. cbn [fst]. revert H1 F. apply foldM_keeps. intros x id x' H K.
  apply bind_ok in H as (en & _ & H). eapply add_fits; [exact H| |exact K]. split; cbn; apply u32_fits.
Qed.
Lemma step_fits dict user cd ud text m st start st' : set_text_step32 dict user cd ud text m st start = Ok st' -> fields_fit (fst st) -> fields_fit (fst st').
Proof.
  unfold set_text_step32. destruct st as [l ue]. intros H F. cbn [fst] in F. apply bind_ok in H as (ends & _ & H). destruct ends as [|x ends]; [injection H as <-; exact F|].
  apply bind_ok in H as (suffix & _ & H). apply bind_ok in H as ([l1 f1] & H1 & H). apply bind_ok in H as ([l2 f2] & H2 & H).
  assert (F1 : fields_fit l1). { destruct user as [u|]; [exact (dict_fits _ _ _ _ _ H1 F)|]. injection H1 as <- _. exact F. }
  pose proof (dict_fits _ _ _ _ _ H2 F1) as F2. cbn [fst] in F2. destruct (is_search m || match ue with Some i => Nat.leb i start | None => true end)%bool; [|injection H as <-; exact F2].
  destruct suffix as [|c r]; [injection H as <-; exact F2|]. apply bind_ok in H as (cats & _ & H).
  assert (G : forall cs a b, foldM (fun '(l, ue) '(ord, category) => process_unknown_word32 cd ud category ord ue start (c :: r) f2 l) cs a = Ok b -> fields_fit (fst a) -> fields_fit (fst b)).
  { apply foldM_keeps. intros [la ua] [ord cat] b HB K. exact (unknown_fits _ _ _ _ _ _ _ _ _ _ HB K). }
  exact (G _ _ _ H F2).
Qed.
Lemma firstn_in {X} (x : X) : forall n l, In x (firstn n l) -> In x l.
Proof. induction n as [|n IH]; intros [|y l] H; cbn in H; try destruct H; [left; assumption|right; apply IH; assumption]. Qed.
Theorem always_fit l dict user cd ud text m l' : set_text32 l dict user cd ud text m = Ok l' -> fields_fit l'.
Proof.
  unfold set_text32. intros H. cbv zeta in H. unfold add_edge32 in H. cbn [edges capacity starts_at ends_at] in H.
  destruct (negb _); [discriminate|]. apply bind_ok in H as (t & T & H). apply bind_ok in H as (s & S & H). apply bind_ok in H as ([l1 ue] & H1 & H). injection H as <-.
  assert (E0 : edges (set_capacity l (blen text)) = []) by (unfold set_capacity, clear; cbn [capacity]; destruct (Nat.ltb (capacity l) (blen text)); reflexivity).
  assert (N0 : forall v ids id, v = starts_at (set_capacity l (blen text)) \/ v = ends_at (set_capacity l (blen text)) -> In ids v -> In id ids -> is_u32_nat id).
  { intros v ids id HV I J. assert (ids = []); [|subst ids; destruct J].
    unfold set_capacity, clear, resize in HV. cbn [capacity] in HV. destruct (Nat.ltb (capacity l) (blen text)); cbn [starts_at ends_at] in HV; destruct HV as [-> | ->].
    1,2: apply in_app_or in I as [I|I]; [apply firstn_in in I; apply in_map_iff in I as (y & <- & _); reflexivity|apply repeat_spec in I; exact I].
    1,2: apply in_map_iff in I as (y & <- & _); reflexivity. }
  pose proof (foldM_keeps (fun st => fields_fit (fst st)) (set_text_step32 dict user cd ud text m) (fun x y x' => step_fits dict user cd ud text m x y x') _ _ _ H1) as K. apply K. clear K H1. cbn [fst].
  rewrite E0 in *. cbn [app length] in *. split; cbn [edges starts_at ends_at].
  - intros e [<-|[<-|[]]]; split; cbn; unfold is_u32_nat; lia.
  - intros ids id I J. apply in_app_or in I as [I|I].
    + eapply (push_at_fits _ _ _ _ S); [apply u32_fits| |exact I|exact J]. intros ids' id' I' J'. eapply N0; [left; reflexivity|exact I'|exact J'].
    + eapply (push_at_fits _ _ _ _ T); [apply u32_fits| |exact I|exact J]. intros ids' id' I' J'. eapply N0; [right; reflexivity|exact I'|exact J'].
Qed.
