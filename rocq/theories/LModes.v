(** When the mode does not matter. *)
From Coq Require Import List NArith ZArith Bool Lia ZifyBool ZifyNat ZifyN.
From Verif Require Import MBase MUtf8 MText MCodec MDict MCharDef MUnk MLattice MTokenizer MCharFilter MAnalyzer MConfig STok SFrame SModes LBase LUtf8 LBuild LTok LFrame.
Import ListNotations.
Local Open Scope list_scope.

Lemma foldM_seq {S S'} (Q : nat -> S -> S' -> Prop) f f' : forall n a,
  (forall i s s', a <= i < a + n -> Q i s s' -> agree (Q (Datatypes.S i)) (f s i) (f' s' i)) ->
  forall s s', Q a s s' -> agree (Q (a + n)) (foldM f (seq a n) s) (foldM f' (seq a n) s').
Proof.
  induction n as [|n IH]; intros a K s s' H; cbn [seq foldM].
  - rewrite Nat.add_0_r. exact H.
  - eapply agree_bind; [apply K; [lia|exact H]|]. replace (a + Datatypes.S n) with (Datatypes.S a + n) by lia. apply IH. intros. apply K; [lia|assumption].
Qed.

(** ** The penalty of an edge *)

Lemma wrap_mul a b : wrap32 (wrap32 a * b) = wrap32 (a * b).
Proof.
  unfold wrap32, wrap_i. set (M := (2 ^ 32)%Z). set (H := (2 ^ (32 - 1))%Z).
  f_equal. pose proof (Z.div_mod (a + H) M ltac:(discriminate)) as D. set (q := ((a + H) / M)%Z) in *. set (r := ((a + H) mod M)%Z) in *.
  replace (((r - H) * b + H))%Z with ((a * b + H) + (- (q * b)) * M)%Z by nia. apply Z.mod_add. discriminate.
Qed.

(* an edge for a piece of the sentence *)
Definition piece_edge (s : str) (e : edge) : Prop := exists k, part_of k s /\ e_stop e - e_start e = blen k /\ e_kanji e = is_kanji_only k \/ e_stop e - e_start e = 0.

Lemma penalty_surface m e k : e_stop e - e_start e = blen k -> e_kanji e = is_kanji_only k -> penalty_cost m e = wrap32 (surface_penalty m k).
Proof.
  intros E K. destruct m as [|p]; [reflexivity|]. cbn [penalty_cost surface_penalty]. unfold penalty_of, num_chars. rewrite E, K. change (forallb kanji k) with (is_kanji_only k).
  set (n := blen k / 3). replace (N.of_nat n <=? kanji_threshold p)%N with (Z.of_nat n <=? Z.of_N (kanji_threshold p))%Z by lia.
  destruct (Z.of_nat n <=? Z.of_N (kanji_threshold p))%Z eqn:C; [reflexivity|]. destruct (is_kanji_only k).
  - rewrite wrap_mul. do 2 f_equal. lia.
  - replace (other_threshold p <? N.of_nat n)%N with (Z.of_N (other_threshold p) <? Z.of_nat n)%Z by lia.
    destruct (Z.of_N (other_threshold p) <? Z.of_nat n)%Z eqn:C2; [|reflexivity]. rewrite wrap_mul. do 2 f_equal. lia.
Qed.

Lemma penalty_empty m e : e_stop e - e_start e = 0 -> penalty_cost m e = 0%Z.
Proof. intros E. destruct m as [|p]; [reflexivity|]. cbn [penalty_cost]. unfold penalty_of, num_chars. rewrite E. cbn. destruct (kanji_threshold p); reflexivity. Qed.

Lemma penalties_same m m' text s e : same_penalties m m' text -> part_of s text -> piece_edge s e -> penalty_cost m e = penalty_cost m' e.
Proof.
  intros H (a & b & ->) (k & [((c & d & ->) & E & K)|E]); [|rewrite !(penalty_empty _ e E); reflexivity].
  rewrite (penalty_surface m e k E K), (penalty_surface m' e k E K). f_equal. apply H. exists (a ++ c), (d ++ b). rewrite <- !app_assoc. reflexivity.
Qed.

(** ** Lattices with edges for pieces of the sentence *)

Definition pieces (s : str) (l : lattice) : Prop := Forall (piece_edge s) (edges l).
Definition both (s : str) (l l' : lattice) : Prop := l = l' /\ pieces s l.

Lemma add_pieces s l e : pieces s l -> piece_edge s e -> agree (both s) (add_edge_in_lattice l e) (add_edge_in_lattice l e).
Proof.
  intros P E. apply agree_refl. intros l' H. split; [reflexivity|]. unfold add_edge_in_lattice, add_edge in H. cbn [starts_at ends_at capacity edges] in H.
  apply bind_ok in H. destruct H as (x & _ & H). apply bind_ok in H. destruct H as (y & _ & H). injection H as <-. unfold pieces. cbn [edges].
  apply Forall_app. split; [exact P|]. constructor; [exact E|constructor].
Qed.

Definition both_found (s : str) (st st' : lattice * bool) : Prop := st = st' /\ pieces s (fst st).

Lemma dict_pieces s pre suffix d st : s = pre ++ suffix -> pieces s (fst st) ->
  agree (both_found s) (add_dict_edges d (blen pre) suffix st) (add_dict_edges d (blen pre) suffix st).
Proof.
  intros E P. unfold add_dict_edges. apply agree_bind_eq. intros ws _. apply agree_foldM_eq; [|split; [reflexivity|exact P]].
  intros [l f] [l' f'] [n w] _ [EQ P']. injection EQ as <- <-. cbn [fst] in P'. cbn [dict_edge].
  destruct (str_to suffix n) as [p|k|] eqn:T; cbn [bind]; [|reflexivity|exact I].
  destruct (str_to_inv _ _ _ T) as (r & E2 & B). eapply agree_bind; [apply add_pieces; [exact P'|]|].
  - exists p. left. split; [exists pre, r; rewrite E, E2; reflexivity|]. cbn [e_stop e_start e_kanji]. split; [lia|reflexivity].
  - intros m m' [<- Pm]. split; [reflexivity|exact Pm].
Qed.

(* the end of the last unknown word lies at the end of a character before the place *)
Definition early (s : str) (at_ : nat) (ue : option nat) : Prop :=
  forall i, ue = Some i -> exists pre c r, s = pre ++ c :: r /\ i = blen pre + width c /\ blen pre < at_.

Lemma early_late s at_ ue pre suffix : early s at_ ue -> s = pre ++ suffix -> blen pre = at_ -> match ue with Some i => Nat.leb i at_ | None => true end = true.
Proof.
  intros H E B. destruct ue as [i|]; [|reflexivity]. apply Nat.leb_le. destruct (H i eq_refl) as (p & c & r & E2 & -> & L).
  rewrite E in E2. clear - E2 B L. subst at_. revert p E2 L. induction pre as [|x pre IH]; intros p E2 L; [cbn in L; lia|].
  destruct p as [|y p]; cbn [app] in E2; injection E2 as <- E2; cbn [blen] in *; [lia|]. specialize (IH p E2). lia.
Qed.

Definition both_end (s : str) (at_ : nat) (st st' : lattice * option nat) : Prop := st = st' /\ pieces s (fst st) /\ early s at_ (snd st).
Definition both_any (s : str) (st st' : lattice * option nat) : Prop := st = st' /\ pieces s (fst st).

Lemma unknown_pieces cd ud category ord ue found l s pre c rest : s = pre ++ c :: rest -> pieces s l ->
  agree (both_any s) (process_unknown_word cd ud category ord ue (blen pre) (c :: rest) found l) (process_unknown_word cd ud category ord ue (blen pre) (c :: rest) found l).
Proof.
  intros E P. unfold process_unknown_word. apply agree_bind_eq. intros data _. apply agree_bind_eq. intros n _.
  destruct (Nat.ltb 0 n); [|split; [reflexivity|exact P]]. cbv zeta. apply agree_bind_eq. intros ids _.
  set (w := firstn n (c :: rest)). assert (PW : part_of w s) by (exists pre, (skipn n (c :: rest)); unfold w; rewrite firstn_skipn; exact E).
  eapply agree_bind with (P := both s).
  - apply agree_foldM_eq; [|split; [reflexivity|exact P]]. intros x x' i _ [<- Px]. apply agree_bind_eq. intros entry _. apply add_pieces; [exact Px|].
    exists w. left. split; [exact PW|]. cbn [e_stop e_start e_kanji]. split; [lia|reflexivity].
  - intros x x' [<- Px]. split; [reflexivity|exact Px].
Qed.

Lemma unknown_early cd ud category ord ue found l s pre c rest l' ue' cats : s = pre ++ c :: rest -> alone cd c rest -> lookup_categories cd c = Ok cats ->
  nth_error cats ord = Some category -> early s (S (blen pre)) ue ->
  process_unknown_word cd ud category ord ue (blen pre) (c :: rest) found l = Ok (l', ue') -> early s (S (blen pre)) ue'.
Proof.
  intros E A LC NC EA H. unfold process_unknown_word in H. apply bind_ok in H. destruct H as (data & LD & H). apply bind_ok in H. destruct H as (n & N & H).
  destruct (Nat.ltb 0 n) eqn:Z; [|injection H as <- <-; exact EA]. cbv zeta in H. apply bind_ok in H. destruct H as (ids & _ & H).
  apply bind_ok in H. destruct H as (x & _ & H). injection H as <- <-. apply Nat.ltb_lt in Z.
  assert (N1 : n = 1).
  { destruct (cd_invoke data || negb found); [|injection N as <-; lia]. destruct (cd_group data) eqn:G; [|injection N as <-; reflexivity].
    apply bind_ok in N. destruct N as (g & GL & N). injection N as <-. f_equal. cbn [tl] in GL.
    destruct (A cats ord category data LC NC LD) as [X|X]; [congruence|]. destruct rest as [|c' rest]; cbn [group_len] in GL; [injection GL as <-; reflexivity|].
    apply bind_ok in GL. destruct GL as (cats' & LC' & GL). specialize (X cats' LC'). destruct (nth_error cats' ord) as [k|]; [|injection GL as <-; reflexivity].
    destruct (Nat.eqb k category) eqn:KE; [apply Nat.eqb_eq in KE; congruence|]. injection GL as <-. reflexivity. }
  subst n. intros i I1. injection I1 as <-. exists pre, c, rest. split; [exact E|]. cbn [firstn blen]. split; lia.
Qed.

Lemma early_weaken s a b ue : early s a ue -> a <= b -> early s b ue.
Proof. intros H L i E. destruct (H i E) as (pre & c & r & H1 & H2 & H3). exists pre, c, r. repeat split; try assumption. lia. Qed.

Lemma enumerate_in {A} (l : list A) i x : In (i, x) (enumerate l) -> nth_error l i = Some x.
Proof.
  unfold enumerate. intros H. assert (G : forall k (l : list A), In (i, x) (combine (seq k (length l)) l) -> exists j, i = k + j /\ nth_error l j = Some x).
  { clear. intros k l. revert k. induction l as [|y l IH]; intros k H; cbn [length seq combine] in H; [destruct H|]. destruct H as [H|H].
    - injection H as <- <-. exists 0. split; [lia|reflexivity].
    - destruct (IH _ H) as (j & -> & E). exists (S j). split; [lia|exact E]. }
  destruct (G 0 l H) as (j & -> & E). exact E.
Qed.

Section Modes.
Variables (m m' : mode) (text : str) (cd : char_definitions).
Hypothesis SEARCH : is_search m = is_search m' \/ single_unknown cd text.

(* without the second case nothing is known about the end of the last unknown word *)
Definition early_if (s : str) (at_ : nat) (ue : option nat) : Prop := is_search m = is_search m' \/ early s at_ ue.
Definition both_st (s : str) (at_ : nat) (st st' : lattice * option nat) : Prop := st = st' /\ pieces s (fst st) /\ early_if s at_ (snd st).

Lemma alone_in sentence pre c rest : part_of sentence text -> sentence = pre ++ c :: rest -> single_unknown cd text -> alone cd c rest.
Proof.
  intros (a & b & ->) -> SU. pose proof (SU (a ++ pre) c (rest ++ b)) as H. rewrite <- !app_assoc in H. cbn [app] in H. specialize (H eq_refl).
  intros cats ord k data H1 H2 H3. destruct (H cats ord k data H1 H2 H3) as [X|X]; [left; exact X|right]. destruct rest; [exact I|exact X].
Qed.

Lemma step_modes dict user ud s at_ st st' : part_of s text -> both_st s at_ st st' ->
  agree (both_st s (S at_)) (set_text_step dict user cd ud s m st at_) (set_text_step dict user cd ud s m' st' at_).
Proof.
  intros PS ([= <-] & P & EA). destruct st as [l ue]. cbn [fst snd] in *. unfold set_text_step. apply agree_bind_eq. intros ends _.
  assert (LATER : early_if s (S at_) ue) by (destruct EA as [X|X]; [left; exact X|right; eapply early_weaken; [exact X|lia]]).
  destruct ends as [|x ends]; [repeat split; assumption|]. apply agree_bind_eq. intros suffix SF. destruct (str_from_inv _ _ _ SF) as (pre & E & B). subst at_.
  eapply agree_bind with (P := both_found s).
  { destruct user as [u|]; [apply (dict_pieces s pre suffix u (l, false) E P)|split; [reflexivity|exact P]]. }
  intros [l1 f1] [l1' f1'] [[= <- <-] P1]. cbn [fst] in P1. eapply agree_bind; [apply (dict_pieces s pre suffix dict (l1, f1) E P1)|].
  intros [l2 f2] [l2' f2'] [[= <- <-] P2]. cbn [fst] in P2.
  assert (COND : is_search m || match ue with Some i => Nat.leb i (blen pre) | None => true end = is_search m' || match ue with Some i => Nat.leb i (blen pre) | None => true end).
  { destruct EA as [->|X]; [reflexivity|]. rewrite (early_late s (blen pre) ue pre suffix X E eq_refl). rewrite !orb_true_r. reflexivity. }
  rewrite <- COND. destruct (is_search m || _); [|repeat split; assumption]. destruct suffix as [|c rest]; [repeat split; assumption|].
  apply agree_bind_eq. intros cats LC. apply agree_foldM_eq; [|repeat split; assumption].
  intros [l3 u3] [l3' u3'] [ord cat] I1 ([= <- <-] & P3 & E3). cbn [fst snd] in *.
  pose proof (unknown_pieces cd ud cat ord u3 f2 l3 s pre c rest E P3) as U.
  destruct (process_unknown_word cd ud cat ord u3 (blen pre) (c :: rest) f2 l3) as [[l4 u4]|k|] eqn:PU; cbn in U |- *; [|reflexivity|exact I].
  destruct U as [_ P4]. split; [reflexivity|]. split; [exact P4|]. cbn [snd]. destruct E3 as [X|X]; [left; exact X|]. destruct SEARCH as [Y|Y]; [left; exact Y|right].
  eapply unknown_early; [exact E|exact (alone_in s pre c rest PS E Y)|exact LC|apply enumerate_in; exact I1|exact X|exact PU].
Qed.

Lemma set_text_modes dict user ud l s : part_of s text -> agree (both s) (set_text l dict user cd ud s m) (set_text l dict user cd ud s m').
Proof.
  intros PS. unfold set_text. cbv zeta. destruct (capacity_alike l l (blen s)) as (_ & E0 & _ & _); [repeat split|].
  destruct (set_capacity l (blen s)) as [c es st t]. cbn [edges] in E0. subst es. unfold add_edge. cbn [capacity edges starts_at ends_at app length].
  cbn [Nat.eqb negb]. apply agree_bind_eq. intros t1 _. apply agree_bind_eq. intros s1 _.
  eapply agree_bind; [apply (foldM_seq (both_st s)) with (a := 0)|].
  - intros i st0 st0' _ H. apply step_modes; assumption.
  - split; [reflexivity|]. split; [|right; intros i X; discriminate X]. unfold pieces. cbn [fst edges].
    repeat constructor; exists []; right; reflexivity.
  - intros [a ?] [b ?] (X & P & _). injection X as <- _. split; [reflexivity|exact P].
Qed.

Hypothesis PENALTY : same_penalties m m' text.

Lemma through_modes cm es w left s : part_of s text -> Forall (piece_edge s) es -> through_cost cm m es w left = through_cost cm m' es w left.
Proof.
  intros PS F. unfold through_cost. destruct (idx es left) as [le|k|] eqn:E; cbn [bind]; [|reflexivity|reflexivity].
  apply idx_ok, nth_error_In in E. rewrite Forall_forall in F. rewrite (penalties_same m m' text s le PENALTY PS (F _ E)). reflexivity.
Qed.

Lemma costs_modes cm l s : part_of s text -> pieces s l -> calculate_path_costs cm m l = calculate_path_costs cm m' l.
Proof.
  intros PS P. unfold calculate_path_costs.
  assert (H : agree (fun a b => a = b /\ Forall (piece_edge s) a)
    (foldM (fun es i => do lefts <- idx (ends_at l) i; do rights <- idx (starts_at l) i; foldM (path_cost_step cm m lefts) rights es) (seq 0 (length (starts_at l))) (edges l))
    (foldM (fun es i => do lefts <- idx (ends_at l) i; do rights <- idx (starts_at l) i; foldM (path_cost_step cm m' lefts) rights es) (seq 0 (length (starts_at l))) (edges l))).
  { apply agree_foldM_eq; [|split; [reflexivity|exact P]]. intros es es' i _ [<- F]. apply agree_bind_eq. intros lefts _. apply agree_bind_eq. intros rights _.
    apply agree_foldM_eq; [|split; [reflexivity|exact F]]. intros x x' r _ [<- G]. unfold path_cost_step. apply agree_bind_eq. intros re IR.
    assert (ME : mapM (through_cost cm m x (e_entry re)) lefts = mapM (through_cost cm m' x (e_entry re)) lefts).
    { clear - PS G PENALTY. induction lefts as [|a lefts IH]; [reflexivity|]. cbn [mapM]. rewrite IH, (through_modes cm x _ a s PS G). reflexivity. }
    rewrite <- ME. apply agree_bind_eq. intros cs _. destruct (min_by_cost cs) as [[best bl]|]; split; try reflexivity; try exact G.
    apply Forall_upd; [exact G|]. apply idx_ok, nth_error_In in IR. rewrite Forall_forall in G. exact (G _ IR). }
  destruct (foldM _ _ (edges l)) as [a|k|], (foldM _ _ (edges l)) as [b|k'|]; cbn in H |- *; try contradiction; [destruct H as [<- _]; reflexivity|congruence|reflexivity].
Qed.

Lemma sentence_modes d u st s : d_chardef d = cd -> part_of s text ->
  tokenize_sentence (Tokenizer d u m) st s = tokenize_sentence (Tokenizer d u m') st s.
Proof.
  intros CD PS. destruct st as [[[l ts] bp] p]. unfold tokenize_sentence. cbv zeta. cbn [t_dictionary t_user t_mode]. rewrite CD.
  pose proof (set_text_modes (d_dict d) (option_map u_dict u) (d_unknown d) l s PS) as H.
  destruct (set_text l _ _ _ _ _ m) as [l1|k|], (set_text l _ _ _ _ _ m') as [l1'|k'|]; cbn in H |- *; try contradiction; [|congruence|reflexivity].
  destruct H as [<- P]. rewrite (costs_modes (d_matrix d) l1 s PS P). reflexivity.
Qed.

Theorem tokenize_modes d u : d_chardef d = cd -> tokenize (Tokenizer d u m) text = tokenize (Tokenizer d u m') text.
Proof.
  intros CD. unfold tokenize. assert (X : forall ss st, Forall (fun s => part_of s text) ss ->
    tokenize_sentences (Tokenizer d u m) ss st = tokenize_sentences (Tokenizer d u m') ss st).
  { induction ss as [|s ss IH]; intros st F; [reflexivity|]. pose proof (Forall_inv F) as P. pose proof (Forall_inv_tail F) as F'. cbn [tokenize_sentences]. rewrite (sentence_modes d u st s CD P).
    destruct (tokenize_sentence _ _ s) as [[st'|k|]|]; try reflexivity. apply IH, F'. }
  rewrite X; [reflexivity|]. apply sentences_parts, split_sentences.
Qed.
End Modes.

Lemma penalties_short p text : (N.of_nat (blen text / 3) <= kanji_threshold p)%N -> same_penalties Normal (Decompose p) text.
Proof.
  intros H k (a & b & ->). cbn [surface_penalty]. assert (L : blen k / 3 <= blen (a ++ k ++ b) / 3) by (apply Nat.div_le_mono; [lia|]; rewrite !blen_app; lia).
  destruct (Z.of_nat (blen k / 3) <=? Z.of_N (kanji_threshold p))%Z eqn:C; [reflexivity|]. lia.
Qed.
Lemma penalties_zero p text : kanji_penalty p = 0%Z -> other_penalty p = 0%Z -> same_penalties Normal (Decompose p) text.
Proof.
  intros H1 H2 k _. cbn [surface_penalty]. rewrite H1, H2, !Z.mul_0_r. cbv zeta.
  repeat match goal with |- context[if ?b then _ else _] => destruct b end; reflexivity.
Qed.

Theorem analyze_modes e cfs tfs m m' d u text :
  (forall n, filtered e cfs text n -> same_penalties m m' n /\ (is_search m = is_search m' \/ single_unknown (d_chardef d) n)) ->
  analyze (analyzer_of e (AnalyzerDef cfs (Tokenizer d u m) tfs)) text = analyze (analyzer_of e (AnalyzerDef cfs (Tokenizer d u m') tfs)) text.
Proof.
  intros H. unfold analyze, analyzer_of. cbn [an_char_filters an_tokenizer ad_char_filters ad_tokenizer ad_token_filters].
  destruct (apply_char_filters _ text []) as [[[n vecs]|k|]|] eqn:E; try reflexivity. destruct (H n (ex_intro _ vecs E)) as [P S1].
  rewrite (tokenize_modes m m' n (d_chardef d) S1 P d u eq_refl). destruct (tokenize _ n) as [[ts|k|]|]; reflexivity.
Qed.
