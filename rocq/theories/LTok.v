(** Tokenization of sentences and texts. *)
From Coq Require Import List NArith ZArith Bool Lia ZifyBool ZifyNat ZifyN.
From Verif Require Import MBase MUtf8 MText MCodec MDict MCharDef MUnk MLattice MTokenizer STok LBase LUtf8 LScan LLat LVit LSeg LCon LTies LExact.
Import ListNotations.

(** ** Tokens of a list of words *)

Fixpoint mk_tokens (bp p : nat) (wl : list word) : list token :=
  match wl with
  | [] => []
  | (k, e) :: r => Token k bp (bp + blen k) p 1 (we_id e) :: mk_tokens (bp + blen k) (S p) r
  end.

Definition surface (wl : list word) : str := concat (map (fun w => fst w) wl).

Lemma surface_cons k e wl : surface ((k, e) :: wl) = k ++ surface wl.
Proof. reflexivity. Qed.

Lemma surface_app a b : surface (a ++ b) = surface a ++ surface b.
Proof. unfold surface. rewrite map_app, concat_app. reflexivity. Qed.

Lemma sentence_tokens_words wl : forall pre bp p,
  sentence_tokens (pre ++ surface wl) (items (blen pre) wl) bp p = Ok (mk_tokens bp p wl, bp + blen (surface wl), p + length wl).
Proof.
  induction wl as [|[k e] wl IH]; intros pre bp p; cbn [items].
  - cbn. rewrite !Nat.add_0_r. reflexivity.
  - cbn [sentence_tokens]. unfold edge_item at 1. cbn [fst snd].
    match goal with |- context [str_range _ _ ?x] => replace x with (blen pre + blen k) end.
    2:{ destruct wl as [|w wl']; cbn [items]; [|reflexivity].
        rewrite surface_cons, !blen_app. cbn. lia. }
    rewrite surface_cons.
    rewrite str_range_app. cbn [bind].
    rewrite app_assoc. specialize (IH (pre ++ k) (bp + blen k) (S p)). rewrite blen_app in IH. rewrite IH. cbn [bind].
    cbn [mk_tokens length]. rewrite !blen_app. do 2 f_equal; [f_equal; lia|lia].
Qed.

Lemma mk_tokens_app a : forall b bp p, mk_tokens bp p (a ++ b) = mk_tokens bp p a ++ mk_tokens (bp + blen (surface a)) (p + length a) b.
Proof.
  induction a as [|[k e] a IH]; intros b bp p; cbn [app mk_tokens length].
  - cbn. rewrite !Nat.add_0_r. reflexivity.
  - rewrite IH, surface_cons, blen_app. do 3 f_equal; lia.
Qed.

Lemma mk_tokens_shift wl : forall bp p, mk_tokens bp p wl = map (shift_token bp p) (mk_tokens 0 0 wl).
Proof.
  assert (G : forall l a b bp p, mk_tokens (a + bp) (b + p) l = map (shift_token a b) (mk_tokens bp p l)).
  { induction l as [|[k e] l IH]; intros a b bp p; cbn [mk_tokens map]; [reflexivity|].
    unfold shift_token at 1. cbn. rewrite <- !Nat.add_assoc.
    replace (S (b + p)) with (b + S p) by lia. rewrite IH. reflexivity. }
  intros bp p. specialize (G wl bp p 0 0). rewrite !Nat.add_0_r in G. exact G.
Qed.

Lemma mk_tokens_end wl : end_of (mk_tokens 0 0 wl) = blen (surface wl).
Proof.
  destruct wl as [|w0 wl0] using rev_ind; [reflexivity|]. clear IHwl0.
  rewrite mk_tokens_app. destruct w0 as [k e]. unfold end_of. rewrite rev_app_distr. cbn.
  rewrite surface_app, blen_app. cbn. rewrite app_nil_r. reflexivity.
Qed.

Lemma mk_tokens_words wl : forall bp p, tokens_of_words (mk_tokens bp p wl) wl.
Proof.
  unfold tokens_of_words. induction wl as [|[k e] wl IH]; intros bp p; cbn; [reflexivity|]. f_equal. apply IH.
Qed.

Lemma mk_tokens_length wl : forall bp p, length (mk_tokens bp p wl) = length wl.
Proof. induction wl as [|[k e] wl IH]; intros bp p; cbn; auto. Qed.

Lemma mk_tokens_tiles wl : forall bp p, Forall (fun w => fst w <> []) wl -> tiles_from bp p (surface wl) (mk_tokens bp p wl).
Proof.
  induction wl as [|[k e] wl IH]; intros bp p F; cbn [mk_tokens tiles_from]; [reflexivity|].
  inversion F; subst. cbn. repeat split; auto. exists (surface wl). split; [reflexivity|]. apply IH. assumption.
Qed.

Lemma seg_words P pre s wl : seg P pre s wl -> surface wl = s /\ Forall (fun w => fst w <> []) wl.
Proof.
  intros H. induction H as [|pre k e rest wl NE _ _ [IH1 IH2]]; [auto|].
  rewrite surface_cons, IH1. split; [reflexivity|]. constructor; assumption.
Qed.

(** ** Splitting into sentences *)

Lemma delimiter_spec c : is_delimiter c = true <-> delimiter c.
Proof.
  unfold is_delimiter, delimiter. cbn [In]. rewrite !orb_true_iff, !N.eqb_eq. 
  split; [intros [[[H|H]|H]|H]; auto|intros [H|[H|[H|[H|[]]]]]; auto].
Qed.

Lemma not_delimiter c : is_delimiter c = false <-> ~ delimiter c.
Proof. rewrite <- delimiter_spec. destruct (is_delimiter c); split; congruence. Qed.

Lemma split_sentences text : sentences text (split_inclusive is_delimiter text).
Proof.
  induction text as [|c r IH]; cbn [split_inclusive]; [constructor|].
  destruct (is_delimiter c) eqn:D.
  - change (c :: r) with ([c] ++ r). constructor; [|exact IH]. exists [], c. split; [reflexivity|].
    split; [apply delimiter_spec; exact D|constructor].
  - apply not_delimiter in D. inversion IH as [H1 H2|s [O1 O2] H1 H2|s rest ss (b & x & E & Dx & Fb) S H1 H2]; subst.
    + constructor. split; [discriminate|]. repeat constructor. exact D.
    + constructor. split; [discriminate|]. constructor; assumption.
    + change (c :: (b ++ [x]) ++ rest) with ((c :: b ++ [x]) ++ rest). constructor; [|exact S].
      exists (c :: b), x. repeat split; auto.
Qed.

Lemma split_closed body c rest : delimiter c -> Forall (fun x => ~ delimiter x) body ->
  split_inclusive is_delimiter ((body ++ [c]) ++ rest) = (body ++ [c]) :: split_inclusive is_delimiter rest.
Proof.
  intros D F. induction F as [|x body N F IH]; cbn [app split_inclusive].
  - apply delimiter_spec in D. rewrite D. reflexivity.
  - apply not_delimiter in N. rewrite N, IH. reflexivity.
Qed.

Lemma split_open s : open_sentence s -> split_inclusive is_delimiter s = [s].
Proof.
  intros [NE F]. induction F as [|x s N F IH]; [congruence|]. cbn [split_inclusive].
  apply not_delimiter in N. rewrite N. destruct s as [|y s]; [reflexivity|]. rewrite IH by discriminate. reflexivity.
Qed.

Lemma sentences_unique text ss : sentences text ss -> split_inclusive is_delimiter text = ss.
Proof.
  intros H. induction H as [|s O|s rest ss (b & c & -> & D & F) S IH]; [reflexivity|apply split_open; exact O|].
  rewrite split_closed by assumption. rewrite IH. reflexivity.
Qed.

Lemma sentences_concat text ss : sentences text ss -> concat ss = text.
Proof. intros H. induction H; cbn; rewrite ?app_nil_r; congruence. Qed.

Lemma sentences_nonempty text ss : sentences text ss -> Forall (fun s => s <> []) ss.
Proof.
  intros H. induction H as [|s [O _]|s rest ss (b & c & -> & _) S IH]; constructor; auto.
  destruct b; discriminate.
Qed.

(* splitting after a delimiter *)
Lemma split_after_delim a c b : delimiter c ->
  split_inclusive is_delimiter ((a ++ [c]) ++ b) = split_inclusive is_delimiter (a ++ [c]) ++ split_inclusive is_delimiter b.
Proof.
  intros D. induction a as [|x a IH].
  - cbn. apply delimiter_spec in D. rewrite D. reflexivity.
  - cbn [app split_inclusive]. rewrite IH. destruct (is_delimiter x); [reflexivity|].
    assert (NE : split_inclusive is_delimiter (a ++ [c]) <> []).
    { destruct a; cbn; [destruct (is_delimiter c); discriminate|].
      destruct (is_delimiter c0); [discriminate|]. destruct (split_inclusive is_delimiter (a ++ [c])); discriminate. }
    destruct (split_inclusive is_delimiter (a ++ [c])) as [|p ps]; [congruence|]. reflexivity.
Qed.

Section Tok.
Variable t : tokenizer.
Variable A : adict.
Hypothesis R : represents t A.

Let m := t_mode t.

(* what the tokenizer does with a sentence, whatever was in the lattice before *)
Definition runs (s : str) (wl : list word) : Prop :=
  forall l toks bp p, reusable l -> exists l2, reusable l2 /\
    tokenize_sentence t (l, toks, bp, p) s
    = Some (Ok (l2, toks ++ mk_tokens bp p wl, bp + blen (surface wl), p + length wl)).

(* the words found: none (no path), or a segmentation, cheapest among the considered ones *)
Definition found_words (s : str) (wl : list word) : Prop :=
  (wl = [] /\ ~ covered A s) \/
  (segmentation A s wl /\
   (covered A s -> fits_i32 m s ->
    first_best A m s wl /\
    (forall wl', dict_segmentation A s wl' -> (seg_cost A m wl <= seg_cost A m wl')%Z) /\
    (is_search m = true -> forall wl', segmentation A s wl' -> (seg_cost A m wl <= seg_cost A m wl')%Z))).

(* the words searched and the choice made among them *)
Definition chosen_words (s : str) (wl : list word) : Prop :=
  if reachb (scan A m s) (blen s)
  then seg (admitted A m s) [] s wl /\
       (fits_i32 m s -> forall wl', seg (admitted A m s) [] s wl' ->
         (seg_cost A m wl < seg_cost A m wl')%Z \/ (seg_cost A m wl = seg_cost A m wl' /\ wins_tie A wl wl'))
  else wl = [].

Lemma sentence_chosen s : valid_str s -> s <> [] -> exists wl, runs s wl /\ chosen_words s wl.
Proof.
  intros V NE. destruct (sentence_search t A R m s V NE) as (E & wl & RUN & RES).
  exists wl.
  assert (SG : surface wl = s \/ wl = []).
  { destruct (reachb (scan A m s) (blen s)); [left; apply (seg_words _ _ _ _ (proj1 RES))|right; exact RES]. }
  split.
  - intros l toks bp p RU. set (cap := Nat.max (capacity l) (blen s)).
    destruct (RUN cap) as [C1 C2]; [lia|]. cbv zeta in C1, C2.
    exists (Lattice cap E (starts_at (lat_of (blen s) cap (scan A m s))) (ends_at (lat_of (blen s) cap (scan A m s)))).
    split.
    { right. unfold lat_of. cbn [starts_at ends_at capacity]. rewrite !map_length, seq_length. auto. }
    unfold tokenize_sentence. rewrite (set_text_scan t A R l (t_mode t) s V NE RU). fold m cap.
    rewrite C1, C2. destruct SG as [SG|SG].
    + pose proof (sentence_tokens_words wl [] bp p) as ST. rewrite app_nil_l, SG in ST. cbn [blen] in ST. rewrite ST, SG. reflexivity.
    + subst wl. cbn. rewrite !Nat.add_0_r. reflexivity.
  - unfold chosen_words. destruct (reachb (scan A m s) (blen s)); [|exact RES].
    destruct RES as (SEG & OPT & _ & _ & _ & TIE). split; [exact SEG|].
    intros FI ws' S'. specialize (OPT FI ws' S'). destruct (Z.eq_dec (seg_cost A m wl) (seg_cost A m ws')) as [Q|Q]; [|left; lia].
    right. split; [exact Q|]. apply (tied_wins A m s); [exact SEG|exact S'|]. apply TIE; [exact FI|exact S'|lia].
Qed.

Lemma chosen_found s wl : chosen_words s wl -> found_words s wl.
Proof.
  unfold chosen_words, found_words. destruct (reachb (scan A m s) (blen s)) eqn:RB; intros RES.
  - destruct RES as (SEG & OPT). right. split.
    + eapply seg_impl; [|exact SEG]. intros. eapply admitted_candidate. eassumption.
    + intros CV FI. specialize (OPT FI).
      assert (LE : forall wl', seg (admitted A m s) [] s wl' -> (seg_cost A m wl <= seg_cost A m wl')%Z).
      { intros wl' S'. destruct (OPT wl' S'); lia. }
      split; [|split].
      * exists (admitted A m s), (admitted_unk A m s). split; [apply considered_admitted; exact CV|]. split; [exact SEG|exact OPT].
      * intros wl' D. apply LE. apply (dict_seg_admitted A m s CV); auto. constructor.
      * intros SM wl' D. apply LE. apply (seg_search_admitted A m s CV); auto. constructor.
  - left. split; [exact RES|]. intros CV. pose proof (scan_reaches_end A m s CV). congruence.
Qed.

Lemma sentence_runs s : valid_str s -> s <> [] -> exists wl, runs s wl /\ found_words s wl.
Proof. intros V NE. destruct (sentence_chosen s V NE) as (wl & H & C). exists wl. split; [exact H|apply chosen_found; exact C]. Qed.

Lemma chosen_exact s wl : chosen_words s wl -> exact_answer A m s wl.
Proof.
  intros H. exists (admitted A m s), (active_at A m s). split; [apply searched_admitted|].
  unfold chosen_words in H. destruct (reachb (scan A m s) (blen s)) eqn:RB; [right; exact H|].
  left. split; [exact H|]. intros ws' S'.
  assert (RE : reach (admitted A m s) s s).
  { change s with ([] ++ s) at 3. eapply seg_reach; [exact S'|reflexivity|constructor]. }
  apply reach_reachb in RE. congruence.
Qed.

(* path costs in the lattice of a sentence *)
Lemma sentence_costs s : valid_str s -> s <> [] -> covered A s ->
  exists l1 l2 eos wl,
    set_text default_lattice (d_dict (t_dictionary t)) (option_map u_dict (t_user t)) (d_chardef (t_dictionary t))
      (d_unknown (t_dictionary t)) s m = Ok l1 /\
    calculate_path_costs (d_matrix (t_dictionary t)) m l1 = Ok l2 /\
    nth_error (edges l2) 1 = Some eos /\ is_i32 (e_path_cost eos) /\
    (fits_i32 m s ->
     Forall (fun e => (-2147483647 < e_path_cost e < 2147483647)%Z) (edges l2) /\
     best_segmentation A m s wl /\ e_path_cost eos = seg_cost A m wl /\
     exists ts, tokenize_sentence t (default_lattice, [], 0, 0) s = Some (Ok (l2, ts, blen s, length wl)) /\ tokens_of_words ts wl).
Proof.
  intros V NE CV. destruct (sentence_search t A R m s V NE) as (E & wl & RUN & RES).
  rewrite (scan_reaches_end A m s CV) in RES. destruct RES as (SEG & OPT & EX & BD & (eos & V1 & I1) & _).
  destruct (RUN (blen s) (le_n _)) as [C1 C2]. cbv zeta in C1, C2.
  eexists. exists (Lattice (blen s) E (starts_at (lat_of (blen s) (blen s) (scan A m s))) (ends_at (lat_of (blen s) (blen s) (scan A m s)))).
  exists eos, wl. pose proof (set_text_scan t A R default_lattice m s V NE (or_introl (conj eq_refl (conj eq_refl eq_refl)))) as ST.
  cbn [capacity default_lattice Nat.max] in ST.
  split; [exact ST|]. split; [exact C1|]. split; [exact V1|]. split; [exact I1|].
  intros FI. split; [apply BD; exact FI|]. split.
  { exists (admitted A m s), (admitted_unk A m s). split; [apply considered_admitted; exact CV|]. split; [exact SEG|]. apply OPT. exact FI. }
  split.
  { destruct (EX FI) as (e' & V2 & E2). congruence. }
  exists (mk_tokens 0 0 wl). split; [|apply mk_tokens_words].
  unfold tokenize_sentence. fold m. rewrite ST, C1, C2.
  pose proof (sentence_tokens_words wl [] 0 0) as STW. rewrite app_nil_l in STW.
  destruct (seg_words _ _ _ _ SEG) as [SG _]. rewrite SG in STW. cbn [blen] in STW. rewrite STW. reflexivity.
Qed.

Lemma run_sentences ss wss : Forall2 runs ss wss -> forall l toks bp p, reusable l ->
  exists l2, reusable l2 /\ tokenize_sentences t ss (l, toks, bp, p)
    = Some (Ok (l2, toks ++ mk_tokens bp p (concat wss), bp + blen (surface (concat wss)), p + length (concat wss))).
Proof.
  intros H. induction H as [|s wl ss wss HR H IH]; intros l toks bp p RU; cbn [tokenize_sentences concat].
  - exists l. split; [exact RU|]. cbn. rewrite app_nil_r, !Nat.add_0_r. reflexivity.
  - destruct (HR l toks bp p RU) as (l2 & RU2 & ->).
    destruct (IH l2 (toks ++ mk_tokens bp p wl) (bp + blen (surface wl)) (p + length wl) RU2) as (l3 & RU3 & ->).
    exists l3. split; [exact RU3|]. rewrite mk_tokens_app, surface_app, blen_app, app_length, <- app_assoc, !Nat.add_assoc. reflexivity.
Qed.

Lemma default_reusable : reusable default_lattice.
Proof. left. auto. Qed.

Lemma sentences_chosen text ss : valid_str text -> sentences text ss ->
  exists wss, Forall2 (fun s wl => runs s wl /\ chosen_words s wl) ss wss.
Proof.
  intros V S. pose proof (sentences_concat _ _ S) as C. pose proof (sentences_nonempty _ _ S) as N.
  assert (VS : Forall valid_str ss).
  { clear - V C. subst text. induction ss as [|s ss IH]; constructor.
    - cbn in V. apply valid_str_app in V. apply V.
    - apply IH. cbn in V. apply valid_str_app in V. apply V. }
  clear - N VS R. induction VS as [|s ss Vs VS IH]; [exists []; constructor|].
  inversion N; subst. destruct IH as [wss H]; [assumption|].
  destruct (sentence_chosen s Vs) as [wl Hw]; [assumption|]. exists (wl :: wss). constructor; assumption.
Qed.

Lemma chosen_surface s wl : chosen_words s wl -> (surface wl = s \/ wl = []) /\ Forall (fun w => fst w <> []) wl.
Proof.
  unfold chosen_words. destruct (reachb (scan A m s) (blen s)).
  - intros [S _]. apply seg_words in S as [S1 S2]. auto.
  - intros ->. auto.
Qed.

Lemma sentences_run text ss : valid_str text -> sentences text ss ->
  exists wss, Forall2 (fun s wl => runs s wl /\ found_words s wl) ss wss.
Proof.
  intros V S. destruct (sentences_chosen text ss V S) as [wss H]. exists wss.
  clear - H. induction H as [|s wl ss wss [H1 H2] H IH]; constructor; [|exact IH]. split; [exact H1|apply chosen_found; exact H2].
Qed.

Lemma tokenize_words ss wss text : sentences text ss -> Forall2 runs ss wss ->
  tokenize t text = Some (Ok (mk_tokens 0 0 (concat wss))).
Proof.
  intros S H. unfold tokenize. rewrite (sentences_unique _ _ S).
  destruct (run_sentences ss wss H default_lattice [] 0 0 default_reusable) as (l2 & _ & ->). reflexivity.
Qed.

Lemma forall2_runs ss wss : Forall2 (fun s wl => runs s wl /\ found_words s wl) ss wss -> Forall2 runs ss wss.
Proof. intros H. induction H; constructor; auto. apply H. Qed.

(** ** Theorems *)

Lemma tokenize_total text : valid_str text -> exists ts, tokenize t text = Some (Ok ts).
Proof.
  intros V. destruct (sentences_run text _ V (split_sentences text)) as [wss H].
  eexists. eapply tokenize_words; [apply split_sentences|]. apply forall2_runs. exact H.
Qed.

Lemma found_covered s wl : covered A s -> found_words s wl -> segmentation A s wl.
Proof. intros C [[_ H]|[H _]]; [contradiction|exact H]. Qed.

Lemma covered_app a b : covered A (a ++ b) <-> covered A a /\ covered A b.
Proof.
  unfold covered. split.
  - intros H. split; intros c I; apply H; apply in_app_iff; auto.
  - intros [H1 H2] c I. apply in_app_iff in I as [I|I]; auto.
Qed.

Lemma covered_surface ss wss : Forall2 (fun s wl => runs s wl /\ found_words s wl) ss wss -> covered A (concat ss) ->
  surface (concat wss) = concat ss /\ Forall (fun w => fst w <> []) (concat wss).
Proof.
  intros H. induction H as [|s wl ss wss [_ HF] H IH]; intros C; cbn [concat]; [auto|].
  cbn [concat] in C. apply covered_app in C as [C1 C2]. destruct (IH C2) as [I1 I2].
  pose proof (found_covered _ _ C1 HF) as SG. apply seg_words in SG as [S1 S2].
  rewrite surface_app, S1, I1. split; [reflexivity|]. apply Forall_app. auto.
Qed.

Lemma tokenize_tiles text : valid_str text -> covered A text -> exists ts, tokenize t text = Some (Ok ts) /\ tiles text ts.
Proof.
  intros V C. destruct (sentences_run text _ V (split_sentences text)) as [wss H].
  exists (mk_tokens 0 0 (concat wss)). split; [eapply tokenize_words; [apply split_sentences|apply forall2_runs; exact H]|].
  pose proof (sentences_concat _ _ (split_sentences text)) as CC.
  destruct (covered_surface _ _ H) as [S1 S2]; [rewrite CC; exact C|].
  unfold tiles. rewrite <- CC at 1. rewrite <- S1. apply mk_tokens_tiles. exact S2.
Qed.

(* no coverage: the tokens lie side by side over the sentences that were found *)
Lemma tokenize_exact text ss : valid_str text -> sentences text ss ->
  exists ts wss, tokenize t text = Some (Ok ts) /\ tokens_of_words ts (concat wss) /\ Forall2 (exact_answer A m) ss wss /\
    tiles (concat (map (fun wl => concat (map fst wl)) wss)) ts.
Proof.
  intros V S. destruct (sentences_chosen text ss V S) as [wss H].
  exists (mk_tokens 0 0 (concat wss)), wss. split.
  { eapply tokenize_words; [exact S|]. clear - H. induction H as [|s wl ss wss [H1 _] H IH]; constructor; assumption. }
  split; [apply mk_tokens_words|]. split.
  { clear - H. induction H as [|s wl ss wss [_ H1] H IH]; constructor; [apply chosen_exact; exact H1|exact IH]. }
  assert (E : concat (map (fun wl => concat (map fst wl)) wss) = surface (concat wss)).
  { clear. induction wss as [|wl wss IH]; [reflexivity|]. cbn [map concat]. rewrite surface_app, <- IH. reflexivity. }
  rewrite E. apply mk_tokens_tiles. clear - H. induction H as [|s wl ss wss [_ H1] H IH]; cbn; [constructor|].
  apply Forall_app. split; [apply (chosen_surface s); exact H1|exact IH].
Qed.

(* every answer that satisfies the specification is the answer *)
Lemma tokenize_complete text ss wss : valid_str text -> sentences text ss -> distinct_entries A ->
  Forall (fun s => fits_i32 m s) ss -> Forall2 (exact_answer A m) ss wss ->
  exists ts, tokenize t text = Some (Ok ts) /\ tokens_of_words ts (concat wss).
Proof.
  intros V S D FI H. destruct (tokenize_exact text ss V S) as (ts & wss' & T & W & H' & _). exists ts. split; [exact T|].
  assert (E : wss = wss'); [|rewrite E; exact W]. clear - D FI H H' . revert wss' H'.
  induction H as [|s wl ss wss H1 H IH]; intros wss' H'; inversion H'; subst; [reflexivity|]. inversion FI; subst.
  f_equal; [eapply exact_unique; eassumption|apply IH; assumption].
Qed.

(* sentences that can be written in dictionary words are never lost; in search mode none that has a segmentation is *)
Lemma tokenize_kept text ss : valid_str text -> sentences text ss ->
  Forall (fun s => (exists ws, dict_segmentation A s ws) \/ (is_search m = true /\ exists ws, segmentation A s ws)) ss ->
  exists ts, tokenize t text = Some (Ok ts) /\ tiles text ts.
Proof.
  intros V S K. destruct (tokenize_exact text ss V S) as (ts & wss & T & W & H & TI). exists ts. split; [exact T|].
  assert (E : concat (map (fun wl => concat (map fst wl)) wss) = text); [|rewrite E in TI; exact TI].
  rewrite <- (sentences_concat _ _ S). clear - K H. induction H as [|s wl ss wss H1 H IH]; [reflexivity|].
  inversion K as [|x l K1 K2]; subst. cbn [map concat]. rewrite IH by assumption. f_equal.
  destruct H1 as (X & Act & SR & [[-> N]|[SG _]]).
  - exfalso. destruct K1 as [[ws D]|[SM [ws D]]]; apply (N ws).
    + apply (searched_dict A m s X Act); auto. constructor.
    + apply (searched_all A m s X Act); auto. constructor.
  - apply seg_words in SG. apply SG.
Qed.

(* without the coverage hypothesis: the tokens of each sentence cover it or are missing *)
Lemma tokenize_sentencewise text ss : valid_str text -> sentences text ss ->
  exists ts wss, tokenize t text = Some (Ok ts) /\ tokens_of_words ts (concat wss) /\ Forall2 found_words ss wss.
Proof.
  intros V S. destruct (sentences_run text ss V S) as [wss H].
  exists (mk_tokens 0 0 (concat wss)), wss. split; [eapply tokenize_words; [exact S|apply forall2_runs; exact H]|].
  split; [apply mk_tokens_words|]. clear - H. induction H; constructor; auto. apply H.
Qed.

Lemma tokenize_first text ss : valid_str text -> covered A text -> sentences text ss ->
  Forall (fun s => fits_i32 m s) ss ->
  exists ts wss, tokenize t text = Some (Ok ts) /\ tokens_of_words ts (concat wss) /\
    Forall2 (first_best A m) ss wss.
Proof.
  intros V C S F. destruct (tokenize_sentencewise text ss V S) as (ts & wss & T & W & H).
  exists ts, wss. split; [exact T|]. split; [exact W|].
  pose proof (sentences_concat _ _ S) as CC. rewrite <- CC in C. clear - C F H.
  induction H as [|s wl ss wss HF H IH]; constructor.
  - cbn in C. apply covered_app in C as [C _]. inversion F; subst.
    destruct HF as [[_ HF]|[_ HF]]; [contradiction|]. apply HF; assumption.
  - cbn in C. apply covered_app in C as [_ C]. inversion F; subst. apply IH; assumption.
Qed.

Lemma first_is_best s wl : first_best A m s wl -> best_segmentation A m s wl.
Proof.
  intros (W & U & C & S & H). exists W, U. split; [exact C|]. split; [exact S|]. intros ws' S'. destruct (H ws' S') as [L|[E _]]; lia.
Qed.

Lemma tokenize_best text ss : valid_str text -> covered A text -> sentences text ss ->
  Forall (fun s => fits_i32 m s) ss ->
  exists ts wss, tokenize t text = Some (Ok ts) /\ tokens_of_words ts (concat wss) /\
    Forall2 (best_segmentation A m) ss wss.
Proof.
  intros V C S F. destruct (tokenize_first text ss V C S F) as (ts & wss & T & W & H). exists ts, wss. split; [exact T|]. split; [exact W|].
  clear - H. induction H; constructor; [apply first_is_best|]; assumption.
Qed.

Lemma tokenize_dict_bound text ss : valid_str text -> covered A text -> sentences text ss ->
  Forall (fun s => fits_i32 m s) ss ->
  exists ts wss, tokenize t text = Some (Ok ts) /\ tokens_of_words ts (concat wss) /\
    Forall2 (fun s wl => segmentation A s wl /\
      (forall wl', dict_segmentation A s wl' -> (seg_cost A m wl <= seg_cost A m wl')%Z) /\
      (is_search m = true -> forall wl', segmentation A s wl' -> (seg_cost A m wl <= seg_cost A m wl')%Z)) ss wss.
Proof.
  intros V C S F. destruct (tokenize_sentencewise text ss V S) as (ts & wss & T & W & H).
  exists ts, wss. split; [exact T|]. split; [exact W|].
  pose proof (sentences_concat _ _ S) as CC. rewrite <- CC in C. clear - C F H.
  induction H as [|s wl ss wss HF H IH]; constructor.
  - cbn in C. apply covered_app in C as [C _]. inversion F; subst.
    destruct HF as [[_ HF]|[HS HF]]; [contradiction|]. split; [exact HS|]. apply HF; assumption.
  - cbn in C. apply covered_app in C as [_ C]. inversion F; subst. apply IH; assumption.
Qed.

Lemma tokenize_app a c b : valid_str ((a ++ [c]) ++ b) -> delimiter c ->
  exists ts1 ts2, tokenize t (a ++ [c]) = Some (Ok ts1) /\ tokenize t b = Some (Ok ts2) /\
    tokenize t ((a ++ [c]) ++ b) = Some (Ok (ts1 ++ map (shift_token (end_of ts1) (length ts1)) ts2)).
Proof.
  intros V D. apply valid_str_app in V as [V1 V2].
  destruct (sentences_run _ _ V1 (split_sentences (a ++ [c]))) as [w1 H1].
  destruct (sentences_run _ _ V2 (split_sentences b)) as [w2 H2].
  apply forall2_runs in H1, H2.
  exists (mk_tokens 0 0 (concat w1)), (mk_tokens 0 0 (concat w2)).
  split; [eapply tokenize_words; [apply split_sentences|exact H1]|].
  split; [eapply tokenize_words; [apply split_sentences|exact H2]|].
  rewrite mk_tokens_end, mk_tokens_length.
  rewrite <- mk_tokens_shift. rewrite <- mk_tokens_app, <- concat_app.
  eapply tokenize_words; [apply split_sentences|]. rewrite split_after_delim by exact D. apply Forall2_app; assumption.
Qed.

(* any reusable lattice gives the same tokens *)
Lemma lattice_reuse s l toks bp p : valid_str s -> s <> [] -> reusable l ->
  exists l1 l2 ts bp' p', reusable l2 /\
    tokenize_sentence t (default_lattice, toks, bp, p) s = Some (Ok (l1, toks ++ ts, bp', p')) /\
    tokenize_sentence t (l, toks, bp, p) s = Some (Ok (l2, toks ++ ts, bp', p')).
Proof.
  intros V NE RU. destruct (sentence_runs s V NE) as (wl & HR & _).
  destruct (HR default_lattice toks bp p default_reusable) as (l1 & _ & H1).
  destruct (HR l toks bp p RU) as (l2 & RU2 & H2).
  exists l1, l2, (mk_tokens bp p wl), (bp + blen (surface wl)), (p + length wl). auto.
Qed.

Lemma seg_candidate_words pre s wl : seg (fun _ => candidate A) pre s wl ->
  Forall (fun w => exists rest, candidate A (fst w ++ rest) (fst w) (snd w)) wl.
Proof. intros H. induction H; constructor; auto. exists rest. assumption. Qed.

Lemma token_provenance text ts tok : valid_str text -> tokenize t text = Some (Ok ts) -> In tok ts ->
  exists e, tk_word tok = we_id e /\
    (In e (entries_of (a_usr A) (tk_text tok)) \/ In e (entries_of (a_sys A) (tk_text tok)) \/
     exists c r ord k, tk_text tok = c :: r /\ has_cat A ord k c /\ In e (a_unk A k)).
Proof.
  intros V T I. destruct (tokenize_sentencewise text _ V (split_sentences text)) as (ts' & wss & T' & W & H).
  rewrite T in T'. injection T' as <-.
  assert (F : Forall (fun w => exists rest, candidate A (fst w ++ rest) (fst w) (snd w)) (concat wss)).
  { clear - H. induction H as [|s wl ss wss HF H IH]; cbn; [constructor|]. apply Forall_app. split; [|exact IH].
    destruct HF as [[-> _]|[HF _]]; [constructor|]. eapply seg_candidate_words. exact HF. }
  unfold tokens_of_words in W.
  assert (J : In (tk_text tok, tk_word tok) (map (fun '(k, e) => (k, we_id e)) (concat wss))).
  { rewrite <- W. apply (in_map (fun x => (tk_text x, tk_word x))). exact I. }
  apply in_map_iff in J as ([k e] & E & J). injection E as E1 E2.
  rewrite Forall_forall in F. destruct (F _ J) as [rest C]. cbn [fst snd] in C.
  exists e. split; [congruence|]. rewrite <- E1.
  destruct C as [(_ & _ & [C|C])|(c & r & ord & i & EQ & HC & _ & (c' & run & rest' & EQ2 & -> & _) & U)]; auto.
  right. right. exists c', run, ord, i. split; [reflexivity|]. split; [|exact U].
  injection EQ as <- _. exact HC.
Qed.

Lemma surface_in wl k e : In (k, e) wl -> exists a b, surface wl = a ++ k ++ b.
Proof.
  intros I. apply in_split in I as (l1 & l2 & ->). exists (surface l1), (surface l2).
  rewrite surface_app, surface_cons. reflexivity.
Qed.

Lemma sentence_delims text ss s : sentences text ss -> In s ss -> forall a c b, s = a ++ c :: b -> delimiter c -> b = [].
Proof.
  intros S. induction S as [|s0 [_ O]|s0 rest ss (body & x & -> & D & F) S IH]; intros I a c b E DC.
  - destruct I.
  - destruct I as [<-|[]]. subst. rewrite Forall_app in O. destruct O as [_ O]. inversion O; subst. contradiction.
  - destruct I as [<-|I]; [|eapply IH; eauto].
    destruct b as [|y b'] using rev_ind; [reflexivity|]. clear IHb'. exfalso.
    change (a ++ c :: b' ++ [y]) with (a ++ (c :: b') ++ [y]) in E. rewrite app_assoc in E.
    apply app_inj_tail in E as [E _]. subst body. rewrite Forall_app in F. destruct F as [_ F]. inversion F; subst. contradiction.
Qed.

Lemma token_delims text ts tok a c b : valid_str text -> tokenize t text = Some (Ok ts) -> In tok ts ->
  tk_text tok = a ++ c :: b -> delimiter c -> b = [].
Proof.
  intros V T I E D. pose proof (split_sentences text) as S.
  destruct (tokenize_sentencewise text _ V S) as (ts' & wss & T' & W & H).
  rewrite T in T'. injection T' as <-.
  assert (J : In (tk_text tok, tk_word tok) (map (fun '(k, e) => (k, we_id e)) (concat wss))).
  { rewrite <- W. apply (in_map (fun x => (tk_text x, tk_word x))). exact I. }
  apply in_map_iff in J as ([k e] & EQ & J). injection EQ as E1 E2.
  assert (X : exists s wl, In s (split_inclusive is_delimiter text) /\ In (k, e) wl /\ found_words s wl).
  { clear - H J. induction H as [|s wl ss wss HF H IH]; cbn in J; [destruct J|].
    apply in_app_iff in J as [J|J].
    - exists s, wl. split; [left; reflexivity|auto].
    - destruct (IH J) as (s' & wl' & X1 & X2). exists s', wl'. split; [right; exact X1|exact X2]. }
  destruct X as (s & wl & X1 & X2 & [[-> _]|[X3 _]]); [destruct X2|].
  apply seg_words in X3 as [X3 _]. destruct (surface_in wl k e X2) as (u & v & X4).
  rewrite X3, E1, E in X4.
  assert (Q : b ++ v = []).
  { eapply (sentence_delims text _ s S X1 (u ++ a) c (b ++ v)); [|exact D]. rewrite X4, <- !app_assoc. reflexivity. }
  apply app_nil_inv in Q. apply Q.
Qed.

End Tok.

(** ** Byte offsets *)

Lemma tiles_bytes ts : forall pre text off pos, tiles_from off pos text ts -> off = blen pre ->
  (forall tok, In tok ts -> tk_start tok < tk_end tok /\ tk_end tok <= length (utf8 (pre ++ text)) /\
    firstn (tk_end tok - tk_start tok) (skipn (tk_start tok) (utf8 (pre ++ text))) = utf8 (tk_text tok)).
Proof.
  induction ts as [|t0 ts IH]; intros pre text off pos T O tok I; [destruct I|].
  cbn [tiles_from] in T. destruct T as (NE & S1 & S2 & _ & _ & rest & -> & T). destruct I as [<-|I].
  - pose proof (blen_pos _ NE). rewrite S2, S1, O. split; [lia|]. rewrite blen_utf8, !blen_app. split; [lia|].
    rewrite !utf8_app, <- (blen_utf8 pre), skipn_app, skipn_all, Nat.sub_diag. cbn [skipn app].
    replace (length (utf8 pre) + blen (tk_text t0) - length (utf8 pre)) with (length (utf8 (tk_text t0))) by (rewrite (blen_utf8 (tk_text t0)); lia).
    apply firstn_app_exact.
  - rewrite app_assoc. eapply IH; [exact T| |exact I]. rewrite blen_app. lia.
Qed.

Lemma tokenize_bytes t A : represents t A -> forall text, valid_str text -> covered A text ->
  exists ts, tokenize t text = Some (Ok ts) /\ concat (map (fun tok => utf8 (tk_text tok)) ts) = utf8 text /\
    forall tok, In tok ts -> tk_start tok < tk_end tok /\ tk_end tok <= length (utf8 text) /\
      firstn (tk_end tok - tk_start tok) (skipn (tk_start tok) (utf8 text)) = utf8 (tk_text tok).
Proof.
  intros R text V C. destruct (tokenize_tiles t A R text V C) as (ts & T & TI). exists ts. split; [exact T|]. split.
  - clear - TI. unfold tiles in TI. revert TI. generalize 0 at 1. generalize 0. revert text.
    induction ts as [|t0 ts IH]; intros text n k TI; cbn [tiles_from] in TI; [subst; reflexivity|].
    destruct TI as (_ & _ & _ & _ & _ & rest & -> & TI). cbn [map concat]. rewrite utf8_app, (IH _ _ _ TI). reflexivity.
  - apply (tiles_bytes ts [] text 0 0); [exact TI|reflexivity].
Qed.
