(** More words and other modes: what the search looks at grows. *)
From Coq Require Import List NArith ZArith Bool Lia ZifyBool ZifyNat.
From Verif Require Import MBase MUtf8 MCodec MDict MCharDef MUnk MLattice MTokenizer STok SMore LBase LUtf8 LExact LTok.
Import ListNotations.

Lemma more_dict_word A A' s k e : more_words A A' -> dict_word A s k e -> dict_word A' s k e.
Proof. intros M (N & P & H). split; [exact N|]. split; [exact P|]. apply (mw_words _ _ M), H. Qed.

Lemma more_has_cat A A' ord k c : more_words A A' -> has_cat A ord k c <-> has_cat A' ord k c.
Proof. intros M. unfold has_cat. rewrite (mw_cats _ _ M). reflexivity. Qed.

Lemma more_span A A' ord k s w : more_words A A' -> unk_span A ord k s w -> unk_span A' ord k s w.
Proof.
  intros M (c & run & rest & E1 & E2 & H). exists c, run, rest. split; [exact E1|]. split; [exact E2|]. rewrite (mw_group _ _ M). destruct (a_group A k); [|exact H].
  destruct H as [F L]. split; [eapply Forall_impl; [|exact F]; intros x; apply (more_has_cat A A' ord k x M)|]. intros d rest' E X. apply (L d rest' E). apply (more_has_cat A A' ord k d M), X.
Qed.

Lemma more_unknown A A' s pre r k e : more_words A A' -> no_new_starts A A' s -> s = pre ++ r -> unknown_word A r k e -> unknown_word A' r k e.
Proof.
  intros M NS E (c & r' & ord & cat & -> & HC & I & SP & U). exists c, r', ord, cat. split; [reflexivity|]. split; [apply (more_has_cat A A' ord cat c M), HC|].
  split; [|split; [apply (more_span A A'); assumption|rewrite (mw_unk _ _ M); exact U]]. rewrite (mw_invoke _ _ M). destruct I as [I|I]; [auto|].
  destruct (NS pre c r' E I) as [N|N]; [auto|]. left. apply N. eapply nth_error_In. exact HC.
Qed.

Lemma seg_mono (P Q : str -> str -> str -> word_entry -> Prop) pre r ws : (forall pre r k e, P pre r k e -> Q pre r k e) -> seg P pre r ws -> seg Q pre r ws.
Proof. intros H. induction 1; constructor; auto. Qed.

Lemma reach_mono (P Q : str -> str -> str -> word_entry -> Prop) s pre : (forall pre r k e, reach Q s pre -> P pre r k e -> Q pre r k e) -> reach P s pre -> reach Q s pre.
Proof. intros H. induction 1 as [|pre k rest e R IH E W]; [constructor|]. econstructor; [exact IH|exact E|]. apply H; [exact IH|exact W]. Qed.

Lemma more_searched A A' m s W Act W' Act' : more_words A A' -> is_search m = true -> no_new_starts A A' s ->
  searched A m s W Act -> searched A' m s W' Act' -> forall pre r k e, W pre r k e -> W' pre r k e.
Proof.
  intros M I NS S S'.
  assert (K : forall pre r k e, reach W' s pre -> W pre r k e -> W' pre r k e).
  { intros pre r k e R H. apply (srch_words _ _ _ _ _ S) in H. destruct H as (E & _ & H). apply (srch_words _ _ _ _ _ S'). split; [exact E|]. split; [exact R|].
    destruct H as [H|[_ H]]; [left; apply (more_dict_word A); assumption|]. right. split; [|apply (more_unknown A A' s pre); assumption].
    apply (srch_active _ _ _ _ _ S'). split; [exists r; split; [exact E|]|split; [exact R|auto]]. destruct H as (c & r' & _ & _ & -> & _). discriminate. }
  intros pre r k e H. apply K; [|exact H]. apply (reach_mono W); [exact K|]. apply (srch_words _ _ _ _ _ S) in H. apply H.
Qed.

Lemma more_cost A A' m f ws : more_words A A' -> cost_from A' m f ws = cost_from A m f ws.
Proof. intros M. revert f. induction ws as [|[k e] ws IH]; intros f; cbn [cost_from]; rewrite (mw_conn _ _ M); [reflexivity|]. rewrite IH. reflexivity. Qed.

Lemma best_of A m s ws W Act ws' : exact_answer A m s ws -> fits_i32 m s -> searched A m s W Act -> seg W [] s ws' ->
  seg W [] s ws /\ (seg_cost A m ws <= seg_cost A m ws')%Z.
Proof.
  intros (W1 & Act1 & S1 & H) F S G. destruct (searched_unique A m s W1 Act1 W Act S1 S) as [U _].
  assert (G1 : seg W1 [] s ws') by (revert G; apply seg_mono; intros pre r k e; apply U).
  destruct H as [[-> N]|[B H]]; [exfalso; exact (N _ G1)|]. split; [revert B; apply seg_mono; intros pre r k e; apply U|].
  destruct (H F _ G1) as [L|[L _]]; lia.
Qed.
Lemma answer_seg A m s ws : exact_answer A m s ws -> ws <> [] -> exists W Act, searched A m s W Act /\ seg W [] s ws.
Proof. intros (W & Act & S & [[-> _]|[B _]]) N; [congruence|eauto]. Qed.
Lemma seg_not_nil P pre s ws : seg P pre s ws -> s <> [] -> ws <> [].
Proof. intros [|] N; [congruence|discriminate]. Qed.
Lemma seg_nonempty P pre s ws : seg P pre s ws -> ws <> [] -> s <> [].
Proof. intros [|? k ? ? ? K] N; [congruence|]. destruct k; [congruence|discriminate]. Qed.

Theorem more_cheaper A A' m s ws ws' : more_words A A' -> is_search m = true -> no_new_starts A A' s -> fits_i32 m s ->
  exact_answer A m s ws -> exact_answer A' m s ws' -> ws <> [] -> ws' <> [] /\ (seg_cost A' m ws' <= seg_cost A m ws)%Z.
Proof.
  intros M I NS F X X' N. destruct (answer_seg _ _ _ _ X N) as (W & Act & S & B). assert (X2 := X'). destruct X2 as (W' & Act' & S' & _).
  destruct (best_of A' m s ws' W' Act' ws X' F S') as [B' L].
  { revert B. apply seg_mono. apply (more_searched A A' m s W Act W' Act'); assumption. }
  split; [exact (seg_not_nil _ _ _ _ B' (seg_nonempty _ _ _ _ B N))|]. unfold seg_cost in *. rewrite !(more_cost A A') in L by exact M. rewrite (more_cost A A') by exact M. exact L.
Qed.

Lemma dict_seg_searched A m s W Act : searched A m s W Act -> forall pre r ws, s = pre ++ r -> reach W s pre -> seg (fun _ => dict_word A) pre r ws -> seg W pre r ws.
Proof.
  intros S pre r ws E R G. induction G as [|pre k e rest ws K D G IH]; [constructor|].
  assert (X : W pre (k ++ rest) k e) by (apply (srch_words _ _ _ _ _ S); auto). constructor; [exact K|exact X|].
  apply IH; [rewrite <- app_assoc; exact E|]. econstructor; [exact R|exact E|exact X].
Qed.

Theorem more_known A A' m s ws ws' : more_words A A' -> fits_i32 m s ->
  exact_answer A m s ws -> dict_segmentation A s ws -> exact_answer A' m s ws' -> (seg_cost A' m ws' <= seg_cost A m ws)%Z.
Proof.
  intros M F _ D X'. assert (X2 := X'). destruct X2 as (W' & Act' & S' & _).
  destruct (best_of A' m s ws' W' Act' ws X' F S') as [_ L].
  - apply (dict_seg_searched A' m s W' Act' S'); [reflexivity|constructor|]. revert D. apply seg_mono. intros pre r k e. apply (more_dict_word A A'), M.
  - unfold seg_cost in *. rewrite !(more_cost A A') in L by exact M. rewrite (more_cost A A') by exact M. exact L.
Qed.

(** ** Normal and decompose mode *)

Lemma mode_searched A p s W Act W' Act' : searched A Normal s W Act -> searched A (Decompose p) s W' Act' -> forall pre r k e, W pre r k e -> W' pre r k e.
Proof.
  intros S S'.
  assert (K : forall pre r k e, reach W' s pre -> W pre r k e -> W' pre r k e).
  { intros pre r k e R H. apply (srch_words _ _ _ _ _ S) in H. destruct H as (E & _ & H). apply (srch_words _ _ _ _ _ S'). split; [exact E|]. split; [exact R|].
    destruct H as [H|[_ H]]; [auto|]. right. split; [|exact H].
    apply (srch_active _ _ _ _ _ S'). split; [exists r; split; [exact E|]|split; [exact R|auto]]. destruct H as (c & r' & _ & _ & -> & _). discriminate. }
  intros pre r k e H. apply K; [|exact H]. apply (reach_mono W); [exact K|]. apply (srch_words _ _ _ _ _ S) in H. apply H.
Qed.

Lemma unpenalized_cost A p ws : unpenalized (Decompose p) ws -> forall f, cost_from A (Decompose p) f ws = cost_from A Normal f ws.
Proof. induction 1 as [|[k e] ws H F IH]; intros f; [reflexivity|]. cbn [cost_from]. cbn [fst] in H. rewrite H, IH. reflexivity. Qed.

Theorem mode_cheaper A p s ws ws' : fits_i32 (Decompose p) s -> exact_answer A Normal s ws -> exact_answer A (Decompose p) s ws' -> ws <> [] ->
  ws' <> [] /\ (seg_cost A (Decompose p) ws' <= seg_cost A (Decompose p) ws)%Z /\
  (unpenalized (Decompose p) ws -> (seg_cost A (Decompose p) ws' <= seg_cost A Normal ws)%Z).
Proof.
  intros F X X' N. destruct (answer_seg _ _ _ _ X N) as (W & Act & S & B). assert (X2 := X'). destruct X2 as (W' & Act' & S' & _).
  destruct (best_of A (Decompose p) s ws' W' Act' ws X' F S') as [B' L].
  { revert B. apply seg_mono. apply (mode_searched A p s W Act W' Act'); assumption. }
  split; [exact (seg_not_nil _ _ _ _ B' (seg_nonempty _ _ _ _ B N))|]. split; [exact L|]. intros U. unfold seg_cost in *. rewrite (unpenalized_cost A p ws U) in L. exact L.
Qed.

(** ** For whole texts *)

Lemma Forall2_len {X Y} (P : X -> Y -> Prop) xs ys : Forall2 P xs ys -> List.length xs = List.length ys.
Proof. induction 1; cbn; congruence. Qed.
Lemma Forall2_nth {X Y} (P : X -> Y -> Prop) xs ys : Forall2 P xs ys -> forall i x y, nth_error xs i = Some x -> nth_error ys i = Some y -> P x y.
Proof.
  induction 1 as [|x y xs ys H F IH]; intros [|i] a b E1 E2; try discriminate; cbn in E1, E2; [congruence|]. exact (IH i a b E1 E2).
Qed.

Theorem texts_cheaper t A t' A' : represents t A -> represents t' A' -> t_mode t' = t_mode t -> is_search (t_mode t) = true -> more_words A A' ->
  forall text ss, valid_str text -> sentences text ss -> Forall (no_new_starts A A') ss -> Forall (fun s => fits_i32 (t_mode t) s) ss ->
  exists ts ts' wss wss', tokenize t text = Some (Ok ts) /\ tokens_of_words ts (concat wss) /\ Forall2 (exact_answer A (t_mode t)) ss wss /\
    tokenize t' text = Some (Ok ts') /\ tokens_of_words ts' (concat wss') /\ Forall2 (exact_answer A' (t_mode t)) ss wss' /\
    forall i ws ws', nth_error wss i = Some ws -> nth_error wss' i = Some ws' -> ws <> [] -> ws' <> [] /\ (seg_cost A' (t_mode t) ws' <= seg_cost A (t_mode t) ws)%Z.
Proof.
  intros R R' E I M text ss V S NS F. destruct (tokenize_exact t A R text ss V S) as (ts & wss & T & W & H & _).
  destruct (tokenize_exact t' A' R' text ss V S) as (ts' & wss' & T' & W' & H' & _). rewrite E in H'.
  exists ts, ts', wss, wss'. do 6 (split; [assumption|]). intros i ws ws' E1 E2 N.
  assert (X : exists s, nth_error ss i = Some s).
  { destruct (nth_error ss i) eqn:Q; [eauto|]. exfalso. apply nth_error_None in Q. rewrite (Forall2_len _ _ _ H) in Q. apply nth_error_None in Q. congruence. }
  destruct X as (s & E0). assert (I1 := nth_error_In _ _ E0). rewrite Forall_forall in NS, F.
  apply (more_cheaper A A' (t_mode t) s); [exact M|exact I|auto|auto|exact (Forall2_nth _ _ _ H i s ws E0 E1)|exact (Forall2_nth _ _ _ H' i s ws' E0 E2)|exact N].
Qed.

Theorem texts_known t A t' A' : represents t A -> represents t' A' -> t_mode t' = t_mode t -> more_words A A' ->
  forall text ss, valid_str text -> sentences text ss -> Forall (fun s => fits_i32 (t_mode t) s) ss ->
  exists ts ts' wss wss', tokenize t text = Some (Ok ts) /\ tokens_of_words ts (concat wss) /\ Forall2 (exact_answer A (t_mode t)) ss wss /\
    tokenize t' text = Some (Ok ts') /\ tokens_of_words ts' (concat wss') /\ Forall2 (exact_answer A' (t_mode t)) ss wss' /\
    forall i s ws ws', nth_error ss i = Some s -> nth_error wss i = Some ws -> nth_error wss' i = Some ws' -> dict_segmentation A s ws ->
      (seg_cost A' (t_mode t) ws' <= seg_cost A (t_mode t) ws)%Z.
Proof.
  intros R R' E M text ss V S F. destruct (tokenize_exact t A R text ss V S) as (ts & wss & T & W & H & _).
  destruct (tokenize_exact t' A' R' text ss V S) as (ts' & wss' & T' & W' & H' & _). rewrite E in H'.
  exists ts, ts', wss, wss'. do 6 (split; [assumption|]). intros i s ws ws' E0 E1 E2 D. rewrite Forall_forall in F.
  apply (more_known A A' (t_mode t) s); [exact M|apply F; exact (nth_error_In _ _ E0)|exact (Forall2_nth _ _ _ H i s ws E0 E1)|exact D|exact (Forall2_nth _ _ _ H' i s ws' E0 E2)].
Qed.

Theorem texts_modes d u A p : represents (Tokenizer d u Normal) A -> forall text ss, valid_str text -> sentences text ss ->
  Forall (fun s => fits_i32 (Decompose p) s) ss ->
  exists ts ts' wss wss', tokenize (Tokenizer d u Normal) text = Some (Ok ts) /\ tokens_of_words ts (concat wss) /\ Forall2 (exact_answer A Normal) ss wss /\
    tokenize (Tokenizer d u (Decompose p)) text = Some (Ok ts') /\ tokens_of_words ts' (concat wss') /\ Forall2 (exact_answer A (Decompose p)) ss wss' /\
    forall i ws ws', nth_error wss i = Some ws -> nth_error wss' i = Some ws' -> ws <> [] ->
      ws' <> [] /\ (seg_cost A (Decompose p) ws' <= seg_cost A (Decompose p) ws)%Z /\
      (unpenalized (Decompose p) ws -> (seg_cost A (Decompose p) ws' <= seg_cost A Normal ws)%Z).
Proof.
  intros R text ss V S F. assert (R' : represents (Tokenizer d u (Decompose p)) A) by (destruct R; split; assumption).
  destruct (tokenize_exact _ A R text ss V S) as (ts & wss & T & W & H & _).
  destruct (tokenize_exact _ A R' text ss V S) as (ts' & wss' & T' & W' & H' & _).
  exists ts, ts', wss, wss'. do 6 (split; [assumption|]). intros i ws ws' E1 E2 N.
  assert (X : exists s, nth_error ss i = Some s).
  { destruct (nth_error ss i) eqn:Q; [eauto|]. exfalso. apply nth_error_None in Q. rewrite (Forall2_len _ _ _ H) in Q. apply nth_error_None in Q. congruence. }
  destruct X as (s & E0). assert (I1 := nth_error_In _ _ E0). rewrite Forall_forall in F.
  apply (mode_cheaper A p s); [auto|exact (Forall2_nth _ _ _ H i s ws E0 E1)|exact (Forall2_nth _ _ _ H' i s ws' E0 E2)|exact N].
Qed.
