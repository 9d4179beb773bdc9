(** When tokenization panics, for dictionaries whose context ids may lie outside the matrix. *)
From Coq Require Import List NArith ZArith Bool Lia ZifyBool ZifyNat ZifyN.
From Verif Require Import MBase MUtf8 MText MCodec MDict MCharDef MUnk MLattice MTokenizer STok SPanic LBase LUtf8 LCodec LMatrix LScan LLat LVit LSeg LCon LExact LTok
  MDetails MBuild MConfig MBuilders SBuild SMatrix SBuilders LBuild LUserDict LBuilders LWhole.
Import ListNotations.

(** ** The table *)

Lemma skipn_two {A} (l : list A) : forall n, firstn 2 (skipn n l) =
  match nth_error l n, nth_error l (S n) with Some x, Some y => [x; y] | Some x, None => [x] | _, _ => [] end.
Proof.
  induction l as [|a l IH]; intros n.
  - destruct n; reflexivity.
  - destruct n as [|n].
    + destruct l; reflexivity.
    + cbn [skipn nth_error]. apply IH.
Qed.

Lemma cost_table cm f b : (outside cm f b -> cm_cost cm f b = Panic) /\ (~ outside cm f b -> cm_cost cm f b = Ok (table_cost cm f b)).
Proof.
  assert (C : wrap_u 32 (Z.of_N b + Z.of_N f * Z.of_N (cm_backward cm)) = pair_cell cm f b).
  { unfold wrap_u, pair_cell. change (2 ^ 32)%Z with (Z.of_N 4294967296). rewrite <- N2Z.inj_mul, <- N2Z.inj_add, <- N2Z.inj_mod, N2Z.id. reflexivity. }
  unfold cm_cost, outside, table_cost. rewrite C. set (c := pair_cell cm f b) in *. clearbody c. clear C.
  set (data := cm_data cm). replace (N.to_nat (2 * c + 1)) with (S (N.to_nat (2 * c))) by lia.
  unfold read_i16, read_u. rewrite skipn_two, skipn_length.
  destruct (N.of_nat (length data) <? 2 * c)%N eqn:E1.
  - split; [reflexivity|]. intros H. exfalso. apply H. lia.
  - destruct (Nat.ltb (length data - N.to_nat (2 * c)) 2) eqn:E2.
    + split; [reflexivity|]. intros H. exfalso. apply H. lia.
    + split; [intros H; lia|]. intros _.
      destruct (nth_error data (N.to_nat (2 * c))) as [x|] eqn:X; [|apply nth_error_None in X; lia].
      destruct (nth_error data (S (N.to_nat (2 * c)))) as [y|] eqn:Y; [|apply nth_error_None in Y; lia].
      cbn [bind le_value]. rewrite N.mul_0_r, N.add_0_r. reflexivity.
Qed.

Lemma table_i16 cm f b : is_i16 (table_cost cm f b).
Proof.
  unfold table_cost, is_i16. destruct (nth_error _ _) as [x|]; [|lia]. destruct (nth_error _ _) as [y|]; [|lia].
  pose proof (Z.mod_pos_bound (Z.of_N (x + 256 * y) + 32768) 65536). lia.
Qed.

Lemma outside_dec cm f b : {outside cm f b} + {~ outside cm f b}.
Proof. unfold outside. destruct (N.of_nat (length (cm_data cm)) <? 2 * pair_cell cm f b + 2)%N eqn:E; [left|right]; lia. Qed.

(* a matrix with a cell for every pair of 16-bit numbers *)
Lemma full_matrix (g : N -> N -> Z) : (forall f b, is_i16 (g f b)) ->
  exists cm, forall f b, (f < 65536)%N -> (b < 65536)%N -> cm_cost cm f b = Ok (g f b).
Proof.
  intros G.
  assert (B : exists big, N.of_nat big = 4294967296%N) by (exists (N.to_nat 4294967296); apply N2Nat.id).
  destruct B as [big B].
  set (costs := map (fun i => g (N.of_nat i / 65536)%N (N.of_nat i mod 65536)%N) (seq 0 big)).
  exists (ConnMatrix (flat_map i16_bytes costs) 65536). intros f b Hf Hb.
  unfold cm_cost. cbn [cm_backward cm_data].
  assert (C : wrap_u 32 (Z.of_N b + Z.of_N f * Z.of_N 65536) = (b + f * 65536)%N).
  { rewrite wrap_u_id; [lia|lia|]. change (2 ^ 32)%Z with 4294967296%Z. lia. }
  rewrite C.
  assert (L : length (flat_map i16_bytes costs) = 2 * big).
  { assert (X : forall l, length (flat_map i16_bytes l) = 2 * length l).
    { induction l as [|z l IH]; [reflexivity|]. cbn [flat_map length]. rewrite app_length, IH. unfold i16_bytes. rewrite le_bytes_length. lia. }
    rewrite X. unfold costs. rewrite map_length, seq_length. reflexivity. }
  rewrite L. replace (N.of_nat (2 * big) <? 2 * (b + f * 65536))%N with false by lia.
  replace (N.to_nat (2 * (b + f * 65536))) with (2 * N.to_nat (b + f * 65536)) by lia.
  apply (read_cost 1 1 ltac:(lia) ltac:(lia)).
  - unfold costs. apply Forall_map. apply Forall_forall. intros i _. apply G.
  - unfold costs. rewrite nth_error_map_seq by lia. cbn [Nat.add]. rewrite N2Nat.id. do 2 f_equal.
    + rewrite N.div_add by lia. rewrite N.div_small by lia. lia.
    + rewrite N.mod_add by lia. apply N.mod_small. lia.
Qed.

(** ** Two matrices *)

Lemma foldM_cmp {A S} (f g : S -> A -> res S) (P : S -> Prop) (B : A -> Prop) l :
  (forall s a, In a l -> P s -> exists s', g s a = Ok s' /\ P s' /\ ((f s a = Ok s' /\ ~ B a) \/ (f s a = Panic /\ B a))) ->
  forall s, P s -> exists s', foldM g l s = Ok s' /\ P s' /\
    ((foldM f l s = Ok s' /\ forall a, In a l -> ~ B a) \/ (foldM f l s = Panic /\ exists a, In a l /\ B a)).
Proof.
  induction l as [|a l IH]; intros H s K; cbn [foldM].
  - exists s. split; [reflexivity|]. split; [exact K|]. left. split; [reflexivity|]. intros a [].
  - destruct (H s a (or_introl eq_refl) K) as (s1 & G1 & K1 & D1).
    destruct (IH (fun s a I => H s a (or_intror I)) s1 K1) as (s2 & G2 & K2 & D2).
    exists s2. rewrite G1. cbn [bind]. split; [exact G2|]. split; [exact K2|]. destruct D1 as [[F1 N1]|[F1 N1]]; rewrite F1; cbn [bind].
    + destruct D2 as [[F2 N2]|[F2 (x & I & N2)]].
      * left. split; [exact F2|]. intros x [<-|I]; [exact N1|exact (N2 x I)].
      * right. split; [exact F2|]. exists x. split; [right; exact I|exact N2].
    + right. split; [reflexivity|]. exists a. split; [left; reflexivity|exact N1].
Qed.

Lemma mapM_cmp {A B} (f g : A -> res B) (Q : A -> Prop) l :
  (forall a, In a l -> exists b, g a = Ok b /\ ((f a = Ok b /\ ~ Q a) \/ (f a = Panic /\ Q a))) ->
  exists bs, mapM g l = Ok bs /\ ((mapM f l = Ok bs /\ forall a, In a l -> ~ Q a) \/ (mapM f l = Panic /\ exists a, In a l /\ Q a)).
Proof.
  induction l as [|a l IH]; intros H; cbn [mapM].
  - exists []. split; [reflexivity|]. left. split; [reflexivity|]. intros a [].
  - destruct (H a (or_introl eq_refl)) as (b & G1 & D1). destruct (IH (fun a I => H a (or_intror I))) as (bs & G2 & D2).
    exists (b :: bs). rewrite G1. cbn [bind]. rewrite G2. split; [reflexivity|]. destruct D1 as [[F1 N1]|[F1 N1]]; rewrite F1; cbn [bind].
    + destruct D2 as [[F2 N2]|[F2 (x & I & N2)]]; rewrite F2; cbn [bind].
      * left. split; [reflexivity|]. intros x [<-|I]; [exact N1|exact (N2 x I)].
      * right. split; [reflexivity|]. exists x. split; [right; exact I|exact N2].
    + right. split; [reflexivity|]. exists a. split; [left; reflexivity|exact N1].
Qed.

Definition field_sizes (e : word_entry) : Prop := (we_right e < 65536)%N /\ (we_left e < 65536)%N /\ is_i16 (we_cost e).

Section Compare.
Variables (cm cf : conn_matrix) (m : mode) (len cap : nat) (ws : list edge).
Hypothesis full : forall f b, (f < 65536)%N -> (b < 65536)%N -> cm_cost cf f b = Ok (table_cost cm f b).
Hypothesis fields : Forall (fun e => field_sizes (e_entry e)) ws.

Let E0 := default_edge :: default_edge :: ws.
Let entry (id : nat) : word_entry := e_entry (nth id E0 default_edge).

Definition bad_pair (l r : nat) : Prop := outside cm (we_right (entry l)) (we_left (entry r)).

Lemma entry_fields id : field_sizes (entry id).
Proof.
  assert (D : field_sizes default_word_entry) by (unfold field_sizes, is_i16; cbn; lia).
  unfold entry, E0. destruct id as [|[|n]]; cbn [nth]; [exact D|exact D|].
  destruct (nth_in_or_default n ws default_edge) as [I|Q]; [|rewrite Q; exact D].
  rewrite Forall_forall in fields. apply fields. exact I.
Qed.

Lemma entry_static E id : same_static E E0 -> id < length E0 -> exists e, nth_error E id = Some e /\ e_entry e = entry id.
Proof.
  intros S L. destruct (nth_error E0 id) as [e0|] eqn:N; [|apply nth_error_None in N; lia].
  destruct (same_static_nth _ _ _ _ S N) as (e & H & SS). exists e. split; [exact H|].
  unfold entry. rewrite (nth_error_nth _ _ default_edge N). unfold static in SS. congruence.
Qed.

Lemma through_cmp E r l : same_static E E0 -> l < length E0 ->
  exists x, through_cost cf m E (entry r) l = Ok x /\
    ((through_cost cm m E (entry r) l = Ok x /\ ~ bad_pair l r) \/ (through_cost cm m E (entry r) l = Panic /\ bad_pair l r)).
Proof.
  intros S L. destruct (entry_static E l S L) as (e & V & Q). unfold through_cost. rewrite (idx_nth _ _ _ V). cbn [bind]. rewrite Q.
  destruct (entry_fields l) as (F1 & _). destruct (entry_fields r) as (_ & F2 & _). rewrite full by assumption. cbn [bind].
  eexists. split; [reflexivity|]. destruct (cost_table cm (we_right (entry l)) (we_left (entry r))) as [T1 T2].
  unfold bad_pair. destruct (outside_dec cm (we_right (entry l)) (we_left (entry r))) as [O|O].
  - right. rewrite (T1 O). auto.
  - left. rewrite (T2 O). auto.
Qed.

Lemma step_cmp i E r : In r (starts_of len ws i) -> same_static E E0 ->
  exists E', path_cost_step cf m (ends_of ws i) E r = Ok E' /\ same_static E' E0 /\
    ((path_cost_step cm m (ends_of ws i) E r = Ok E' /\ ~ (exists l, In l (ends_of ws i) /\ bad_pair l r)) \/
     (path_cost_step cm m (ends_of ws i) E r = Panic /\ exists l, In l (ends_of ws i) /\ bad_pair l r)).
Proof.
  intros Hr S. pose proof (starts_pos len ws _ _ Hr) as (_ & _ & Lr). destruct (entry_static E r S Lr) as (e & V & Q).
  unfold path_cost_step. rewrite (idx_nth _ _ _ V). cbn [bind]. rewrite Q.
  assert (LE : forall l, In l (ends_of ws i) -> l < length E0).
  { intros l H. apply ends_in in H as [[-> ->]|(n & e' & -> & H2 & H3)]; [unfold E0; cbn; lia|].
    assert (n < length ws) by (apply nth_error_Some; congruence). unfold E0. cbn [length]. lia. }
  destruct (mapM_cmp (through_cost cm m E (entry r)) (through_cost cf m E (entry r)) (fun l => bad_pair l r) (ends_of ws i)) as (cs & G & D).
  { intros l H. apply through_cmp; auto. }
  rewrite G. cbn [bind].
  assert (R : exists E', (match min_by_cost cs with
     | Some (best, bl) => Ok (upd E r (Edge (e_type e) (entry r) (wrap32 (we_cost (entry r) + best)) (Some bl) (e_start e) (e_stop e) (e_kanji e)))
     | None => Ok E end) = Ok E' /\ same_static E' E0).
  { destruct (min_by_cost cs) as [[best bl]|]; eexists; (split; [reflexivity|]); [|exact S].
    unfold same_static. rewrite (upd_static E r e _ V); [exact S|]. unfold static. cbn. rewrite Q. reflexivity. }
  destruct R as (E' & R & SE). exists E'. split; [exact R|]. split; [exact SE|].
  destruct D as [[F N]|[F (l & I & N)]]; rewrite F; cbn [bind].
  - left. split; [exact R|]. intros (l & I & B). exact (N l I B).
  - right. split; [reflexivity|]. exists l. auto.
Qed.

Definition bad_at (i : nat) : Prop := exists r, In r (starts_of len ws i) /\ exists l, In l (ends_of ws i) /\ bad_pair l r.

Lemma costs_cmp : exists l2, calculate_path_costs cf m (lat_of len cap ws) = Ok l2 /\
  ((calculate_path_costs cm m (lat_of len cap ws) = Ok l2 /\ forall i, i <= cap -> ~ bad_at i) \/
   (calculate_path_costs cm m (lat_of len cap ws) = Panic /\ exists i, i <= cap /\ bad_at i)).
Proof.
  unfold calculate_path_costs.
  assert (L : length (starts_at (lat_of len cap ws)) = S cap) by (unfold lat_of; cbn [starts_at]; rewrite map_length, seq_length; reflexivity).
  rewrite L. change (edges (lat_of len cap ws)) with E0.
  set (step := fun c es i => do lefts <- idx (ends_at (lat_of len cap ws)) i;
                             do rights <- idx (starts_at (lat_of len cap ws)) i;
                             foldM (path_cost_step c m lefts) rights es).
  assert (K : exists E', foldM (step cf) (seq 0 (S cap)) E0 = Ok E' /\ same_static E' E0 /\
     ((foldM (step cm) (seq 0 (S cap)) E0 = Ok E' /\ forall i, In i (seq 0 (S cap)) -> ~ bad_at i) \/
      (foldM (step cm) (seq 0 (S cap)) E0 = Panic /\ exists i, In i (seq 0 (S cap)) /\ bad_at i))).
  { apply (foldM_cmp (step cm) (step cf) (fun E => same_static E E0) bad_at); [|reflexivity].
    intros E i I S. apply in_seq in I. unfold step, lat_of. cbn [ends_at starts_at]. unfold idx.
    rewrite !nth_error_map_seq by lia. cbn [bind Nat.add].
    destruct (foldM_cmp (path_cost_step cm m (ends_of ws i)) (path_cost_step cf m (ends_of ws i)) (fun E => same_static E E0)
       (fun r => exists l, In l (ends_of ws i) /\ bad_pair l r) (starts_of len ws i)) with (s := E) as (E' & G & SE & D); [|exact S|].
    - intros s r Hr HS. apply step_cmp; assumption.
    - exists E'. split; [exact G|]. split; [exact SE|]. destruct D as [[F N]|[F (r & Hr & B)]].
      + left. split; [exact F|]. intros (r & Hr & B). exact (N r Hr B).
      + right. split; [exact F|]. exists r. auto. }
  destruct K as (E' & G & _ & D). subst step. cbv beta in G, D. rewrite G. cbn [bind]. eexists. split; [reflexivity|].
  destruct D as [[F N]|[F (i & I & B)]]; rewrite F; cbn [bind].
  - left. split; [reflexivity|]. intros i Li. apply N. apply in_seq. lia.
  - right. split; [reflexivity|]. exists i. apply in_seq in I. split; [lia|exact B].
Qed.
End Compare.

(** ** Sentences *)

Section Words.
Variable t : tokenizer.
Variable A : adict.
Hypothesis M : means_words t A.

Let d := t_dictionary t.
Let cm := d_matrix d.
Let m := t_mode t.

(* the same dictionary with a matrix that has every cell *)
Definition with_matrix (cf : conn_matrix) : tokenizer :=
  Tokenizer (Dictionary (d_dict d) cf (d_chardef d) (d_unknown d) (d_words_idx d) (d_words d)) (t_user t) (t_mode t).

Variable cf : conn_matrix.
Hypothesis full : forall f b, (f < 65536)%N -> (b < 65536)%N -> cm_cost cf f b = Ok (table_cost cm f b).

Lemma wide_represents : represents (with_matrix cf) A.
Proof.
  destruct M as [M1 M2 M3 M4 M5 M6 [M7 M7'] M8 M9 M10]. constructor; cbn; try assumption.
  - intros f b F B. rewrite M7 in F. rewrite M7' in B. rewrite full by assumption. rewrite M6. split; [reflexivity|apply table_i16].
  - rewrite M7, M7'. lia.
Qed.

Lemma scan_fields s : valid_str s -> Forall (fun e => field_sizes (e_entry e)) (scan A m s).
Proof.
  intros V. eapply Forall_impl; [|exact (scan_entries (with_matrix cf) A wide_represents m s V)].
  intros e (H1 & H2 & H3). destruct (mw_sizes t A M) as [Q1 Q2]. rewrite Q1 in H1. rewrite Q2 in H2. split; [exact H1|]. split; [exact H2|exact H3].
Qed.

Lemma prefix_same (s pre pre' r r' : str) : s = pre ++ r -> s = pre' ++ r' -> blen pre = blen pre' -> pre = pre' /\ r = r'.
Proof. intros -> H B. apply app_same_blen; assumption. Qed.

Lemma left_edge s i l : In l (ends_of (scan A m s) i) ->
  exists pre r, s = pre ++ r /\ blen pre = i /\
    ends_with (admitted A m s) pre (we_right (e_entry (nth l (default_edge :: default_edge :: scan A m s) default_edge))).
Proof.
  intros H. apply ends_in in H as [[-> ->]|(n & e & -> & H2 & H3)].
  - exists [], s. split; [reflexivity|]. split; [reflexivity|]. left. auto.
  - assert (I : In e (scan A m s)) by (eapply nth_error_In; exact H2).
    destruct (edge_info A m s e I) as (pre & k & rest & EW). pose proof EW as (T & NE & S1 & S2 & _).
    exists (pre ++ k), rest. rewrite <- app_assoc. split; [exact T|]. rewrite blen_app. split; [lia|].
    right. exists pre, k, rest, (e_entry e). split; [reflexivity|]. split; [exists e, rest; auto|].
    cbn [nth]. rewrite (nth_error_nth _ _ default_edge H2). reflexivity.
Qed.

Lemma right_edge s i r : In r (starts_of (blen s) (scan A m s) i) ->
  forall pre rest, s = pre ++ rest -> blen pre = i ->
    goes_on (admitted A m s) s pre (we_left (e_entry (nth r (default_edge :: default_edge :: scan A m s) default_edge))).
Proof.
  intros H pre rest T B. apply starts_in in H as [[-> ->]|(n & e & -> & H2 & H3)].
  - left. split; [|reflexivity]. destruct (prefix_same s pre s rest []) as [Q _]; [exact T|rewrite app_nil_r; reflexivity|exact B|exact Q].
  - right. assert (I : In e (scan A m s)) by (eapply nth_error_In; exact H2).
    destruct (edge_info A m s e I) as (pre' & k & rest' & EW). pose proof EW as (T' & NE & S1 & S2 & _).
    destruct (prefix_same s pre pre' rest (k ++ rest')) as [-> ->]; [exact T|exact T'|lia|].
    exists (k ++ rest'), k, (e_entry e). split; [exists e, rest'; auto|].
    cbn [nth]. rewrite (nth_error_nth _ _ default_edge H2). reflexivity.
Qed.

Lemma left_edge_back s pre f : ends_with (admitted A m s) pre f ->
  exists l, In l (ends_of (scan A m s) (blen pre)) /\ f = we_right (e_entry (nth l (default_edge :: default_edge :: scan A m s) default_edge)).
Proof.
  intros [[-> ->]|(p & k & r & e & -> & (ed & rest & I & Q & EW & <-) & ->)].
  - exists 0. split; [apply ends_in; auto|reflexivity].
  - destruct EW as (T & NE & S1 & S2 & _). apply In_nth_error in I as [n I]. exists (S (S n)). split.
    + apply ends_in. right. exists n, ed. rewrite blen_app. auto.
    + cbn [nth]. rewrite (nth_error_nth _ _ default_edge I). reflexivity.
Qed.

Lemma right_edge_back s pre b : goes_on (admitted A m s) s pre b ->
  exists r, In r (starts_of (blen s) (scan A m s) (blen pre)) /\ b = we_left (e_entry (nth r (default_edge :: default_edge :: scan A m s) default_edge)).
Proof.
  intros [[-> ->]|(r & k & e & (ed & rest & I & Q & EW & <-) & ->)].
  - exists 1. split; [apply starts_in; auto|reflexivity].
  - destruct EW as (T & NE & S1 & S2 & _). apply In_nth_error in I as [n I]. exists (S (S n)). split.
    + apply starts_in. right. exists n, ed. auto.
    + cbn [nth]. rewrite (nth_error_nth _ _ default_edge I). reflexivity.
Qed.

Lemma ends_in_text s pre f : ends_with (admitted A m s) pre f -> exists r, s = pre ++ r.
Proof.
  intros [[-> _]|(p & k & r & e & -> & (ed & rest & I & Q & EW & _) & _)]; [exists s; reflexivity|].
  destruct EW as (T & _). exists rest. rewrite <- app_assoc. exact T.
Qed.

(* bad edges are bad words *)
Lemma bad_edges_words s cap : blen s <= cap ->
  (exists i, i <= cap /\ bad_at cm (blen s) (scan A m s) i) <-> off_table A m cm s.
Proof.
  intros C. split.
  - intros (i & _ & r & Hr & l & Hl & B). destruct (left_edge s i l Hl) as (pre & rest & T & BP & EW).
    pose proof (right_edge s i r Hr pre rest T BP) as GO.
    exists (admitted A m s), (active_at A m s). exists pre. eexists _, _.
    split; [exact (searched_admitted A m s)|]. split; [exact EW|]. split; [exact GO|]. exact B.
  - intros (W & Act & pre & f & b & S & EW & GO & O).
    destruct (searched_unique A m s _ _ _ _ S (searched_admitted A m s)) as [WU _].
    assert (EW' : ends_with (admitted A m s) pre f).
    { destruct EW as [EW|(p & k & r & e & Q1 & Q2 & Q3)]; [left; exact EW|]. right. exists p, k, r, e. split; [exact Q1|]. split; [apply WU; exact Q2|exact Q3]. }
    assert (GO' : goes_on (admitted A m s) s pre b).
    { destruct GO as [GO|(r & k & e & Q1 & Q2)]; [left; exact GO|]. right. exists r, k, e. split; [apply WU; exact Q1|exact Q2]. }
    destruct (ends_in_text s pre f EW') as [r T].
    destruct (left_edge_back s pre f EW') as (l & Hl & ->). destruct (right_edge_back s pre b GO') as (rr & Hr & ->).
    exists (blen pre). split; [apply (f_equal blen) in T; rewrite blen_app in T; lia|]. exists rr. split; [exact Hr|]. exists l. split; [exact Hl|exact O].
Qed.

Lemma sentence_cmp l toks bp p s : valid_str s -> s <> [] -> reusable l ->
  (~ off_table A m cm s /\ tokenize_sentence t (l, toks, bp, p) s = tokenize_sentence (with_matrix cf) (l, toks, bp, p) s) \/
  (off_table A m cm s /\ tokenize_sentence t (l, toks, bp, p) s = Some Panic).
Proof.
  intros V NE RU. pose proof (set_text_scan (with_matrix cf) A wide_represents l m s V NE RU) as ST. cbn [with_matrix t_dictionary t_user t_mode d_dict d_chardef d_unknown] in ST.
  unfold tokenize_sentence. cbn [with_matrix t_dictionary t_user t_mode d_dict d_matrix d_chardef d_unknown].
  fold d m cm. rewrite ST. set (cap := Nat.max (capacity l) (blen s)) in *.
  destruct (costs_cmp cm cf m (blen s) cap (scan A m s) full (scan_fields s V)) as (l2 & G & D).
  assert (C : blen s <= cap) by lia. rewrite G. destruct D as [[F N]|[F B]]; rewrite F.
  - left. split; [|reflexivity]. intros O. apply (bad_edges_words s cap C) in O as (i & Li & B). exact (N i Li B).
  - right. split; [|reflexivity]. apply (bad_edges_words s cap C). exact B.
Qed.

Lemma sentences_cmp ss : Forall (fun s => valid_str s /\ s <> []) ss -> forall l toks bp p, reusable l ->
  (Forall (fun s => ~ off_table A m cm s) ss /\ tokenize_sentences t ss (l, toks, bp, p) = tokenize_sentences (with_matrix cf) ss (l, toks, bp, p)) \/
  (Exists (off_table A m cm) ss /\ tokenize_sentences t ss (l, toks, bp, p) = Some Panic).
Proof.
  induction 1 as [|s ss [V NE] F IH]; intros l toks bp p RU; cbn [tokenize_sentences].
  - left. split; [constructor|reflexivity].
  - destruct (sentence_cmp l toks bp p s V NE RU) as [[N E]|[B E]]; rewrite E.
    + destruct (sentence_chosen (with_matrix cf) A wide_represents s V NE) as (wl & RUN & _).
      destruct (RUN l toks bp p RU) as (l2 & RU2 & ->).
      destruct (IH l2 (toks ++ mk_tokens bp p wl) (bp + blen (surface wl)) (p + length wl) RU2) as [[N2 E2]|[B2 E2]].
      * left. split; [constructor; assumption|exact E2].
      * right. split; [right; exact B2|exact E2].
    + right. split; [left; exact B|reflexivity].
Qed.

Lemma sentences_parts text ss : valid_str text -> sentences text ss -> Forall (fun s => valid_str s /\ s <> []) ss.
Proof.
  intros V S. pose proof (sentences_concat _ _ S) as C. pose proof (sentences_nonempty _ _ S) as N. clear S. subst text.
  induction N as [|s ss NE N IH]; constructor; cbn [concat] in V; apply valid_str_app in V as [V1 V2]; auto.
Qed.

Lemma text_cmp text ss : valid_str text -> sentences text ss ->
  (Forall (fun s => ~ off_table A m cm s) ss /\ tokenize t text = tokenize (with_matrix cf) text) \/
  (Exists (off_table A m cm) ss /\ tokenize t text = Some Panic).
Proof.
  intros V S. unfold tokenize. rewrite (sentences_unique _ _ S).
  destruct (sentences_cmp ss (sentences_parts text ss V S) default_lattice [] 0 0 default_reusable) as [[N ->]|[B ->]]; [left|right]; auto.
Qed.
End Words.

Lemma full_exists t A : means_words t A -> exists cf, forall f b, (f < 65536)%N -> (b < 65536)%N ->
  cm_cost cf f b = Ok (table_cost (d_matrix (t_dictionary t)) f b).
Proof. intros _. apply full_matrix. intros f b. apply table_i16. Qed.

Lemma panic_iff t A text ss : means_words t A -> valid_str text -> sentences text ss ->
  (tokenize t text = Some Panic <-> exists s, In s ss /\ off_table A (t_mode t) (d_matrix (t_dictionary t)) s).
Proof.
  intros M V S. destruct (full_exists t A M) as [cf FU].
  destruct (text_cmp t A M cf FU text ss V S) as [[N E]|[B E]]; rewrite E.
  - split.
    + intros H. destruct (tokenize_total (with_matrix t cf) A (wide_represents t A M cf FU) text V) as [ts T]. rewrite T in H. discriminate.
    + intros (s & I & O). rewrite Forall_forall in N. exfalso. exact (N s I O).
  - split; [|reflexivity]. intros _. apply Exists_exists in B. exact B.
Qed.

Lemma fine_answer t A text ss : means_words t A -> valid_str text -> sentences text ss ->
  (forall s, In s ss -> ~ off_table A (t_mode t) (d_matrix (t_dictionary t)) s) ->
  exists ts wss, tokenize t text = Some (Ok ts) /\ tokens_of_words ts (concat wss) /\ Forall2 (exact_answer A (t_mode t)) ss wss /\
    tiles (concat (map (fun wl => concat (map fst wl)) wss)) ts.
Proof.
  intros M V S N. destruct (full_exists t A M) as [cf FU].
  destruct (text_cmp t A M cf FU text ss V S) as [[_ E]|[B E]].
  - rewrite E. exact (tokenize_exact (with_matrix t cf) A (wide_represents t A M cf FU) text ss V S).
  - apply Exists_exists in B as (s & I & O). exfalso. exact (N s I O).
Qed.


(** ** User dictionaries with any context ids *)

Lemma user_numbers_u16 o r c l rr : is_u16 (uo_simple_context o) -> user_numbers o r = Some (c, l, rr) -> is_u16 l /\ is_u16 rr.
Proof.
  unfold user_numbers. intros K H. destruct (Nat.eqb _ _); [injection H as _ <- <-; auto|].
  destruct r as [|? [|f1 [|f2 [|f3 r]]]]; try discriminate.
  destruct (parse_i16 f3) as [c'|] eqn:P1; [|discriminate]. destruct (parse_u16 f1) eqn:P2; [|discriminate]. destruct (parse_u16 f2) eqn:P3; [|discriminate].
  injection H as _ <- <-. split; eapply parse_u16_range; eassumption.
Qed.

Lemma any_user d A k rows ud : (forall m, represents (Tokenizer d None m) A) -> (a_fsize A <= 65536)%N -> (a_bsize A <= 65536)%N ->
  build_user (kind_user_options k) rows = Ok ud -> user_room (kind_user_options k) rows ->
  exists tbl, (forall s, found_of (user_found (kind_user_options k) ud) (user_rows_for s rows) (entries_of tbl s)) /\
    (forall f b, (f < a_fsize A)%N -> (b < a_bsize A)%N -> table_cost (d_matrix d) f b = a_conn A f b) /\
    forall m, means_words (Tokenizer d (Some ud) m) (with_any_user A tbl (d_matrix d)).
Proof.
  intros R F1 F2 B L. destruct (user_built_any _ _ _ L B) as (tbl & DM & _ & _ & UF). exists tbl. split; [exact UF|]. split.
  { intros f b Hf Hb. destruct (rep_conn _ _ (R Normal) f b Hf Hb) as [C _]. cbn [t_dictionary] in C.
    destruct (cost_table (d_matrix d) f b) as [T1 T2]. destruct (outside_dec (d_matrix d) f b) as [O|O].
    - rewrite (T1 O) in C. discriminate.
    - rewrite (T2 O) in C. congruence. }
  intros m. destruct (R m) as [R1 R2 R3 R4 R5 R6 R7 R8 R9 R10].
  assert (K : forall e, entry_ok A e -> entry_ok (with_any_user A tbl (d_matrix d)) e).
  { intros e (H1 & H2 & H3). unfold entry_ok. cbn [with_any_user a_fsize a_bsize]. repeat split; try lia; apply H3. }
  constructor; cbn [t_dictionary t_user with_any_user a_sys a_usr a_cats a_invoke a_group a_unk a_conn a_fsize a_bsize] in *; try assumption; auto.
  - intros s w I. apply K. exact (R8 s w I).
  - intros s w I1. destruct (found_of_in _ _ _ _ (UF s) I1) as (r & I2 & (N & _)).
    destruct (user_numbers_u16 _ _ _ _ _ (proj2 (SBuild.ur_cost _ _ L)) N) as [U1 U2]. unfold is_u16 in U1, U2.
    unfold entry_ok. cbn [a_fsize a_bsize]. split; [exact U2|]. split; [exact U1|].
    eapply user_numbers_i16; [exact (proj1 (SBuild.ur_cost _ _ L))|exact N].
  - intros c j e V I1 I2. apply K. exact (R10 c j e V I1 I2).
Qed.

Lemma user_off_table be e k dir S C urows ud : has_sources be k dir S -> readable k S C ->
  yada_works be e (system_words k (s_rows S)) -> be_compress be = false ->
  build_user (kind_user_options k) urows = Ok ud -> user_room (kind_user_options k) urows ->
  exists files, build_dictionary be k dir = Ok files /\
    forall out, files_at e out files -> exists d A tbl, load_dictionary e out = Ok d /\ says k S C d A /\
      (forall s, found_of (user_found (kind_user_options k) ud) (user_rows_for s urows) (entries_of tbl s)) /\
      (forall f b, (f < c_fsize C)%N -> (b < c_bsize C)%N -> table_cost (d_matrix d) f b = matrix_cost (c_entries C) f b) /\
      forall m text ss, valid_str text -> sentences text ss ->
        (tokenize (Tokenizer d (Some ud) m) text = Some Panic <->
         exists s, In s ss /\ off_table (with_any_user A tbl (d_matrix d)) m (d_matrix d) s).
Proof.
  intros HS R Y NC B L. destruct (built_dictionary be e k dir S C HS R Y NC) as (files & BD & LO). exists files. split; [exact BD|].
  intros out FA. destruct (LO out FA) as (d & A & LD & SY & RP). destruct (sy_sizes _ _ _ _ _ SY) as [S1 S2]. destruct (rd_sizes _ _ _ R) as [Z1 Z2].
  destruct (any_user d A k urows ud RP ltac:(lia) ltac:(lia) B L) as (tbl & UF & TC & MW). exists d, A, tbl.
  split; [exact LD|]. split; [exact SY|]. split; [exact UF|]. split.
  - intros f b Hf Hb. rewrite <- (sy_costs _ _ _ _ _ SY f b Hf Hb). apply TC; lia.
  - intros m text ss V SE. exact (panic_iff _ _ text ss (MW m) V SE).
Qed.
