(** Words that do not occur in the text do not matter. *)
From Coq Require Import List NArith ZArith Bool Lia ZifyBool ZifyNat ZifyN.
From Verif Require Import MBase MUtf8 MText MCodec MDict MCharDef MUnk MLattice MTokenizer MDetails MBuild MCharFilter MAnalyzer MTokenFilter MConfig MBuilders
  STok SBuild SMatrix SCharDef SUnk SBuilders SFrame LBase LUtf8 LBuild LSysDict LUserDict LTok LBuilders.
Import ListNotations.
Local Open Scope list_scope.

(** ** Outcomes that agree *)

Lemma agree_bind {A A' B B'} (P : A -> A' -> Prop) (Q : B -> B' -> Prop) r r' f f' : agree P r r' ->
  (forall a a', P a a' -> agree Q (f a) (f' a')) -> agree Q (bind r f) (bind r' f').
Proof. intros H K. destruct r, r'; cbn in *; try contradiction; auto. Qed.
Lemma agree_bind_eq {A B B'} (Q : B -> B' -> Prop) (r : res A) f f' : (forall a, r = Ok a -> agree Q (f a) (f' a)) -> agree Q (bind r f) (bind r f').
Proof. intros K. destruct r; cbn in *; auto. Qed.
Lemma agree_refl {A} (P : A -> A -> Prop) (r : res A) : (forall a, r = Ok a -> P a a) -> agree P r r.
Proof. destruct r; cbn; auto. Qed.
Lemma agree_mapM {A A' B B'} (P : A -> A' -> Prop) (Q : B -> B' -> Prop) f f' : forall l l', Forall2 P l l' ->
  (forall a a', P a a' -> agree Q (f a) (f' a')) -> agree (Forall2 Q) (mapM f l) (mapM f' l').
Proof.
  intros l l' F K. induction F as [|a a' l l' H F IH]; cbn [mapM]; [constructor|].
  apply (agree_bind Q); [apply K, H|]. intros b b' Hb. apply (agree_bind (Forall2 Q)); [exact IH|]. intros bs bs' Hbs. constructor; assumption.
Qed.
Lemma agree_foldM {A A' S S'} (P : A -> A' -> Prop) (Q : S -> S' -> Prop) f f' : forall l l', Forall2 P l l' ->
  (forall s s' a a', Q s s' -> P a a' -> agree Q (f s a) (f' s' a')) -> forall s s', Q s s' -> agree Q (foldM f l s) (foldM f' l' s').
Proof.
  intros l l' F K. induction F as [|a a' l l' H F IH]; intros s s' Hs; cbn [foldM]; [exact Hs|].
  apply (agree_bind Q); [apply K; assumption|]. exact IH.
Qed.
Lemma agree_foldM_eq {A S S'} (Q : S -> S' -> Prop) f f' (l : list A) :
  (forall s s' a, In a l -> Q s s' -> agree Q (f s a) (f' s' a)) -> forall s s', Q s s' -> agree Q (foldM f l s) (foldM f' l s').
Proof.
  induction l as [|a l IH]; intros K s s' Hs; cbn [foldM]; [exact Hs|].
  apply (agree_bind Q); [apply K; [left; reflexivity|exact Hs]|]. apply IH. intros. apply K; [right|]; assumption.
Qed.
Lemma agree_idx {A A'} (P : A -> A' -> Prop) l l' i : Forall2 P l l' -> agree P (idx l i) (idx l' i).
Proof.
  intros F. revert i. induction F as [|a a' l l' H F IH]; intros [|i]; cbn; auto. apply IH.
Qed.

Section Sim.
Variable R : word_id -> word_id -> Prop.
Notation alike := (alike R).
Notation found_alike := (found_alike R).


(* everything but the number of the word *)
Definition bare (e e' : edge) : Prop :=
  e_type e = e_type e' /\ (we_cost (e_entry e) = we_cost (e_entry e') /\ we_left (e_entry e) = we_left (e_entry e') /\ we_right (e_entry e) = we_right (e_entry e')) /\
  e_path_cost e = e_path_cost e' /\ e_left e = e_left e' /\ e_start e = e_start e' /\ e_stop e = e_stop e' /\ e_kanji e = e_kanji e'.
Definition edge_alike (e e' : edge) : Prop := bare e e' /\ R (we_id (e_entry e)) (we_id (e_entry e')).
Definition sound_left (e : edge) : Prop := e_left e <> Some 1.

(* the two edges of the ends of the sentence, then words *)
Inductive edges_alike : list edge -> list edge -> Prop :=
| EdgesAlike b b' n n' r r' : bare b b' -> bare n n' -> Forall2 edge_alike r r' -> e_left b = None -> sound_left n -> Forall sound_left r ->
    edges_alike (b :: n :: r) (b' :: n' :: r').

Definition shape_alike (l l' : lattice) : Prop := capacity l = capacity l' /\ starts_at l = starts_at l' /\ ends_at l = ends_at l'.
Definition never (i : edge_id) (v : list (list edge_id)) : Prop := Forall (fun ids => ~ In i ids) v.
Definition lat_alike (l l' : lattice) : Prop :=
  shape_alike l l' /\ never 0 (starts_at l) /\ never 1 (ends_at l) /\ edges_alike (edges l) (edges l').

Lemma bare_refl e : bare e e.
Proof. repeat split. Qed.

Lemma edges_bare es es' : edges_alike es es' -> Forall2 bare es es'.
Proof. intros [b b' n n' r r' H1 H2 F _ _ _]. constructor; [exact H1|]. constructor; [exact H2|]. eapply Forall2_impl; [exact F|]. intros a c _ _ H. apply H. Qed.

Lemma edges_add es es' e e' : edges_alike es es' -> edge_alike e e' -> sound_left e -> edges_alike (es ++ [e]) (es' ++ [e']).
Proof.
  intros [b b' n n' r r' H1 H2 F H3 H4 H5] A L. cbn [app]. constructor; try assumption.
  - apply Forall2_app; [exact F|]. constructor; [exact A|constructor].
  - apply Forall_app. split; [exact H5|]. constructor; [exact L|constructor].
Qed.

Lemma edges_many es es' : edges_alike es es' -> length es = length es' /\ 2 <= length es.
Proof. intros [b b' n n' r r' _ _ F _ _ _]. apply Forall2_length in F. cbn [length]. lia. Qed.

Lemma never_upd i v j ids : never i v -> ~ In i ids -> never i (upd v j ids).
Proof.
  intros H K. revert j. induction H as [|a v Ha H IH]; intros [|j]; cbn [upd]; constructor; auto. apply IH.
Qed.
Lemma never_idx i v j ids : never i v -> idx v j = Ok ids -> ~ In i ids.
Proof. intros H E. apply idx_ok, nth_error_In in E. unfold never in H. rewrite Forall_forall in H. exact (H _ E). Qed.

Lemma push_alike i v j x : never i v -> x <> i -> agree (fun a b => a = b /\ never i a) (push_at v j x) (push_at v j x).
Proof.
  intros H K. apply agree_refl. intros a E. split; [reflexivity|]. unfold push_at in E. apply bind_ok in E. destruct E as (ids & E1 & E2). injection E2 as <-.
  apply never_upd; [exact H|]. rewrite in_app_iff. intros [I|[I|[]]]; [exact (never_idx _ _ _ _ H E1 I)|congruence].
Qed.

Lemma add_alike l l' e e' : lat_alike l l' -> edge_alike e e' -> sound_left e -> agree lat_alike (add_edge_in_lattice l e) (add_edge_in_lattice l' e').
Proof.
  intros ((C & S & T) & N0 & N1 & E) A L. pose proof A as ((_ & _ & _ & _ & ES & ET & _) & _). destruct (edges_many _ _ E) as [EL E2].
  unfold add_edge_in_lattice, add_edge. cbn [starts_at ends_at capacity edges]. rewrite <- S, <- T, <- EL, <- ES, <- ET.
  eapply agree_bind; [apply (push_alike 0); [exact N0|lia]|]. intros s s' [<- Ns].
  eapply agree_bind; [apply (push_alike 1); [exact N1|lia]|]. intros t t' [<- Nt].
  repeat split; cbn [starts_at ends_at capacity edges]; try assumption. apply edges_add; assumption.
Qed.

Lemma dict_edge_alike start suffix w w' : found_alike w w' ->
  agree (fun e e' => edge_alike e e' /\ sound_left e) (dict_edge start suffix w) (dict_edge start suffix w').
Proof.
  destruct w as [n e], w' as [n' e']. intros [E (A1 & A2 & A3 & A4)]. cbn [fst snd] in *. subst n'. unfold dict_edge. apply agree_bind_eq. intros p _.
  repeat split; cbn; try assumption. discriminate.
Qed.

Definition st_alike (st st' : lattice * bool) : Prop := lat_alike (fst st) (fst st') /\ snd st = snd st'.

Lemma words_alike start suffix ws ws' st st' : Forall2 found_alike ws ws' -> st_alike st st' ->
  agree st_alike
    (foldM (fun '(l, found) w => do e <- dict_edge start suffix w; do l' <- add_edge_in_lattice l e; Ok (l', true)) ws st)
    (foldM (fun '(l, found) w => do e <- dict_edge start suffix w; do l' <- add_edge_in_lattice l e; Ok (l', true)) ws' st').
Proof.
  intros F. eapply agree_foldM; [exact F|]. intros [l b] [l' b'] w w' [H _] A. cbn [fst snd] in H.
  eapply agree_bind; [apply dict_edge_alike, A|]. intros e e' [HE L]. eapply agree_bind; [apply add_alike; eassumption|].
  intros m m' Hm. split; [exact Hm|reflexivity].
Qed.

Lemma dict_alike text d d' start suffix st st' : same_words R text d d' -> part_of suffix text -> st_alike st st' ->
  agree st_alike
    (match d with Some d => add_dict_edges d start suffix st | None => Ok st end)
    (match d' with Some d => add_dict_edges d start suffix st' | None => Ok st' end).
Proof.
  intros W P A. specialize (W suffix P).
  assert (X : forall d st, match d with Some d => add_dict_edges d start suffix st | None => Ok st end =
    do ws <- words_at d suffix; foldM (fun '(l, found) w => do e <- dict_edge start suffix w; do l' <- add_edge_in_lattice l e; Ok (l', true)) ws st).
  { intros [x|] s; reflexivity. }
  rewrite !X. eapply agree_bind; [exact W|]. intros ws ws' F. apply words_alike; assumption.
Qed.

Definition ue_alike (st st' : lattice * option nat) : Prop := lat_alike (fst st) (fst st') /\ snd st = snd st'.

Lemma unknown_alike cd ud category ord ue start suffix found l l' :
  (forall i e, ud_word_entry ud i = Ok e -> R (we_id e) (we_id e)) -> lat_alike l l' ->
  agree ue_alike (process_unknown_word cd ud category ord ue start suffix found l) (process_unknown_word cd ud category ord ue start suffix found l').
Proof.
  intros U A. unfold process_unknown_word. apply agree_bind_eq. intros data _. apply agree_bind_eq. intros n _.
  destruct (Nat.ltb 0 n); [|split; [exact A|reflexivity]]. cbv zeta. apply agree_bind_eq. intros ids _.
  eapply agree_bind with (P := lat_alike).
  - apply agree_foldM_eq; [|exact A]. intros s s' a _ H. apply agree_bind_eq. intros e E. apply add_alike; [exact H| |discriminate].
    split; [apply bare_refl|]. exact (U _ _ E).
  - intros m m' H. split; [exact H|reflexivity].
Qed.

Lemma step_alike text dict dict' user user' cd ud m st st' start :
  (forall i e, ud_word_entry ud i = Ok e -> R (we_id e) (we_id e)) ->
  same_words R text (Some dict) (Some dict') -> same_words R text user user' -> ue_alike st st' ->
  forall sentence, part_of sentence text ->
  agree ue_alike (set_text_step dict user cd ud sentence m st start) (set_text_step dict' user' cd ud sentence m st' start).
Proof.
  intros U W W' [A E] sentence P. destruct st as [l ue], st' as [l' ue']. cbn [fst snd] in *. subst ue'. unfold set_text_step.
  pose proof A as ((_ & _ & T) & _). rewrite <- T. apply agree_bind_eq. intros ends _. destruct ends as [|x ends]; [split; [exact A|reflexivity]|].
  apply agree_bind_eq. intros suffix SF. destruct (str_from_inv _ _ _ SF) as (pre & EQ & _).
  assert (PS : part_of suffix text).
  { destruct P as (a & b & ->). exists (a ++ pre), b. rewrite EQ, <- !app_assoc. reflexivity. }
  eapply agree_bind with (P := st_alike).
  { apply (dict_alike text user user' start suffix (l, false) (l', false) W' PS). split; [exact A|reflexivity]. }
  intros [l1 f1] [l1' f1'] H1. eapply agree_bind with (P := st_alike).
  { exact (dict_alike text (Some dict) (Some dict') start suffix (l1, f1) (l1', f1') W PS H1). }
  intros [l2 f2] [l2' f2'] [H2 H3]. cbn [fst snd] in *. subst f2'.
  destruct (_ || _); [|split; [exact H2|reflexivity]]. destruct suffix as [|c s]; [split; [exact H2|reflexivity]|].
  apply agree_bind_eq. intros cats _. apply agree_foldM_eq; [|split; [exact H2|reflexivity]].
  intros [l3 u3] [l3' u3'] [ord cat] _ [H4 H5]. cbn [fst snd] in *. subst u3'. apply unknown_alike; assumption.
Qed.

Lemma never_clear i v : never i (map (fun _ : list edge_id => []) v).
Proof. unfold never. rewrite Forall_map. apply Forall_forall. intros x _ []. Qed.
Lemma never_resize i v n : never i v -> never i (resize v n).
Proof.
  intros H. unfold never, resize. apply Forall_app. split; [apply Forall_forall; intros x I; unfold never in H; rewrite Forall_forall in H; apply H; rewrite <- (firstn_skipn n v); apply in_or_app; left; exact I|]. apply Forall_forall. intros x I. apply repeat_spec in I. subst x. intros [].
Qed.

Lemma capacity_alike l l' n : shape_alike l l' ->
  set_capacity l n = set_capacity l' n /\ edges (set_capacity l n) = [] /\ never 0 (starts_at (set_capacity l n)) /\ never 1 (ends_at (set_capacity l n)).
Proof.
  intros (C & S & T). unfold set_capacity, clear. cbn [capacity starts_at ends_at]. rewrite <- C, <- S, <- T. split; [reflexivity|].
  destruct (Nat.ltb _ _); cbn [edges starts_at ends_at]; (split; [reflexivity|]); split; try apply never_resize; apply never_clear.
Qed.

Lemma set_text_alike text dict dict' user user' cd ud m l l' :
  (forall i e, ud_word_entry ud i = Ok e -> R (we_id e) (we_id e)) ->
  same_words R text (Some dict) (Some dict') -> same_words R text user user' -> shape_alike l l' ->
  forall sentence, part_of sentence text ->
  agree lat_alike (set_text l dict user cd ud sentence m) (set_text l' dict' user' cd ud sentence m).
Proof.
  intros U W W' A sentence P. destruct (capacity_alike l l' (blen sentence) A) as (E & E0 & N0 & N1). unfold set_text. cbv zeta. rewrite <- E.
  destruct (set_capacity l (blen sentence)) as [c es s t]. cbn [edges starts_at ends_at] in *. subst es.
  unfold add_edge. cbn [capacity edges starts_at ends_at app length]. cbn [Nat.eqb negb].
  eapply agree_bind; [apply (push_alike 1); [exact N1|discriminate]|]. intros t1 t1' [<- Nt].
  eapply agree_bind; [apply (push_alike 0); [exact N0|discriminate]|]. intros s1 s1' [<- Ns].
  eapply agree_bind with (P := ue_alike).
  - apply agree_foldM_eq.
    + intros st st' i _ H. apply step_alike with (text := text); assumption.
    + split; [|reflexivity]. cbn [fst]. split; [repeat split|]. split; [exact Ns|]. split; [exact Nt|]. constructor; try apply bare_refl; try solve [constructor]. discriminate.
  - intros [m1 ?] [m1' ?] [H _]. exact H.
Qed.

(** ** The search *)

Lemma Forall2_upd {A B} (P : A -> B -> Prop) l l' i a b : Forall2 P l l' -> P a b -> Forall2 P (upd l i a) (upd l' i b).
Proof. intros F H. revert i. induction F as [|x y l l' Hx F IH]; intros [|i]; cbn [upd]; constructor; auto. Qed.
Lemma Forall_upd {A} (P : A -> Prop) l i a : Forall P l -> P a -> Forall P (upd l i a).
Proof. intros F H. revert i. induction F as [|x l Hx F IH]; intros [|i]; cbn [upd]; constructor; auto. Qed.

Lemma min_by_cost_in cs x : min_by_cost cs = Some x -> In x cs.
Proof.
  revert x. induction cs as [|y cs IH]; cbn [min_by_cost]; [discriminate|]. intros x. destruct (min_by_cost cs) as [z|].
  - destruct (_ <=? _)%Z; intros H; injection H as <-; [left; reflexivity|right; apply IH; reflexivity].
  - intros H. injection H as <-. left. reflexivity.
Qed.

Definition re_edge (e : edge) (cost : Z) (left : option edge_id) : edge := Edge (e_type e) (e_entry e) cost left (e_start e) (e_stop e) (e_kanji e).

Lemma re_bare e e' cost left : bare e e' -> bare (re_edge e cost left) (re_edge e' cost left).
Proof. intros (H1 & H2 & H3 & H4 & H5 & H6 & H7). repeat split; cbn; try assumption; apply H2. Qed.

Lemma edges_upd es es' i e e' cost left : edges_alike es es' -> i <> 0 -> nth_error es i = Some e -> nth_error es' i = Some e' -> left <> Some 1 ->
  edges_alike (upd es i (re_edge e cost left)) (upd es' i (re_edge e' cost left)).
Proof.
  intros [b b' n n' r r' H1 H2 F H3 H4 H5] I E E' L. destruct i as [|[|i]]; [congruence| |]; cbn [upd nth_error] in *.
  - injection E as <-. injection E' as <-. constructor; try assumption. apply re_bare, H2.
  - constructor; try assumption.
    + apply Forall2_upd; [exact F|]. destruct (Forall2_nth _ _ _ F _ _ E) as (y & E2 & Hy). rewrite E' in E2. injection E2 as <-. destruct Hy as [B RR].
      split; [apply re_bare, B|exact RR].
    + apply Forall_upd; [exact H5|]. exact L.
Qed.

Lemma through_alike cm m es es' w w' left : Forall2 bare es es' -> we_left w = we_left w' ->
  agree (fun a b => a = b /\ snd a = left) (through_cost cm m es w left) (through_cost cm m es' w' left).
Proof.
  intros F E. unfold through_cost. eapply agree_bind; [apply agree_idx, F|]. intros e e' (B1 & (B2 & B3 & B4) & B5 & B6 & B7 & B8 & B9).
  rewrite B4, E. apply agree_bind_eq. intros c _. split; [|reflexivity]. rewrite B5. f_equal. f_equal. f_equal. destruct m as [|p]; [reflexivity|].
  cbn [penalty_cost]. unfold penalty_of, num_chars. rewrite B7, B8, B9. reflexivity.
Qed.

Lemma mapM_through cm m es es' w w' : Forall2 bare es es' -> we_left w = we_left w' -> forall lefts,
  agree (fun a b => a = b /\ map snd a = lefts) (mapM (through_cost cm m es w) lefts) (mapM (through_cost cm m es' w') lefts).
Proof.
  intros F E. induction lefts as [|x lefts IH]; cbn [mapM]; [split; reflexivity|].
  eapply agree_bind; [apply through_alike; eassumption|]. intros a b [<- Ha]. eapply agree_bind; [exact IH|]. intros c d [<- Hc].
  split; [reflexivity|]. cbn [map]. congruence.
Qed.

Lemma cost_step_alike cm m lefts es es' right : edges_alike es es' -> ~ In 1 lefts -> right <> 0 ->
  agree edges_alike (path_cost_step cm m lefts es right) (path_cost_step cm m lefts es' right).
Proof.
  intros A L Z. pose proof (edges_bare _ _ A) as F. unfold path_cost_step.
  destruct (idx es right) as [re|k|] eqn:E1.
  - apply idx_ok in E1. destruct (Forall2_nth _ _ _ F _ _ E1) as (re' & E2 & B). unfold idx. rewrite E2. cbn [bind].
    pose proof B as (B1 & (B2 & B3 & B4) & B5 & B6 & B7 & B8 & B9).
    eapply agree_bind; [apply mapM_through; eassumption|]. intros cs cs' [<- ML]. destruct (min_by_cost cs) as [[best bl]|] eqn:M; [|exact A].
    apply min_by_cost_in in M. apply (in_map snd) in M. rewrite ML in M. cbn [snd] in M.
    rewrite <- B2. apply (edges_upd es es' right re re' (wrap32 (we_cost (e_entry re) + best)) (Some bl)); try assumption. intros X. injection X as ->. exact (L M).
  - unfold idx in E1. destruct (nth_error es right); discriminate.
  - pose proof (agree_idx bare es es' right F) as X. rewrite E1 in X. destruct (idx es' right); cbn in *; try contradiction. exact I.
Qed.

Lemma costs_alike cm m l l' : lat_alike l l' -> agree lat_alike (calculate_path_costs cm m l) (calculate_path_costs cm m l').
Proof.
  intros ((C & S & T) & N0 & N1 & E). unfold calculate_path_costs. rewrite <- S, <- T, <- C.
  eapply agree_bind with (P := edges_alike).
  - apply agree_foldM_eq; [|exact E]. intros es es' i _ H. apply agree_bind_eq. intros lefts IL. apply agree_bind_eq. intros rights IR.
    apply agree_foldM_eq; [|exact H]. intros s s' x Ix Hs. apply cost_step_alike; [exact Hs|exact (never_idx _ _ _ _ N1 IL)|].
    intros ->. exact (never_idx _ _ _ _ N0 IR Ix).
  - intros es es' H. repeat split; cbn; try assumption.
Qed.

Definition offset_alike (a b : nat * word_id) : Prop := fst a = fst b /\ R (snd a) (snd b).

Lemma follow_alike es es' : edges_alike es es' -> forall fuel id, id <> 1 ->
  agree_run (Forall2 offset_alike) (follow fuel es id) (follow fuel es' id).
Proof.
  intros A. induction fuel as [|fuel IH]; intros id Z; cbn [follow]; [exact I|].
  destruct A as [b b' n n' r r' H1 H2 F H3 H4 H5]. destruct id as [|[|id]]; [|congruence|]; cbn [nth_error].
  - pose proof H1 as (_ & _ & _ & HL & _). rewrite <- HL, H3. constructor.
  - destruct (nth_error r id) as [e|] eqn:E.
    + destruct (Forall2_nth _ _ _ F _ _ E) as (e' & E' & ((B1 & B2 & B3 & B4 & B5 & B6 & B7) & RR)). rewrite E', <- B4.
      destruct (e_left e) as [l|] eqn:EL; [|constructor]. rewrite Forall_forall in H5. specialize (H5 _ (nth_error_In _ _ E)). unfold sound_left in H5.
      assert (Zl : l <> 1) by (intros ->; exact (H5 EL)). specialize (IH l Zl).
      destruct (follow fuel (b :: n :: r) l) as [x|], (follow fuel (b' :: n' :: r') l) as [x'|]; cbn in IH |- *; try contradiction; [|exact I].
      eapply agree_bind; [exact IH|]. intros t t' Ht. constructor; [|exact Ht]. split; [exact B5|exact RR].
    + assert (E' : nth_error r' id = None) by (apply nth_error_None; apply nth_error_None in E; apply Forall2_length in F; lia). rewrite E'. exact I.
Qed.

Lemma Forall2_rev {A B} (P : A -> B -> Prop) l l' : Forall2 P l l' -> Forall2 P (rev l) (rev l').
Proof. induction 1; cbn [rev]; [constructor|]. apply Forall2_app; [assumption|]. constructor; [assumption|constructor]. Qed.

Lemma offsets_alike l l' : lat_alike l l' -> agree_run (Forall2 offset_alike) (tokens_offset l) (tokens_offset l').
Proof.
  intros ((C & S & T) & N0 & N1 & E). unfold tokens_offset. rewrite <- S. generalize (Datatypes.S (length (starts_at l))). intros fuel.
  cbn [follow]. pose proof (follow_alike _ _ E fuel) as FA. destruct E as [b b' n n' r r' H1 H2 F H3 H4 H5].
  set (es := b :: n :: r) in *. set (es' := b' :: n' :: r') in *. cbn [nth_error es es']. fold es es'.
  pose proof H2 as (_ & _ & _ & HL & _). rewrite <- HL. destruct (e_left n) as [x|] eqn:EL; [|constructor].
  assert (Zx : x <> 1) by (intros ->; exact (H4 EL)). specialize (FA x Zx).
  destruct (follow fuel es x) as [a|], (follow fuel es' x) as [a'|]; cbn in FA |- *; try contradiction; [|exact I].
  destruct a as [t|k|], a' as [t'|k'|]; cbn in FA |- *; try contradiction; try exact FA. rewrite !removelast_last. apply Forall2_rev, FA.
Qed.

Definition part_alike (a b : list token * nat * nat) : Prop :=
  Forall2 (same_token R) (fst (fst a)) (fst (fst b)) /\ snd (fst a) = snd (fst b) /\ snd a = snd b.

Lemma tokens_alike sentence : forall offs offs', Forall2 offset_alike offs offs' -> forall bp p,
  agree part_alike (sentence_tokens sentence offs bp p) (sentence_tokens sentence offs' bp p).
Proof.
  intros offs offs' F. induction F as [|[s w] [s' w'] offs offs' [H1 H2] F IH]; intros bp p; cbn [sentence_tokens]; [repeat split; constructor|].
  cbn [fst snd] in *. subst s'.
  assert (EQ : match offs with [] => blen sentence | (n, _) :: _ => n end = match offs' with [] => blen sentence | (n, _) :: _ => n end).
  { destruct F as [|[a ?] [a' ?] ? ? [Ha _] _]; [reflexivity|exact Ha]. }
  rewrite <- EQ. apply agree_bind_eq. intros surface _. eapply agree_bind; [apply IH|]. intros [[ts b] q] [[ts' b'] q'] (G1 & G2 & G3).
  cbn [fst snd] in *. subst b' q'. split; [|split; reflexivity]. cbn [fst]. constructor; [|exact G1]. repeat split. exact H2.
Qed.

Definition state_alike (st st' : tok_state) : Prop :=
  let '(l, ts, bp, p) := st in let '(l', ts', bp', p') := st' in
  shape_alike l l' /\ Forall2 (same_token R) ts ts' /\ bp = bp' /\ p = p'.

Lemma sentence_alike text t t' : same_in R text t t' -> forall sentence st st', part_of sentence text -> state_alike st st' ->
  agree_run state_alike (tokenize_sentence t st sentence) (tokenize_sentence t' st' sentence).
Proof.
  intros [M1 M2 M3 M4 M5 M6 M7] sentence [[[l ts] bp] p] [[[l' ts'] bp'] p'] P (A1 & A2 & <- & <-). unfold tokenize_sentence. cbv zeta.
  rewrite <- M1, <- M2, <- M3, <- M4.
  pose proof (set_text_alike text _ _ _ _ (d_chardef (t_dictionary t)) _ (t_mode t) l l' M5 M6 M7 A1 sentence P) as H.
  destruct (set_text l _ _ _ _ _ _) as [l1|k|], (set_text l' _ _ _ _ _ _) as [l1'|k'|]; cbn in H |- *; try contradiction; try exact H.
  pose proof (costs_alike (d_matrix (t_dictionary t)) (t_mode t) _ _ H) as H2.
  destruct (calculate_path_costs _ _ l1) as [l2|k|], (calculate_path_costs _ _ l1') as [l2'|k'|]; cbn in H2 |- *; try contradiction; try exact H2.
  pose proof (offsets_alike _ _ H2) as H3.
  destruct (tokens_offset l2) as [[o|k|]|], (tokens_offset l2') as [[o'|k'|]|]; cbn in H3 |- *; try contradiction; try exact H3.
  eapply agree_bind; [apply tokens_alike, H3|]. intros [[us b] q] [[us' b'] q'] (G1 & G2 & G3). cbn [fst snd] in *. subst b' q'.
  split; [apply H2|]. split; [apply Forall2_app; assumption|]. split; reflexivity.
Qed.

Lemma sentences_alike text t t' : same_in R text t t' -> forall ss, Forall (fun s => part_of s text) ss -> forall st st', state_alike st st' ->
  agree_run state_alike (tokenize_sentences t ss st) (tokenize_sentences t' ss st').
Proof.
  intros SI. induction ss as [|s ss IH]; intros F st st' A; cbn [tokenize_sentences]; [exact A|]. inversion F as [|? ? P F']; subst.
  pose proof (sentence_alike text t t' SI s st st' P A) as H.
  destruct (tokenize_sentence t st s) as [[o|k|]|], (tokenize_sentence t' st' s) as [[o'|k'|]|]; cbn in H |- *; try contradiction; try exact H.
  apply IH; assumption.
Qed.

Lemma sentences_parts text ss : sentences text ss -> Forall (fun s => part_of s text) ss.
Proof.
  induction 1 as [|s O|s rest ss C SS IH]; constructor.
  - exists [], []. rewrite app_nil_r. reflexivity.
  - constructor.
  - exists [], rest. reflexivity.
  - eapply Forall_impl; [|exact IH]. intros x (a & b & ->). exists (s ++ a), b. rewrite app_assoc. reflexivity.
Qed.

Theorem tokenize_alike text t t' : same_in R text t t' -> agree_run (Forall2 (same_token R)) (tokenize t text) (tokenize t' text).
Proof.
  intros SI. unfold tokenize.
  pose proof (sentences_alike text t t' SI _ (sentences_parts _ _ (split_sentences text)) (default_lattice, [], 0, 0) (default_lattice, [], 0, 0)) as H.
  assert (A : state_alike (default_lattice, [], 0, 0) (default_lattice, [], 0, 0)) by (repeat split; constructor). specialize (H A).
  destruct (tokenize_sentences t _ _) as [o|], (tokenize_sentences t' _ _) as [o'|]; cbn in H |- *; try contradiction; [|exact I].
  eapply agree_bind; [exact H|]. intros [[[l ts] bp] p] [[[l' ts'] bp'] p'] (_ & G & _). exact G.
Qed.
End Sim.

(** ** Dictionaries built from sources *)

Lemma prefix_alike R tbl tbl' s : (forall p q, s = p ++ q -> Forall2 (alike R) (entries_of tbl p) (entries_of tbl' p)) ->
  Forall2 (found_alike R) (map (fun '(k, e) => (blen k, e)) (prefix_words tbl s)) (map (fun '(k, e) => (blen k, e)) (prefix_words tbl' s)).
Proof.
  intros H. unfold prefix_words. induction (seq 1 (length s)) as [|n l IH]; cbn [flat_map map]; [constructor|].
  rewrite !map_app. apply Forall2_app; [|exact IH]. rewrite !map_map.
  specialize (H (firstn n s) (skipn n s) (eq_sym (firstn_skipn n s))). induction H as [|e e' es es' A F IF]; cbn [map]; constructor; [|exact IF].
  split; [reflexivity|exact A].
Qed.

Lemma means_alike R text d d' tbl tbl' : dict_means d tbl -> dict_means d' tbl' -> valid_str text ->
  (forall s, part_of s text -> Forall2 (alike R) (entries_of tbl s) (entries_of tbl' s)) -> same_words R text (Some d) (Some d').
Proof.
  intros M M' V H s P. cbn [words_at]. assert (VS : valid_str s).
  { destruct P as (a & b & ->). unfold valid_str in V. rewrite !Forall_app in V. apply V. }
  rewrite (M s VS), (M' s VS). apply prefix_alike. intros p q ->. apply H. destruct P as (a & b & ->). exists a, (q ++ b). rewrite <- !app_assoc. reflexivity.
Qed.

Lemma found_pair {A B} (F G : A -> B -> Prop) (Q : B -> B -> Prop) (rows : list A) es es' : found_of F rows es -> found_of G rows es' -> length rows <= 31 ->
  (forall r e e', F r e -> G r e' -> Q e e') -> Forall2 Q es es'.
Proof.
  intros (l & L1 & L2) (l' & L3 & L4) N K. apply five_bits_all in L1; [|exact N]. apply five_bits_all in L3; [|exact N]. subst l l'.
  revert es' L4. induction L2 as [|r e rows es H L2 IH]; intros es' L4; inversion L4; subst; constructor; [eapply K; eassumption|].
  apply IH; [cbn [length] in N; lia|assumption].
Qed.

(* what a loaded dictionary is made of *)
Lemma loaded_parts k S d : loaded_from k S d -> exists cd u m mb f tbl,
  d_chardef d = cd /\ d_unknown d = u /\ d_matrix d = m /\ char_def_of (s_char S) = Ok cd /\
  parse_unk (categories cd) (s_unk S) (unk_line_fields k) = Ok u /\ build_matrix (s_matrix S) = Ok mb /\ cm_load mb = Ok m /\
  d_dict d = loaded_dict f /\ dict_means (loaded_dict f) tbl /\
  forall s, found_of (sys_found (source_options k) d) (sys_rows_for (source_options k) s (s_rows S)) (entries_of tbl s).
Proof.
  intros (be & e & dir & out & files & HS & (C & R) & Y & NC & B & FA & LD).
  destruct (build_written be e k dir S C HS R Y NC) as (cd & u & f & da & mb & m & B' & CD & CR & U & UR & BD & DA & BM & ML & _ & MC).
  rewrite B in B'. injection B' as ->. rewrite (files_load e out cd u f da mb m FA CR UR DA ML) in LD. injection LD as <-.
  destruct (sys_built_any _ _ _ (rd_rows _ _ _ R) BD m cd u) as (tbl & DM & _ & _ & SF).
  exists cd, u, m, mb, f, tbl. repeat split; assumption.
Qed.

Lemma user_parts k rows u : user_from k rows u -> exists tbl,
  match u with Some ud => dict_means (u_dict ud) tbl | None => tbl = [] end /\
  forall s, found_of (fun r e => exists ud, u = Some ud /\ user_found (kind_user_options k) ud r e) (user_rows_for s rows) (entries_of tbl s).
Proof.
  destruct u as [ud|]; cbn [user_from].
  - intros [B L]. destruct (user_built_any _ _ _ L B) as (tbl & DM & _ & _ & UF). exists tbl. split; [exact DM|].
    intros s. destruct (UF s) as (l & L1 & L2). exists l. split; [exact L1|]. eapply Forall2_impl; [exact L2|]. intros r e _ _ H. exists ud. auto.
  - intros ->. exists []. split; [reflexivity|]. intros s. cbn. exists []. split; [exists 0; split; [cbn; lia|reflexivity]|constructor].
Qed.

Lemma means_empty s : valid_str s -> words_at None s = Ok (map (fun '(k, e) => (blen k, e)) (prefix_words [] s)).
Proof.
  intros _. cbn [words_at]. unfold prefix_words. induction (seq 1 (length s)) as [|n l IH]; cbn [flat_map map entries_of]; [reflexivity|]. exact IH.
Qed.

Lemma user_alike R text (u u' : option user_dictionary) tbl tbl' :
  match u with Some ud => dict_means (u_dict ud) tbl | None => tbl = [] end ->
  match u' with Some ud => dict_means (u_dict ud) tbl' | None => tbl' = [] end -> valid_str text ->
  (forall s, part_of s text -> Forall2 (alike R) (entries_of tbl s) (entries_of tbl' s)) ->
  same_words R text (option_map u_dict u) (option_map u_dict u').
Proof.
  intros M M' V H s P. assert (VS : valid_str s).
  { destruct P as (a & b & ->). unfold valid_str in V. rewrite !Forall_app in V. apply V. }
  assert (X : forall (v : option user_dictionary) t, match v with Some ud => dict_means (u_dict ud) t | None => t = [] end ->
    words_at (option_map u_dict v) s = Ok (map (fun '(k, e) => (blen k, e)) (prefix_words t s))).
  { intros [v|] t Hv; [exact (Hv s VS)|]. subst t. exact (means_empty s VS). }
  rewrite (X _ _ M), (X _ _ M'). apply prefix_alike. intros p q ->. apply H. destruct P as (a & b & ->). exists a, (q ++ b). rewrite <- !app_assoc. reflexivity.
Qed.

Lemma unknown_ids cats content n u : parse_unk cats content n = Ok u -> forall i e, ud_word_entry u i = Ok e -> we_id e = WordId u32_max true.
Proof.
  unfold parse_unk. intros H i e E. apply bind_ok in H. destruct H as (es & _ & H). injection H as <-. unfold ud_word_entry in E. cbn [ud_costs] in E.
  apply idx_ok, nth_error_In in E. unfold make_costs_array in E. apply in_map_iff in E. destruct E as (x & <- & _). reflexivity.
Qed.

Theorem built_alike k S S' d d' rows rows' u u' text : loaded_from k S d -> loaded_from k S' d' -> user_from k rows u -> user_from k rows' u' ->
  same_sources k text S S' -> same_rows (fun s => user_rows_for s rows) (fun s => user_rows_for s rows') text -> valid_str text ->
  forall m, agree_run (Forall2 (same_token (details_agree d u d' u'))) (tokenize (Tokenizer d u m) text) (tokenize (Tokenizer d' u' m) text).
Proof.
  intros L L' U U' [S1 S2 S3 S4] SU V m. apply tokenize_alike.
  destruct (loaded_parts _ _ _ L) as (cd & ud & cm & mb & f & tbl & D1 & D2 & D3 & CD & UK & BM & ML & DD & DM & SF).
  destruct (loaded_parts _ _ _ L') as (cd' & ud' & cm' & mb' & f' & tbl' & D1' & D2' & D3' & CD' & UK' & BM' & ML' & DD' & DM' & SF').
  rewrite <- S1, CD in CD'. injection CD' as <-. rewrite <- S2, UK in UK'. injection UK' as <-. rewrite <- S3, BM in BM'. injection BM' as <-.
  rewrite ML in ML'. injection ML' as <-.
  destruct (user_parts _ _ _ U) as (ut & UM & UF). destruct (user_parts _ _ _ U') as (ut' & UM' & UF').
  constructor; cbn [t_dictionary t_user t_mode].
  - reflexivity.
  - congruence.
  - congruence.
  - congruence.
  - intros i e E. rewrite D2 in E. rewrite (unknown_ids _ _ _ _ UK i e E). reflexivity.
  - rewrite DD, DD'. apply (means_alike _ text _ _ tbl tbl'); try assumption. intros s P. destruct (S4 s P) as [EQ N].
    specialize (SF s). specialize (SF' s). rewrite <- EQ in SF'. eapply found_pair; [exact SF|exact SF'|exact N|].
    intros r e e' (N1 & W1 & X1 & Y1) (N2 & W2 & X2 & Y2). rewrite N1 in N2. injection N2 as H1 H2 H3. split; [exact H1|]. split; [exact H2|]. split; [exact H3|].
    unfold details_agree, get_details, is_unknown, is_system. rewrite W1, W2, Y1, Y2. apply N.eqb_neq in X1, X2. unfold u32_max. rewrite X1, X2. reflexivity.
  - apply (user_alike _ text u u' ut ut'); try assumption. intros s P. destruct (SU s P) as [EQ N].
    specialize (UF s). specialize (UF' s). cbv beta in EQ, N. rewrite <- EQ in UF'. eapply found_pair; [exact UF|exact UF'|exact N|].
    intros r e e' (v & -> & N1 & W1 & X1 & ds & Y1 & Z1) (v' & -> & N2 & W2 & X2 & ds' & Y2 & Z2).
    rewrite N1 in N2. injection N2 as H1 H2 H3. split; [exact H1|]. split; [exact H2|]. split; [exact H3|].
    rewrite Y1 in Y2. injection Y2 as <-.
    unfold details_agree, get_details, is_unknown, is_system. rewrite W1, W2, Z1, Z2. apply N.eqb_neq in X1, X2. unfold u32_max. rewrite X1, X2. reflexivity.
Qed.

(** ** Token filters do not look at the number of a word *)

Definition same_fts := Forall2 same_ftoken.

Lemma retain_alike f : (forall a b, same_ftoken a b -> f a = f b) -> forall ts ts', same_fts ts ts' -> agree same_fts (retain f ts) (retain f ts').
Proof.
  intros K ts ts' F. induction F as [|a b ts ts' H F IH]; cbn [retain]; [constructor|].
  rewrite <- (K a b H). apply agree_bind_eq. intros x _. eapply agree_bind; [exact IH|]. intros r r' Hr. destruct x; [constructor|]; assumption.
Qed.
Lemma set_text_same a b t : same_ftoken a b -> same_ftoken (set_ft_text a t) (set_ft_text b t).
Proof. intros (H1 & H2 & H3 & H4 & H5 & H6). repeat split; assumption. Qed.
Lemma texts_alike f : (forall a b, same_ftoken a b -> f a = f b) -> forall ts ts', same_fts ts ts' -> agree same_fts (map_texts f ts) (map_texts f ts').
Proof.
  intros K ts ts' F. unfold map_texts. eapply agree_mapM; [exact F|]. intros a b H. rewrite <- (K a b H). apply agree_bind_eq. intros t _. apply set_text_same, H.
Qed.
Lemma tag_same a b : same_ftoken a b -> token_tag a = token_tag b.
Proof. intros (H1 & H2 & H3 & H4 & H5 & H6). unfold token_tag. rewrite H6. reflexivity. Qed.
Lemma detail_same i a b : same_ftoken a b -> detail_text i a = detail_text i b.
Proof. intros (H1 & H2 & H3 & H4 & H5 & H6). unfold detail_text, unknown_detail. rewrite H1, H6. reflexivity. Qed.

Lemma mapping_alike f : forall ts ts', same_fts ts ts' -> agree_run same_fts (mapping_tokens f ts) (mapping_tokens f ts').
Proof.
  intros ts ts' F. induction F as [|a b ts ts' H F IH]; cbn [mapping_tokens]; [constructor|].
  pose proof H as (H1 & _). rewrite <- H1. destruct (map_text_loop _ _ _ _) as [[t|k|]|]; cbn; try reflexivity; try exact I.
  destruct (mapping_tokens f ts) as [[r|k|]|], (mapping_tokens f ts') as [[r'|k'|]|]; cbn in IH |- *; try contradiction; try exact IH.
  constructor; [apply set_text_same, H|exact IH].
Qed.

Lemma concat_same cfg a b c d : same_ftoken a b -> same_ftoken c d -> agree same_ftoken (concat_token cfg a c) (concat_token cfg b d).
Proof.
  intros (H1 & H2 & H3 & H4 & H5 & H6) (G1 & G2 & G3 & G4 & G5 & G6). unfold concat_token. apply agree_bind_eq. intros ds _.
  repeat split; cbn; congruence.
Qed.

Lemma compound_alike cfg : forall ts ts', same_fts ts ts' -> forall c c',
  match c, c' with Some x, Some y => same_ftoken x y | None, None => True | _, _ => False end ->
  agree same_fts (compound_loop cfg ts c) (compound_loop cfg ts' c').
Proof.
  intros ts ts' F. induction F as [|a b ts ts' H F IH]; intros c c' C; cbn [compound_loop].
  - destruct c as [x|], c' as [y|]; cbn in *; try contradiction; repeat constructor; apply C.
  - rewrite <- (tag_same a b H). apply agree_bind_eq. intros pos _. destruct (contains _ _).
    + destruct c as [x|], c' as [y|]; cbn in C; try contradiction; [|apply IH; exact H].
      eapply agree_bind; [apply concat_same; eassumption|]. intros t t' Ht. apply IH. exact Ht.
    + eapply agree_bind; [apply IH; exact I|]. intros r r' Hr. destruct c as [x|], c' as [y|]; cbn in C; try contradiction; repeat constructor; try assumption; try apply H; apply C.
Qed.

Theorem filter_alike e d ts ts' : same_fts ts ts' -> agree same_fts (run_token_filter e d ts) (run_token_filter e d ts').
Proof.
  intros F. destruct d; cbn [run_token_filter].
  all: try solve [apply texts_alike; [|exact F]; intros a b H; first [apply detail_same, H | pose proof H as (H1 & _); cbv beta; rewrite H1; reflexivity]].
  all: try solve [apply retain_alike; [|exact F]; intros a b H; pose proof H as (H1 & _ & _ & _ & _ & H6); cbv beta; first [rewrite (tag_same a b H); reflexivity | rewrite H6; reflexivity | rewrite H1; reflexivity]].
  - apply compound_alike; [exact F|exact I].
  - apply texts_alike; [|exact F]. intros a b H. rewrite (tag_same a b H). pose proof H as (H1 & _). rewrite H1. reflexivity.
  - match goal with |- context [mapping_tokens ?m ts] => pose proof (mapping_alike m ts ts' F) as X; destruct (mapping_tokens m ts) as [r|], (mapping_tokens m ts') as [r'|] end;
      cbn in X; try contradiction; [exact X|exact I].
Qed.

Lemma correct_same vecs a b : same_ftoken a b -> agree same_ftoken (correct_token vecs a) (correct_token vecs b).
Proof.
  intros (H1 & H2 & H3 & H4 & H5 & H6). unfold correct_token. rewrite <- H2. apply agree_bind_eq. intros s _. rewrite <- H3. apply agree_bind_eq. intros x _.
  repeat split; cbn; congruence.
Qed.

Lemma analyzed_same t t' a b : same_token (details_agree (t_dictionary t) (t_user t) (t_dictionary t') (t_user t')) a b ->
  agree same_ftoken (analyzed_token t a) (analyzed_token t' b).
Proof.
  intros (H1 & H2 & H3 & H4 & H5 & H6). unfold analyzed_token. rewrite <- H6. apply agree_bind_eq. intros [ds ?] _. apply agree_bind_eq. intros x _.
  repeat split; cbn; congruence.
Qed.

Theorem analyze_alike e cfs tfs t t' text :
  (forall n, filtered e cfs text n -> agree_run (Forall2 (same_token (details_agree (t_dictionary t) (t_user t) (t_dictionary t') (t_user t')))) (tokenize t n) (tokenize t' n)) ->
  agree_run same_fts (analyze (analyzer_of e (AnalyzerDef cfs t tfs)) text) (analyze (analyzer_of e (AnalyzerDef cfs t' tfs)) text).
Proof.
  intros K. unfold analyze, analyzer_of. cbn [an_char_filters an_tokenizer ad_char_filters ad_tokenizer ad_token_filters].
  destruct (apply_char_filters _ text []) as [[[n vecs]|k|]|] eqn:E; cbn; try reflexivity; try exact I.
  specialize (K n (ex_intro _ vecs E)).
  destruct (tokenize t n) as [[ts|k|]|], (tokenize t' n) as [[ts'|k'|]|]; cbn in K |- *; try contradiction; try exact K.
  unfold analyze_normalized. cbn [an_tokenizer an_token_filters]. eapply agree_bind; [eapply agree_mapM; [exact K|]; intros a b; apply analyzed_same|].
  intros fs fs' H. eapply agree_bind with (P := same_fts).
  - apply agree_foldM_eq; [|exact H]. intros s s' f If Hs. apply in_map_iff in If. destruct If as (d & <- & _). apply filter_alike, Hs.
  - intros gs gs' G. eapply agree_mapM; [exact G|]. intros a b. apply correct_same.
Qed.

(** ** What is printed *)

Lemma output_same e f ts ts' : f <> FJson -> same_fts ts ts' -> output e f (map token_info ts) = output e f (map token_info ts').
Proof.
  intros NF F. destruct f; try congruence; cbn [output].
  - induction F as [|a b ts ts' H F IH]; [reflexivity|]. cbn [map mecab_output].
    assert (E : mecab_token (token_info a) = mecab_token (token_info b)).
    { destruct H as (H1 & H2 & H3 & H4 & H5 & H6). unfold mecab_token, token_info. cbn. rewrite H1, H6. reflexivity. }
    rewrite E, IH. reflexivity.
  - induction F as [|a b ts ts' H F IH]; [reflexivity|]. cbn [map wakati_output].
    assert (E : info_text (token_info a) = info_text (token_info b)).
    { destruct H as (H1 & _). unfold info_text, token_info. cbn. rewrite H1. reflexivity. }
    rewrite E, IH. destruct F; reflexivity.
Qed.

Theorem command_same e a a' f input : f <> FJson ->
  (forall line text, In line (split_inclusive (N.eqb 10) input) -> utf8_decode line = Some text -> agree_run same_fts (analyze a (trim text)) (analyze a' (trim text))) ->
  cli_tokenize e a f input = cli_tokenize e a' f input.
Proof.
  intros NF K. unfold cli_tokenize. induction (split_inclusive (N.eqb 10) input) as [|line ls IH]; [reflexivity|]. cbn [cli_loop].
  destruct (utf8_decode line) as [text|] eqn:D; [|reflexivity]. specialize (K line text (or_introl eq_refl) D) as H.
  destruct (analyze a (trim text)) as [[ts|k|]|], (analyze a' (trim text)) as [[ts'|k'|]|]; cbn in H |- *; try contradiction; try reflexivity; [|congruence].
  rewrite <- (output_same e f ts ts' NF H). destruct (output e f (map token_info ts)) as [out [u|k|]]; try reflexivity.
  rewrite IH; [reflexivity|]. intros l t I1. apply K. right. exact I1.
Qed.

(** ** Rows that say nothing about the text *)

Lemma rows_app o s a b : sys_rows_for o s (a ++ b) = sys_rows_for o s a ++ sys_rows_for o s b.
Proof. apply filter_app. Qed.
Lemma rows_none o s rows : Forall (fun r => sys_surface o r <> s) rows -> sys_rows_for o s rows = [].
Proof.
  induction 1 as [|r rows H F IH]; [reflexivity|]. cbn [sys_rows_for filter]. unfold sys_rows_for in IH. rewrite IH.
  destruct (sys_numbers r); [|reflexivity]. destruct (str_eqb (sys_surface o r) s) eqn:E; [|reflexivity]. apply str_eqb_spec in E. contradiction.
Qed.
Lemma user_rows_none s rows : Forall (fun r : row => hd [] r <> s) rows -> user_rows_for s rows = [].
Proof.
  induction 1 as [|r rows H F IH]; [reflexivity|]. unfold user_rows_for in *. cbn [filter]. rewrite IH.
  destruct (str_eqb (hd [] r) s) eqn:E; [|reflexivity]. apply str_eqb_spec in E. contradiction.
Qed.

Theorem command_alike k S S' d d' rows rows' u u' e cfs tfs m f input :
  loaded_from k S d -> loaded_from k S' d' -> user_from k rows u -> user_from k rows' u' -> f <> FJson ->
  (forall line text n, In line (split_inclusive (N.eqb 10) input) -> utf8_decode line = Some text -> filtered e cfs (trim text) n ->
     valid_str n /\ same_sources k n S S' /\ same_rows (fun s => user_rows_for s rows) (fun s => user_rows_for s rows') n) ->
  cli_tokenize e (analyzer_of e (AnalyzerDef cfs (Tokenizer d u m) tfs)) f input = cli_tokenize e (analyzer_of e (AnalyzerDef cfs (Tokenizer d' u' m) tfs)) f input.
Proof.
  intros L L' U U' NF K. apply command_same; [exact NF|]. intros line text I1 D. apply analyze_alike. intros n FL. cbn [t_dictionary t_user].
  destruct (K line text n I1 D FL) as (V & SS & SU). eapply built_alike; eassumption.
Qed.

Lemma extra_rows k text S before after : (forall r, In r (before ++ after) -> ~ part_of (sys_surface (source_options k) r) text) ->
  (forall s, part_of s text -> length (sys_rows_for (source_options k) s (s_rows S)) <= 31) ->
  same_sources k text S (Sources (s_char S) (s_unk S) (s_matrix S) (before ++ s_rows S ++ after)).
Proof.
  intros H N. constructor; try reflexivity. intros s P. split; [|apply N, P]. cbn [s_rows]. rewrite !rows_app.
  rewrite (rows_none _ s before), (rows_none _ s after); [rewrite app_nil_r; reflexivity| |]; apply Forall_forall; intros r I1 <-; apply (H r); try exact P; apply in_or_app; auto.
Qed.
Lemma no_user_word text rows : (forall r : row, In r rows -> ~ part_of (hd [] r) text) ->
  same_rows (fun s => user_rows_for s rows) (fun s => user_rows_for s []) text.
Proof.
  intros H s P. cbv beta. rewrite (user_rows_none s rows); [split; [reflexivity|cbn; lia]|]. apply Forall_forall. intros r I1 <-. exact (H r I1 P).
Qed.

Theorem analyze_built k S S' d d' rows rows' u u' e cfs tfs m text :
  loaded_from k S d -> loaded_from k S' d' -> user_from k rows u -> user_from k rows' u' ->
  (forall n, filtered e cfs text n ->
     valid_str n /\ same_sources k n S S' /\ same_rows (fun s => user_rows_for s rows) (fun s => user_rows_for s rows') n) ->
  agree_run same_fts (analyze (analyzer_of e (AnalyzerDef cfs (Tokenizer d u m) tfs)) text)
    (analyze (analyzer_of e (AnalyzerDef cfs (Tokenizer d' u' m) tfs)) text).
Proof.
  intros L L' U U' K. apply analyze_alike. intros n FL. cbn [t_dictionary t_user]. destruct (K n FL) as (V & SS & SU). eapply built_alike; eassumption.
Qed.
