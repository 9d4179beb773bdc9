(** Which words the lattice contains. *)
From Coq Require Import List NArith ZArith Bool Lia ZifyBool ZifyNat ZifyN.
From Verif Require Import MBase MUtf8 MText MCodec MDict MCharDef MUnk MLattice MTokenizer STok LBase LUtf8 LScan LLat LVit LSeg.
Import ListNotations.

Definition unk_edge (e : edge) : Prop := e_type e <> KNOWN.

Section Con.
Variable A : adict.
Variable m : mode.
Variable text : str.

Lemma fold_grows ps : forall es ue,
  exists new, fst (fold_left (pure_step A m text) ps (es, ue)) = es ++ new /\ Forall (fun e => In (e_start e) ps) new.
Proof.
  induction ps as [|p ps IH]; intros es ue; cbn [fold_left].
  - exists []. rewrite app_nil_r. auto.
  - destruct (pure_step_grows A m text es ue p) as (n1 & E1 & F1).
    destruct (pure_step A m text (es, ue) p) as [es1 ue1]. cbn [fst] in E1. subst es1.
    destruct (IH (es ++ n1) ue1) as (n2 & E2 & F2).
    exists (n1 ++ n2). rewrite app_assoc. split; [exact E2|]. apply Forall_app. split.
    + eapply Forall_impl; [|exact F1]. intros e [H _]. left. symmetry. exact H.
    + eapply Forall_impl; [|exact F2]. intros e H. right. exact H.
Qed.

Definition state_at (p : nat) := fold_left (pure_step A m text) (seq 0 p) ([], None).

Lemma state_S p : state_at (S p) = pure_step A m text (state_at p) p.
Proof. unfold state_at. rewrite seq_S, fold_left_app. reflexivity. Qed.

Lemma state_starts p : Forall (fun e => e_start e < p) (fst (state_at p)).
Proof.
  unfold state_at. destruct (fold_grows (seq 0 p) [] None) as (new & -> & F).
  eapply Forall_impl; [|exact F]. intros e H. apply in_seq in H. lia.
Qed.

Lemma state_ok p : edges_ok A text (fst (state_at p)).
Proof. apply scan_fold_ok. constructor. Qed.

Lemma scan_split p : p < blen text ->
  exists new, scan A m text = fst (state_at (S p)) ++ new /\ Forall (fun e => p < e_start e) new.
Proof.
  intros H. unfold scan, state_at. replace (blen text) with (S p + (blen text - S p)) by lia.
  rewrite seq_app, fold_left_app.
  destruct (fold_left (pure_step A m text) (seq 0 (S p)) ([], None)) as [es ue].
  destruct (fold_grows (seq (0 + S p) (blen text - S p)) es ue) as (new & E & F).
  exists new. split; [exact E|]. eapply Forall_impl; [|exact F]. intros e I. apply in_seq in I. lia.
Qed.

Lemma edge_pos e pre k rest : edge_word A text e pre k rest -> e_start e < e_stop e /\ e_stop e <= blen text.
Proof. intros (T & NE & S1 & S2 & _). pose proof (blen_pos k NE). rewrite T, !blen_app. lia. Qed.

Lemma reach_at p : p < blen text -> reachb (scan A m text) p = true -> reachb (fst (state_at p)) p = true.
Proof.
  intros L RB. unfold reachb in *. apply orb_true_iff in RB as [RB|RB]; [rewrite RB; reflexivity|].
  apply existsb_exists in RB as (e & I & E). apply Nat.eqb_eq in E.
  apply orb_true_iff. right. apply existsb_exists. exists e. split; [|apply Nat.eqb_eq; exact E].
  destruct (scan_split p L) as (new & ES & F). rewrite ES in I. apply in_app_iff in I as [I|I].
  - rewrite state_S in I. destruct (state_at p) as [es ue] eqn:ST.
    destruct (pure_step_grows A m text es ue p) as (n1 & E1 & F1). rewrite E1 in I.
    apply in_app_iff in I as [I|I]; [exact I|].
    rewrite Forall_forall in F1. apply F1 in I as IS. destruct IS as [S1 _].
    assert (OK : edges_ok A text (fst (state_at (S p)))) by apply state_ok.
    rewrite state_S, ST, E1 in OK. unfold edges_ok in OK. rewrite Forall_forall in OK.
    destruct (OK e) as (pre & k & rest & EW); [apply in_app_iff; right; exact I|].
    apply edge_pos in EW. lia.
  - rewrite Forall_forall in F. apply F in I as IS.
    pose proof (scan_ok A m text) as OK. unfold edges_ok in OK. rewrite Forall_forall in OK.
    destruct (OK e) as (pre & k & rest & EW); [rewrite ES; apply in_app_iff; right; exact I|].
    apply edge_pos in EW. lia.
Qed.

Lemma in_state_scan p e : p < blen text -> In e (fst (state_at (S p))) -> In e (scan A m text).
Proof. intros L I. destruct (scan_split p L) as (new & -> & _). apply in_app_iff. auto. Qed.

Lemma dict_edges_present pre s k e :
  text = pre ++ s -> reachb (scan A m text) (blen pre) = true -> dict_word A s k e ->
  In (word_edge KNOWN (blen pre) (k, e)) (scan A m text).
Proof.
  intros T RB D. assert (L : blen pre < blen text).
  { destruct D as (NE & (r & ->) & _). pose proof (blen_pos k NE). rewrite T, !blen_app. lia. }
  apply (in_state_scan (blen pre)); [exact L|]. rewrite state_S.
  unfold pure_step. rewrite (reach_at _ L RB). rewrite T at 1. rewrite suffix_at_app.
  destruct (state_at (blen pre)) as [es ue]. unfold pos_step.
  assert (I : In (word_edge KNOWN (blen pre) (k, e)) (es ++ map (word_edge KNOWN (blen pre)) (dict_words A s))).
  { apply in_app_iff. right. apply in_map. apply dict_words_in. exact D. }
  destruct (unk_active m ue (blen pre)); [|exact I]. destruct s as [|c r]; [exact I|].
  match goal with |- In _ (fst (fold_left (unk_step A ?f _ _) ?cs (?x, _))) =>
    destruct (unk_fold_grows A f (blen pre) (c :: r) cs x ue) as (new & -> & _) end.
  apply in_app_iff. left. exact I.
Qed.

Lemma unk_fold_in found start s cats ord k w e : forall es ue,
  In (ord, k) cats -> unk_surface A found s ord k = Some w -> In e (a_unk A k) ->
  In (word_edge UNKNOWN start (w, e)) (fst (fold_left (unk_step A found start s) cats (es, ue))).
Proof.
  induction cats as [|[o k'] cats IH]; intros es ue I S U; [destruct I|].
  cbn [fold_left]. destruct I as [E|I].
  - injection E as -> ->. unfold unk_step at 2. rewrite S.
    match goal with |- In _ (fst (fold_left _ _ (?x, ?y))) =>
      destruct (unk_fold_grows A found start s cats x y) as (new & -> & _) end.
    apply in_app_iff. left. apply in_app_iff. right. apply in_map_iff. exists e. auto.
  - destruct (unk_step A found start s (es, ue) (o, k')) as [es1 ue1]. apply IH; auto.
Qed.

Lemma run_len_exact k ord run rest :
  Forall (has_cat A ord k) run -> (forall d r, rest = d :: r -> ~ has_cat A ord k d) ->
  run_len A k ord (run ++ rest) = length run.
Proof.
  unfold has_cat. intros F N. induction F as [|c run H F IH]; cbn [app run_len length].
  - destruct rest as [|d r]; [reflexivity|]. specialize (N d r eq_refl). cbn [run_len].
    destruct (nth_error (a_cats A d) ord) as [k'|]; [|reflexivity].
    destruct (Nat.eqb_spec k' k); [congruence|reflexivity].
  - rewrite H, Nat.eqb_refl, IH. reflexivity.
Qed.

Lemma unk_surface_exact s w e : unknown_word A s w e ->
  exists c r ord k, s = c :: r /\ In (ord, k) (enumerate (a_cats A c)) /\ In e (a_unk A k) /\
    unk_surface A (negb (is_nil (dict_words A s))) s ord k = Some w.
Proof.
  intros (c & r & ord & k & -> & HC & IV & (c' & run & rest & E & -> & G) & U).
  exists c, r, ord, k. split; [reflexivity|]. split.
  { unfold enumerate. apply enumerate_in. split; [lia|]. rewrite Nat.sub_0_r. exact HC. }
  split; [exact U|]. unfold unk_surface.
  assert (B : a_invoke A k || negb (negb (is_nil (dict_words A (c :: r)))) = true).
  { destruct IV as [->|IV]; [reflexivity|]. destruct (dict_words A (c :: r)) as [|[k0 e0] l] eqn:DW; [apply orb_true_r|].
    exfalso. apply (IV k0 e0). apply dict_words_in. rewrite DW. left. reflexivity. }
  rewrite B. injection E as <- ->. f_equal. cbn [tl].
  destruct (a_group A k).
  - destruct G as [G1 G2]. rewrite run_len_exact by assumption. cbn [firstn]. rewrite firstn_app_exact. reflexivity.
  - subst run. reflexivity.
Qed.

(* the latest unknown span comes from an unknown edge *)
Definition ue_inv (p : nat) (st : list edge * option nat) : Prop :=
  forall u, snd st = Some u -> exists e, In e (fst st) /\ unk_edge e /\ e_stop e = u /\ e_start e < p.

Lemma unk_fold_ue found p s cats : forall es ue,
  (forall ord k, In (ord, k) cats -> a_unk A k <> []) ->
  ue_inv (S p) (es, ue) -> ue_inv (S p) (fold_left (unk_step A found p s) cats (es, ue)).
Proof.
  induction cats as [|[ord k] cats IH]; intros es ue U I; cbn [fold_left]; [exact I|].
  assert (U' : forall o k', In (o, k') cats -> a_unk A k' <> []) by (intros o k' H; apply (U o); right; exact H).
  destruct (unk_step A found p s (es, ue) (ord, k)) as [es1 ue1] eqn:E. apply IH; [exact U'|].
  unfold unk_step in E. destruct (unk_surface A found s ord k) as [w|]; [|injection E as <- <-; exact I].
  injection E as <- <-. intros u H. cbn [fst snd] in *. injection H as <-.
  destruct (a_unk A k) as [|e0 l0] eqn:UK; [exfalso; eapply U; [left; reflexivity|exact UK]|].
  exists (word_edge UNKNOWN p (w, e0)). cbn [map]. split; [apply in_app_iff; right; left; reflexivity|].
  split; [discriminate|]. split; [reflexivity|]. cbn. lia.
Qed.

Lemma ue_inv_mono p es new ue : ue_inv p (es, ue) -> ue_inv (S p) (es ++ new, ue).
Proof.
  intros I u H. destruct (I u H) as (e & E1 & E2 & E3 & E4). exists e.
  cbn [fst] in *. repeat split; auto; try lia. apply in_app_iff. auto.
Qed.

Hypothesis CV : covered A text.

Lemma state_ue p : p <= blen text -> ue_inv p (state_at p).
Proof.
  induction p as [|p IH]; intros L.
  - intros u H. discriminate.
  - rewrite state_S. specialize (IH ltac:(lia)). unfold pure_step.
    pose proof (state_ok p) as OK.
    destruct (reachb (fst (state_at p)) p) eqn:RB.
    + destruct (reach_boundary A text _ _ OK RB) as (pre & s & T & <-). rewrite T at 1. rewrite suffix_at_app.
      destruct (state_at (blen pre)) as [es ue]. unfold pos_step.
      destruct (unk_active m ue (blen pre)); [|apply ue_inv_mono; exact IH].
      destruct s as [|c r]; [apply ue_inv_mono; exact IH|].
      apply unk_fold_ue; [|apply ue_inv_mono; exact IH].
      intros ord k H. apply in_combine_r in H. apply (CV c); [|exact H]. rewrite T. apply in_app_iff. right. left. reflexivity.
    + destruct (state_at p) as [es ue]. rewrite <- (app_nil_r es). apply ue_inv_mono. exact IH.
Qed.

(* an unknown word at a reachable position is in the lattice, unless the position is inside an unknown word of the lattice *)
Lemma unk_edges_present pre s k e :
  text = pre ++ s -> reachb (scan A m text) (blen pre) = true -> unknown_word A s k e ->
  (is_search m = true \/ forall ed, In ed (scan A m text) -> unk_edge ed -> ~ (e_start ed < blen pre < e_stop ed)) ->
  In (word_edge UNKNOWN (blen pre) (k, e)) (scan A m text).
Proof.
  intros T RB UW OP.
  assert (L : blen pre < blen text).
  { destruct UW as (c & r & _ & _ & -> & _). pose proof (blen_pos (c :: r)). rewrite T, blen_app. 
    assert (0 < blen (c :: r)) by (apply H; discriminate). lia. }
  destruct (unk_surface_exact s k e UW) as (c & r & ord & cat & -> & I & U & US).
  apply (in_state_scan (blen pre)); [exact L|]. rewrite state_S.
  unfold pure_step. rewrite (reach_at _ L RB). rewrite T at 1. rewrite suffix_at_app.
  pose proof (state_ue (blen pre) ltac:(lia)) as UE.
  assert (GR : forall ed, In ed (fst (state_at (blen pre))) -> In ed (scan A m text)).
  { intros ed H. apply (in_state_scan (blen pre)); [exact L|]. rewrite state_S.
    destruct (state_at (blen pre)) as [es ue]. destruct (pure_step_grows A m text es ue (blen pre)) as (n1 & -> & _).
    apply in_app_iff. auto. }
  destruct (state_at (blen pre)) as [es ue]. unfold pos_step.
  assert (UA : unk_active m ue (blen pre) = true).
  { unfold unk_active. destruct OP as [->|OP]; [reflexivity|]. apply orb_true_iff. right.
    destruct ue as [u|]; [|reflexivity]. destruct (Nat.leb_spec u (blen pre)); [reflexivity|]. exfalso.
    destruct (UE u eq_refl) as (ed & E1 & E2 & E3 & E4). apply (OP ed); [apply GR; exact E1|exact E2|lia]. }
  rewrite UA. eapply unk_fold_in; [exact I|exact US|exact U].
Qed.

(** ** The admitted words satisfy the specification *)

Notation W := (admitted A m text).
Notation U := (admitted_unk A m text).

Lemma reach_reachb pre : reach W text pre -> reachb (scan A m text) (blen pre) = true.
Proof.
  intros H. destruct H as [|pre k rest e H T (ed & rest' & I & E & EW & _)]; [reflexivity|].
  apply app_inv_head in E. subst rest'. destruct EW as (_ & _ & _ & S & _).
  unfold reachb. apply orb_true_iff. right. apply existsb_exists. exists ed. split; [exact I|].
  apply Nat.eqb_eq. rewrite blen_app. exact S.
Qed.

Lemma reachb_reach : forall n pre s, blen pre = n -> text = pre ++ s -> reachb (scan A m text) (blen pre) = true -> reach W text pre.
Proof.
  intros n. induction n as [n IH] using lt_wf_ind. intros pre s E T RB.
  pose proof RB as RB'. unfold reachb in RB. apply orb_true_iff in RB as [RB|RB].
  - apply Nat.eqb_eq in RB. apply blen_0 in RB. subst pre. constructor.
  - apply existsb_exists in RB as (ed & I & S). apply Nat.eqb_eq in S.
    pose proof (scan_ok A m text) as OK. unfold edges_ok in OK. rewrite Forall_forall in OK.
    destruct (OK ed I) as (pre' & k & rest & EW). pose proof EW as (T' & NE & S1 & S2 & _).
    pose proof (blen_pos k NE) as KP.
    assert (Q : pre ++ s = (pre' ++ k) ++ rest) by (rewrite <- app_assoc; congruence).
    apply app_same_blen in Q; [|rewrite blen_app; lia]. destruct Q as [-> ->].
    apply (reach_step W text pre' k rest (e_entry ed)).
    + apply (IH (blen pre')) with (s := k ++ rest); [rewrite blen_app in E; lia|reflexivity|exact T'|].
      pose proof (scan_reachable A m text) as SR. unfold starts_reachable in SR. rewrite Forall_forall in SR.
      rewrite <- S1. apply SR. exact I.
    + exact T'.
    + exists ed, rest. auto.
Qed.

Lemma admitted_reach pre s k e : W pre s k e -> text = pre ++ s /\ reach W text pre.
Proof.
  intros (ed & rest & I & -> & EW & _). destruct EW as (T & _ & S1 & _).
  split; [exact T|]. apply (reachb_reach (blen pre)) with (s := k ++ rest); auto.
  pose proof (scan_reachable A m text) as SR. unfold starts_reachable in SR. rewrite Forall_forall in SR.
  rewrite <- S1. apply SR. exact I.
Qed.

Lemma word_edge_word ty pre k e rest : text = pre ++ k ++ rest -> k <> [] -> candidate A (k ++ rest) k e ->
  (ty = KNOWN -> dict_word A (k ++ rest) k e) -> (ty <> KNOWN -> unknown_word A (k ++ rest) k e) ->
  edge_word A text (word_edge ty (blen pre) (k, e)) pre k rest.
Proof. intros. unfold edge_word, word_edge. cbn. repeat (split; [solve [auto]|]). auto. Qed.

Lemma unknown_prefix s k e : unknown_word A s k e -> k <> [] /\ exists rest, s = k ++ rest.
Proof.
  intros (c & r & ord & i & -> & _ & _ & (c' & run & rest & E & -> & _) & _).
  split; [discriminate|]. exists rest. exact E.
Qed.

Lemma considered_admitted : considered A m text W U.
Proof.
  constructor.
  - intros pre r k e. split.
    + intros H. destruct (admitted_reach _ _ _ _ H) as [T RE]. split; [exact T|]. split; [exact RE|].
      destruct H as (ed & rest & I & -> & EW & <-). pose proof EW as (_ & _ & _ & _ & _ & _ & _ & _ & K1 & K2).
      destruct (e_type ed) eqn:TY.
      * left. apply K1. reflexivity.
      * right. exists ed, rest. repeat (split; [solve [auto]|]). rewrite TY. discriminate.
      * right. exists ed, rest. repeat (split; [solve [auto]|]). rewrite TY. discriminate.
      * right. exists ed, rest. repeat (split; [solve [auto]|]). rewrite TY. discriminate.
    + intros (T & RE & [D|H]).
      * pose proof D as (NE & (rest & ->) & _). exists (word_edge KNOWN (blen pre) (k, e)), rest.
        split; [apply (dict_edges_present pre (k ++ rest)); auto; apply reach_reachb; exact RE|].
        split; [reflexivity|]. split; [|reflexivity]. apply word_edge_word; auto; [left; exact D|congruence].
      * destruct H as (ed & rest & I & E & EW & EE & _). exists ed, rest. auto.
  - intros pre r k e H.
    assert (W' : W pre r k e) by (destruct H as (ed & rest & I & E & EW & EE & _); exists ed, rest; auto).
    destruct (admitted_reach _ _ _ _ W') as [T RE]. split; [exact T|]. split; [exact RE|].
    destruct H as (ed & rest & I & -> & EW & <- & TY). pose proof EW as (_ & _ & _ & _ & _ & _ & _ & _ & _ & K2).
    apply K2. exact TY.
  - intros pre r k e T RE UW OP. destruct (unknown_prefix _ _ _ UW) as (NE & rest & ->).
    exists (word_edge UNKNOWN (blen pre) (k, e)), rest. split.
    + apply (unk_edges_present pre (k ++ rest)); auto; [apply reach_reachb; exact RE|].
      destruct OP as [OP|OP]; [left; exact OP|right]. intros ed I UE C.
      pose proof (scan_ok A m text) as OK. unfold edges_ok in OK. rewrite Forall_forall in OK.
      destruct (OK ed I) as (pre' & k' & rest' & EW). pose proof EW as (_ & _ & S1 & S2 & _).
      apply (OP pre' (k' ++ rest') k' (e_entry ed)).
      * exists ed, rest'. auto.
      * lia.
    + split; [reflexivity|]. split; [|split; [reflexivity|discriminate]].
      apply word_edge_word; auto; [right; exact UW|discriminate].
Qed.

(** ** Segmentations inside the considered words *)

Lemma dict_seg_admitted pre s wl : seg (fun _ => dict_word A) pre s wl -> text = pre ++ s -> reach W text pre -> seg W pre s wl.
Proof.
  intros H. induction H as [pre|pre k e rest wl NE P H IH]; intros T RE; [constructor|].
  assert (WW : W pre (k ++ rest) k e) by (apply (con_split _ _ _ _ _ considered_admitted); auto).
  constructor; auto. apply IH; [rewrite <- app_assoc; exact T|]. eapply reach_step; eauto.
Qed.

Lemma seg_search_admitted pre s wl : is_search m = true ->
  seg (fun _ => candidate A) pre s wl -> text = pre ++ s -> reach W text pre -> seg W pre s wl.
Proof.
  intros SM H. induction H as [pre|pre k e rest wl NE P H IH]; intros T RE; [constructor|].
  assert (WW : W pre (k ++ rest) k e).
  { apply (con_split _ _ _ _ _ considered_admitted). split; [exact T|]. split; [exact RE|].
    destruct P as [P|P]; [left; exact P|right]. apply (con_open _ _ _ _ _ considered_admitted); auto. }
  constructor; auto. apply IH; [rewrite <- app_assoc; exact T|]. eapply reach_step; eauto.
Qed.

End Con.

Lemma admitted_candidate A m text pre s k e : admitted A m text pre s k e -> candidate A s k e.
Proof. intros (ed & rest & I & -> & EW & <-). destruct EW as (_ & _ & _ & _ & _ & _ & _ & C & _). exact C. Qed.

Lemma seg_impl (P Q : str -> str -> str -> word_entry -> Prop) pre s wl :
  (forall pre s k e, P pre s k e -> Q pre s k e) -> seg P pre s wl -> seg Q pre s wl.
Proof. intros H S. induction S; constructor; auto. Qed.

Lemma seg_reach (P : str -> str -> str -> word_entry -> Prop) text pre s wl : seg P pre s wl -> text = pre ++ s -> reach P text pre -> reach P text (pre ++ s).
Proof.
  intros H. induction H as [pre|pre k e rest wl NE HP H IH]; intros T RE; [rewrite app_nil_r; exact RE|].
  rewrite app_assoc. apply IH; [rewrite <- app_assoc; exact T|]. eapply reach_step; eauto.
Qed.
