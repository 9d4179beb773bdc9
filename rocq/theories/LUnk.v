(** The rule for unknown words in normal mode. *)
From Coq Require Import List NArith ZArith Bool Lia ZifyBool ZifyNat ZifyN.
From Verif Require Import MBase MUtf8 MText MCodec MDict MCharDef MUnk MLattice MTokenizer STok LBase LUtf8 LScan LLat LVit LSeg LCon.
Import ListNotations.

Section Unk.
Variable A : adict.
Variable text : str.
Hypothesis CV : covered A text.

Lemma unk_fold_shape found p s cats : forall es ue,
  (forall ord k, In (ord, k) cats -> a_unk A k <> []) ->
  exists us, fst (fold_left (unk_step A found p s) cats (es, ue)) = es ++ us /\
    Forall (fun e => unk_edge e /\ e_start e = p) us /\
    (us = [] -> snd (fold_left (unk_step A found p s) cats (es, ue)) = ue) /\
    (forall us' e, us = us' ++ [e] -> snd (fold_left (unk_step A found p s) cats (es, ue)) = Some (e_stop e)).
Proof.
  induction cats as [|[ord k] cats IH]; intros es ue U; cbn [fold_left].
  - exists []. rewrite app_nil_r. cbn. repeat split; auto. intros us' e H. destruct us'; discriminate.
  - assert (U' : forall o k', In (o, k') cats -> a_unk A k' <> []) by (intros o k' H; apply (U o); right; exact H).
    assert (UK : a_unk A k <> []) by (apply (U ord); left; reflexivity).
    unfold unk_step at 2 4 6. destruct (unk_surface A found s ord k) as [w|]; [|apply IH; exact U'].
    set (n1 := map (fun e => word_edge UNKNOWN p (w, e)) (a_unk A k)).
    destruct (IH (es ++ n1) (Some (p + blen w)) U') as (us & E1 & F & Z1 & Z2).
    exists (n1 ++ us). rewrite E1, app_assoc. split; [reflexivity|].
    assert (N1 : Forall (fun e => unk_edge e /\ e_start e = p /\ e_stop e = p + blen w) n1).
    { apply Forall_forall. intros e H. apply in_map_iff in H as (x & <- & _). split; [discriminate|split; reflexivity]. }
    assert (NN : n1 <> []) by (subst n1; destruct (a_unk A k); [congruence|discriminate]).
    split; [apply Forall_app; split; [eapply Forall_impl; [|exact N1]; cbv beta; tauto|exact F]|].
    split.
    + intros H. apply app_nil_inv in H as [H _]. contradiction.
    + intros us' e H. destruct us as [|u0 us0] using rev_ind.
      * rewrite app_nil_r in H. rewrite Z1 by reflexivity. rewrite H, Forall_app in N1. destruct N1 as [_ N1].
        inversion N1 as [|? ? (_ & _ & X)]; subst. congruence.
      * rewrite app_assoc in H. apply app_inj_tail in H as [_ <-]. eapply Z2. reflexivity.
Qed.

Definition sorted_starts (es : list edge) : Prop :=
  forall a e b, es = a ++ e :: b -> forall e', In e' b -> e_start e <= e_start e'.

(* e1 is the last unknown edge with its start *)
Definition last_at (es : list edge) (e1 : edge) : Prop :=
  exists a b, es = a ++ e1 :: b /\ unk_edge e1 /\ forall e, In e b -> unk_edge e -> e_start e <> e_start e1.

Record kinv (p : nat) (es : list edge) (ue : option nat) : Prop := {
  k_sorted : sorted_starts es;
  k_start : Forall (fun e => e_start e < p) es;
  k_gap : forall e1 e2, last_at es e1 -> In e2 es -> unk_edge e2 -> e_start e1 < e_start e2 -> e_stop e1 <= e_start e2;
  k_last : forall a e1 b, es = a ++ e1 :: b -> unk_edge e1 -> (forall e, In e b -> ~ unk_edge e) -> ue = Some (e_stop e1)
}.

Lemma unk_edge_dec e : unk_edge e \/ ~ unk_edge e.
Proof. unfold unk_edge. destruct (e_type e); [right|left|left|left]; congruence. Qed.

(* the last unknown edge of a list, if any *)
Lemma last_unk (l : list edge) : (forall e, In e l -> ~ unk_edge e) \/
  exists a e b, l = a ++ e :: b /\ unk_edge e /\ forall x, In x b -> ~ unk_edge x.
Proof.
  induction l as [|x l [IH|(a & e & b & -> & H1 & H2)]] using rev_ind.
  - left. intros e [].
  - destruct (unk_edge_dec x) as [U|U].
    + right. exists l, x, []. repeat split; auto.
    + left. intros e H. apply in_app_iff in H as [H|[<-|[]]]; auto.
  - destruct (unk_edge_dec x) as [U|U].
    + right. exists (a ++ e :: b), x, []. repeat split; auto.
    + right. exists a, e, (b ++ [x]). rewrite <- app_assoc. repeat split; auto.
      intros y H. apply in_app_iff in H as [H|[<-|[]]]; auto.
Qed.

Lemma sorted_app es new p : sorted_starts es -> Forall (fun e => e_start e < p) es -> Forall (fun e => e_start e = p) new ->
  sorted_starts (es ++ new).
Proof.
  intros S F N a e b E e' I. rewrite Forall_forall in F, N.
  apply app_eq_app in E as (l & [[-> E]|[-> E]]).
  - destruct l as [|x l].
    + cbn in *. rewrite (N e), (N e'); [lia|rewrite <- E; right; exact I|rewrite <- E; left; reflexivity].
    + cbn in E. injection E as <- ->. apply in_app_iff in I as [I|I].
      * eapply (S a e l eq_refl). exact I.
      * rewrite (N e' I). specialize (F e). assert (e_start e < p) by (apply F; apply in_app_iff; right; left; reflexivity). lia.
  - rewrite (N e), (N e'); [lia|rewrite E; apply in_app_iff; right; right; exact I|rewrite E; apply in_app_iff; right; left; reflexivity].
Qed.

Lemma kinv_step p es ue ks us ue' :
  kinv p es ue -> Forall (fun e => ~ unk_edge e /\ e_start e = p) ks -> Forall (fun e => unk_edge e /\ e_start e = p) us ->
  (us = [] -> ue' = ue) -> (forall us' e, us = us' ++ [e] -> ue' = Some (e_stop e)) ->
  (us <> [] -> match ue with Some u => u <= p | None => True end) ->
  kinv (S p) (es ++ ks ++ us) ue'.
Proof.
  intros [S F G L] FK FU U1 U2 OP. rewrite Forall_forall in FK, FU.
  assert (FN : Forall (fun e => e_start e = p) (ks ++ us)).
  { apply Forall_forall. intros e I. apply in_app_iff in I as [I|I]; [apply FK|apply FU]; exact I. }
  constructor.
  - eapply sorted_app; eauto.
  - apply Forall_app. split; [eapply Forall_impl; [|exact F]; cbn; lia|].
    eapply Forall_impl; [|exact FN]. cbn. lia.
  - intros e1 e2 (a & b & E & UE & LA) I2 UE2 LT.
    (* e1 is old: otherwise its start is p, the largest *)
    assert (IN1 : In e1 es).
    { assert (I1 : In e1 (es ++ ks ++ us)) by (rewrite E; apply in_app_iff; right; left; reflexivity).
      apply in_app_iff in I1 as [I1|I1]; [exact I1|]. exfalso.
      rewrite Forall_forall in FN. rewrite (FN e1 I1) in LT.
      apply in_app_iff in I2 as [I2|I2].
      - rewrite Forall_forall in F. apply F in I2. lia.
      - apply FN in I2. lia. }
    assert (S1 : e_start e1 < p) by (rewrite Forall_forall in F; apply F; exact IN1).
    (* e1 is last at its start within es *)
    assert (LE : last_at es e1).
    { apply app_eq_app in E as (l & [[-> E]|[-> E]]).
      - destruct l as [|x l]; cbn in E.
        + exfalso. assert (I : In e1 (ks ++ us)) by (rewrite <- E; left; reflexivity).
          rewrite Forall_forall in FN. apply FN in I. lia.
        + injection E as <- ->. exists a, l. split; [reflexivity|]. split; [exact UE|].
          intros e I. apply LA. apply in_app_iff. auto.
      - exfalso. assert (I : In e1 (ks ++ us)) by (rewrite E; apply in_app_iff; right; left; reflexivity).
        rewrite Forall_forall in FN. apply FN in I. lia. }
    apply in_app_iff in I2 as [I2|I2]; [apply (G e1 e2); assumption|].
    assert (P2 : e_start e2 = p) by (rewrite Forall_forall in FN; apply FN; exact I2).
    assert (IU : In e2 us).
    { apply in_app_iff in I2 as [I2|I2]; [|exact I2]. apply FK in I2. tauto. }
    destruct (last_unk es) as [NU|(a' & el & b' & EL & UL & NB)]; [exfalso; eapply NU; eassumption|].
    specialize (L _ _ _ EL UL NB). assert (O : us <> []) by (destruct us; [destruct IU|discriminate]).
    specialize (OP O). rewrite L in OP.
    (* e1 is el, or comes before it *)
    assert (I1 : In e1 a' \/ e1 = el \/ In e1 b').
    { rewrite EL in IN1. apply in_app_iff in IN1 as [X|[X|X]]; auto. }
    destruct I1 as [I1|[->|I1]]; [|lia|exfalso; eapply NB; eassumption].
    destruct (Nat.eq_dec (e_start e1) (e_start el)) as [EQ|NEQ].
    + (* same start: then e1 is the last one only if it is el *)
      destruct LE as (a1 & b1 & E1 & _ & LA1).
      rewrite EL in E1. apply app_eq_app in E1 as (l & [[X E1]|[X E1]]).
      * destruct l as [|x l]; cbn in E1; [injection E1 as -> ->; lia|].
        injection E1 as <- E1. exfalso. apply (LA1 el); [|exact UL|congruence]. rewrite E1. apply in_app_iff. right. left. reflexivity.
      * destruct l as [|x l]; cbn in E1; [injection E1 as -> ->; lia|].
        injection E1 as <- E1. exfalso. apply (NB e1); [|exact UE]. rewrite E1. apply in_app_iff. right. left. reflexivity.
    + assert (SLE : e_start e1 <= e_start el).
      { apply in_split in I1 as (x & y & ->). rewrite <- app_assoc in EL. eapply (S x e1 _ EL).
        apply in_app_iff. right. left. reflexivity. }
      assert (stop_le : e_stop e1 <= e_start el).
      { apply (G e1 el); auto; [rewrite EL; apply in_app_iff; right; left; reflexivity|lia]. }
      assert (e_start el < p) by (rewrite Forall_forall in F; apply F; rewrite EL; apply in_app_iff; right; left; reflexivity).
      lia.
  - intros a e1 b E UE NB. destruct us as [|u0 us0] using rev_ind.
    + rewrite app_nil_r in E. rewrite U1 by reflexivity.
      apply app_eq_app in E as (l & [[-> E]|[-> E]]).
      * destruct l as [|x l]; cbn in E.
        -- exfalso. assert (I : In e1 ks) by (rewrite <- E; left; reflexivity). apply FK in I. tauto.
        -- injection E as <- ->. eapply L; [reflexivity|exact UE|]. intros e I. apply NB. apply in_app_iff. auto.
      * exfalso. assert (I : In e1 ks) by (rewrite E; apply in_app_iff; right; left; reflexivity). apply FK in I. tauto.
    + clear IHus0. rewrite (U2 us0 u0 eq_refl). f_equal. f_equal.
      destruct b as [|y b'] using rev_ind.
      * rewrite !app_assoc in E. apply app_inj_tail in E as [_ E]. exact E.
      * exfalso. clear IHb'. rewrite !app_assoc in E. change (a ++ e1 :: b' ++ [y]) with (a ++ (e1 :: b') ++ [y]) in E.
        rewrite (app_assoc a) in E. apply app_inj_tail in E as [_ <-].
        apply (NB u0); [apply in_app_iff; right; left; reflexivity|]. apply FU. apply in_app_iff. right. left. reflexivity.
Qed.

Lemma state_kinv p : p <= blen text -> kinv p (fst (state_at A Normal text p)) (snd (state_at A Normal text p)).
Proof.
  induction p as [|p IH]; intros L.
  - cbn. constructor; auto.
    + intros a e b E. destruct a; discriminate.
    + intros e1 e2 _ [].
    + intros a e1 b E. destruct a; discriminate.
  - specialize (IH ltac:(lia)). rewrite state_S.
    pose proof (state_ok A Normal text p) as OK.
    destruct (state_at A Normal text p) as [es ue]. cbn [fst snd] in *. unfold pure_step. cbn [fst].
    assert (SKIP : forall ks, Forall (fun e => ~ unk_edge e /\ e_start e = p) ks -> kinv (S p) (es ++ ks) ue).
    { intros ks FK. rewrite <- (app_nil_r ks). eapply kinv_step; eauto; [intros us' e H; destruct us'; discriminate|congruence]. }
    assert (KN : forall q s, q = p -> Forall (fun e => ~ unk_edge e /\ e_start e = p) (map (word_edge KNOWN q) (dict_words A s))).
    { intros q s ->. apply Forall_forall. intros e I. apply in_map_iff in I as ([k x] & <- & _). split; [unfold unk_edge; cbn; congruence|reflexivity]. }
    destruct (reachb es p) eqn:RB.
    + destruct (reach_boundary A text es p OK RB) as (pre & s & T & BP).
      assert (SX : suffix_at text p = s) by (rewrite T, <- BP; apply suffix_at_app). rewrite SX.
      unfold pos_step. destruct (unk_active Normal ue p) eqn:UA; [|apply SKIP; apply KN; reflexivity].
      destruct s as [|c r]; [apply SKIP; apply KN; reflexivity|].
      destruct (unk_fold_shape (negb (is_nil (dict_words A (c :: r)))) p (c :: r) (enumerate (a_cats A c))
        (es ++ map (word_edge KNOWN p) (dict_words A (c :: r))) ue) as (us & E1 & F & Z1 & Z2).
      { intros ord k H. apply in_combine_r in H. apply (CV c); [|exact H]. rewrite T. apply in_app_iff. right. left. reflexivity. }
      rewrite E1, <- app_assoc. eapply kinv_step; eauto.
      intros _. unfold unk_active in UA. cbn in UA. destruct ue; [apply Nat.leb_le; exact UA|exact I].
    + cbn [fst snd]. rewrite <- (app_nil_r es). apply SKIP. constructor.
Qed.

Lemma normal_unknown_gap a e1 b e2 :
  scan A Normal text = a ++ e1 :: b -> unk_edge e1 -> (forall e, In e b -> unk_edge e -> e_start e <> e_start e1) ->
  In e2 (scan A Normal text) -> unk_edge e2 -> ~ (e_start e1 < e_start e2 < e_stop e1).
Proof.
  intros E U1 LA I2 U2 C.
  destruct (state_kinv (blen text) (le_n _)) as [_ _ G _]. change (fst (state_at A Normal text (blen text))) with (scan A Normal text) in G.
  assert (e_stop e1 <= e_start e2); [|lia]. apply G; [exists a, b; auto|exact I2|exact U2|lia].
Qed.

End Unk.
