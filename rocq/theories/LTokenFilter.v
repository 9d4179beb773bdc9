(** The token filters other than numbers. *)
From Coq Require Import String.
From Coq Require Import List NArith ZArith Bool Lia ZifyBool ZifyNat ZifyN.
From Verif Require Import MBase MUtf8 MText MCodec MDict MCharDef MTokenizer MDetails MBuild MCharFilter MAnalyzer MTokenFilter
  SBuild SCharFilter STokenFilter LBase LUtf8 LBuild LKinds LOffset LMapping LCharFilter.
Import ListNotations.
Local Open Scope list_scope.

(** * Selecting *)

Lemma retain_selected {A} (f : A -> res bool) (P : A -> Prop) l :
  (forall x, In x l -> exists b, f x = Ok b /\ (b = true <-> P x)) -> exists out, retain f l = Ok out /\ selected P l out.
Proof.
  induction l as [|x l IH]; intros H; cbn [retain].
  - exists []. split; [reflexivity|constructor].
  - destruct (H x (or_introl eq_refl)) as (b & E & B). rewrite E. cbn [bind].
    destruct IH as (out & E2 & S); [intros y Hy; apply H; right; exact Hy|]. rewrite E2. cbn [bind].
    destruct b.
    + exists (x :: out). split; [reflexivity|]. constructor; [apply B; reflexivity|exact S].
    + exists out. split; [reflexivity|]. constructor; [|exact S]. intros Px. apply B in Px. discriminate.
Qed.

Lemma selected_unique {A} (P : A -> Prop) l out : selected P l out -> forall out', selected P l out' -> out = out'.
Proof.
  induction 1 as [|x l out Px S IH|x l out Px S IH]; intros out' S'; inversion S'; subst; try contradiction; auto.
  f_equal. auto.
Qed.

Lemma selected_all {A} (P : A -> Prop) l : Forall P l -> selected P l l.
Proof. induction 1; constructor; auto. Qed.

Lemma selected_holds {A} (P : A -> Prop) l out : selected P l out -> Forall P out.
Proof. induction 1; auto. Qed.

Lemma selected_again {A} (P : A -> Prop) l out out' : selected P l out -> selected P out out' -> out' = out.
Proof. intros S S'. symmetry. eapply selected_unique; [|exact S']. apply selected_all. eapply selected_holds. exact S. Qed.

Lemma selected_interleaved {A} (P : A -> Prop) l a : selected P l a -> forall b, selected (fun x => ~ P x) l b -> interleaved l a b.
Proof.
  induction 1 as [|x l a Px S IH|x l a Px S IH]; intros b S'; inversion S'; subst; try contradiction; constructor; auto.
Qed.

Lemma selected_iff {A} (P Q : A -> Prop) l out : (forall x, In x l -> P x <-> Q x) -> selected P l out -> selected Q l out.
Proof.
  intros H S. induction S as [|x l out Px S IH|x l out Px S IH].
  - constructor.
  - constructor; [apply H; [left; reflexivity|exact Px]|]. apply IH. intros y Hy. apply H. right. exact Hy.
  - apply selected_drop; [intros Q1; apply Px; apply H; [left; reflexivity|exact Q1]|]. apply IH. intros y Hy. apply H. right. exact Hy.
Qed.

Lemma contains_in set s : contains set s = true <-> In s set.
Proof.
  unfold contains. rewrite existsb_exists. split.
  - intros (x & I1 & E). apply str_eqb_spec in E. subst. exact I1.
  - intros I1. exists s. split; [exact I1|apply str_eqb_refl].
Qed.

Lemma length_selected min max ts : exists out, length_apply min max ts = Ok out /\ selected (length_ok min max) ts out.
Proof.
  apply retain_selected. intros tk _. eexists. split; [reflexivity|]. unfold length_ok.
  destruct min as [m|]; destruct max as [M|];
    repeat match goal with |- context [Nat.ltb ?a ?b] => destruct (Nat.ltb_spec a b) end;
    (split; [intros B; try discriminate B; split; intros n E; try discriminate E; injection E as <-; lia|]);
    intros [A B]; try reflexivity; exfalso;
    try specialize (A _ eq_refl); try specialize (B _ eq_refl); lia.
Qed.

Lemma keep_words_selected words ts : exists out, keep_words_apply words ts = Ok out /\ selected (fun tk => In (ft_text tk) words) ts out.
Proof. apply retain_selected. intros tk _. eexists. split; [reflexivity|]. apply contains_in. Qed.

Lemma stop_words_selected words ts : exists out, stop_words_apply words ts = Ok out /\ selected (fun tk => ~ In (ft_text tk) words) ts out.
Proof.
  apply retain_selected. intros tk _. eexists. split; [reflexivity|]. rewrite negb_true_iff, <- contains_in.
  destruct (contains words (ft_text tk)); intuition congruence.
Qed.

Lemma words_partition words ts a b : keep_words_apply words ts = Ok a -> stop_words_apply words ts = Ok b -> interleaved ts a b.
Proof.
  intros A B. destruct (keep_words_selected words ts) as (a' & A' & S). destruct (stop_words_selected words ts) as (b' & B' & S').
  assert (a' = a) by congruence. assert (b' = b) by congruence. subst. eapply selected_interleaved; eauto.
Qed.

Lemma word_filters_again words min max ts out :
  (keep_words_apply words ts = Ok out -> keep_words_apply words out = Ok out) /\
  (stop_words_apply words ts = Ok out -> stop_words_apply words out = Ok out) /\
  (length_apply min max ts = Ok out -> length_apply min max out = Ok out).
Proof.
  repeat match goal with |- _ /\ _ => split end; intros E.
  - destruct (keep_words_selected words ts) as (o & E1 & S1). destruct (keep_words_selected words out) as (o2 & E2 & S2).
    assert (o = out) by congruence. subst. rewrite E2. f_equal. eapply selected_again; eauto.
  - destruct (stop_words_selected words ts) as (o & E1 & S1). destruct (stop_words_selected words out) as (o2 & E2 & S2).
    assert (o = out) by congruence. subst. rewrite E2. f_equal. eapply selected_again; eauto.
  - destruct (length_selected min max ts) as (o & E1 & S1). destruct (length_selected min max out) as (o2 & E2 & S2).
    assert (o = out) by congruence. subst. rewrite E2. f_equal. eapply selected_again; eauto.
Qed.

(** * Tags *)

Lemma split_join (ps : list str) : ps <> [] -> Forall (fun p => ~ In 44%N p) ps -> split_char 44%N (join [44%N] ps) = ps.
Proof.
  intros NE F. induction F as [|p ps Hp F IH]; [exfalso; apply NE; reflexivity|].
  assert (FP : Forall (fun x => (44 =? x)%N = false) p).
  { apply Forall_forall. intros x Hx. apply N.eqb_neq. intros <-. auto. }
  destruct ps as [|q ps]; cbn [join].
  - unfold split_char. apply split_by_none. exact FP.
  - unfold split_char in *. cbn [app]. rewrite split_by_app; [|exact FP|reflexivity]. f_equal. apply IH. discriminate.
Qed.

Lemma split_parts tag : comma_parts (split_char 44%N tag) tag.
Proof.
  unfold split_char. induction tag as [|c tag (NE & F & E)]; cbn [split_by].
  - split; [discriminate|]. split; [repeat constructor; intros []|reflexivity].
  - destruct (N.eqb_spec 44 c) as [<-|N].
    + split; [discriminate|]. split; [constructor; [intros []|exact F]|]. destruct (split_by (N.eqb 44) tag) as [|p ps] eqn:S; [congruence|].
      cbn [join app] in *. f_equal. exact E.
    + destruct (split_by (N.eqb 44) tag) as [|p ps] eqn:S; [congruence|]. split; [discriminate|].
      split.
      * constructor; [|exact (Forall_inv_tail F)]. intros [H|H]; [congruence|]. exact (Forall_inv F H).
      * destruct ps; cbn [join app] in *; f_equal; exact E.
Qed.

Lemma comma_parts_unique ps ps' tag : comma_parts ps tag -> comma_parts ps' tag -> ps = ps'.
Proof. intros (N1 & F1 & E1) (N2 & F2 & E2). rewrite <- (split_join ps N1 F1), <- (split_join ps' N2 F2). congruence. Qed.

Lemma overwrite_ok a : forall ps, List.length ps <= List.length a -> overwrite a ps = Ok (ps ++ skipn (List.length ps) a).
Proof.
  induction a as [|x a IH]; intros [|p ps] L; cbn [overwrite List.length] in *; try reflexivity; [lia|].
  rewrite IH by lia. reflexivity.
Qed.

Lemma overwrite_long a : forall ps, List.length a < List.length ps -> overwrite a ps = Panic.
Proof.
  induction a as [|x a IH]; intros [|p ps] L; cbn [overwrite List.length] in *; try lia; [reflexivity|]. rewrite IH by lia. reflexivity.
Qed.

Lemma overwrite_pad ps : List.length ps <= 4 -> overwrite four_stars ps = Ok (pad4 ps).
Proof.
  intros L. rewrite overwrite_ok by exact L. unfold pad4. do 2 f_equal.
  destruct ps as [|? [|? [|? [|? [|? ps]]]]]; try reflexivity.
Qed.

Lemma pad4_length ps : List.length ps <= 4 -> List.length (pad4 ps) = 4.
Proof. intros L. unfold pad4. rewrite app_length, repeat_length. lia. Qed.

Lemma pad4_commas ps : Forall (fun p => ~ In 44%N p) ps -> Forall (fun p => ~ In 44%N p) (pad4 ps).
Proof.
  intros F. unfold pad4. apply Forall_app. split; [exact F|]. apply Forall_forall. intros x Hx. apply repeat_spec in Hx. subst. cbn. intros [H|[]]. discriminate.
Qed.

Lemma format_tag_ok tag ps : comma_parts ps tag -> List.length ps <= 4 -> format_tag tag = Ok (join [44%N] (pad4 ps)).
Proof.
  intros (N & F & E) L. unfold format_tag. subst tag. rewrite split_join by assumption. rewrite overwrite_pad by exact L. reflexivity.
Qed.

Lemma format_tag_long tag ps : comma_parts ps tag -> 4 < List.length ps -> format_tag tag = Panic.
Proof. intros (N & F & E) L. unfold format_tag. subst tag. rewrite split_join by assumption. rewrite overwrite_long by exact L. reflexivity. Qed.

Definition formatted (tag : str) : str := join [44%N] (pad4 (split_char 44%N tag)).

Lemma format_tags_ok tags : Forall short_tag tags -> format_tags tags = Ok (map formatted tags).
Proof.
  induction 1 as [|tag tags (ps & C & L) F IH]; cbn; [reflexivity|]. rewrite (format_tag_ok tag ps C L). cbn [bind].
  unfold format_tags in IH. rewrite IH. cbn [bind]. do 2 f_equal. unfold formatted. rewrite (comma_parts_unique _ _ _ C (split_parts tag)). reflexivity.
Qed.

Lemma format_tags_long tags tag ps : In tag tags -> comma_parts ps tag -> 4 < List.length ps -> format_tags tags = Panic.
Proof.
  intros I1 C L. unfold format_tags. induction tags as [|t tags IH]; [contradiction|]. cbn [mapM].
  destruct I1 as [<-|I1].
  - rewrite (format_tag_long t ps C L). reflexivity.
  - rewrite (IH I1). unfold format_tag. destruct (overwrite four_stars (split_char 44%N t)) as [a| |] eqn:E; cbn [bind]; try reflexivity.
    exfalso. revert E. generalize four_stars (split_char 44%N t). clear. induction l as [|x l IH]; intros [|p ps]; cbn; try discriminate.
    destruct (overwrite l ps) eqn:E; cbn; try discriminate. intros X. injection X as ->. eapply IH. exact E.
Qed.

Lemma pos_of_length d : d <> [] -> 1 <= List.length (pos_of d) <= 4.
Proof. intros NE. unfold pos_of. destruct (Nat.leb_spec 4 (List.length d)); rewrite firstn_length; destruct d; try congruence; cbn [List.length] in *; lia. Qed.

Lemma token_tag_ok tk : ft_details tk <> [] -> token_tag tk = Ok (join [44%N] (pad4 (pos_of (ft_details tk)))).
Proof.
  intros NE. unfold token_tag, pos_of. pose proof (pos_of_length (ft_details tk) NE) as L. unfold pos_of in L.
  destruct (Nat.leb_spec 4 (List.length (ft_details tk))) as [H|H].
  - unfold slice. rewrite (proj2 (Nat.leb_le 4 _) H). cbn [Nat.leb andb bind skipn Nat.sub].
    rewrite overwrite_pad by lia. reflexivity.
  - unfold slice. cbn [Nat.leb andb]. destruct (ft_details tk) as [|d ds]; [congruence|]. cbn [List.length Nat.leb bind skipn Nat.sub].
    rewrite overwrite_pad by (rewrite firstn_length; lia). reflexivity.
Qed.

Fixpoint commas (s : str) : nat := match s with [] => 0 | c :: r => (if (c =? 44)%N then 1 else 0) + commas r end.
Lemma commas_app a b : commas (a ++ b) = commas a + commas b.
Proof. induction a as [|c a IH]; cbn; [reflexivity|]. rewrite IH. lia. Qed.
Lemma commas_none s : ~ In 44%N s <-> commas s = 0.
Proof.
  induction s as [|c s IH]; cbn; [tauto|]. destruct (N.eqb_spec c 44) as [->|N]; [split; [intros H; exfalso; apply H; auto|discriminate]|].
  rewrite Nat.add_0_l. rewrite <- IH. split; [intros H K; apply H; auto|intros H [K|K]; [congruence|auto]].
Qed.
Lemma commas_join ps : commas (join [44%N] ps) = (List.length ps - 1) + sum (map commas ps).
Proof.
  induction ps as [|p ps IH]; [reflexivity|]. destruct ps as [|q ps]; [cbn; lia|].
  change (join [44%N] (p :: q :: ps)) with (p ++ [44%N] ++ join [44%N] (q :: ps)). rewrite !commas_app, IH. cbn. lia.
Qed.

(* equal joins of four parts are equal lists if one of them has no further commas *)
Lemma join_inj (ps qs : list str) : List.length ps = List.length qs -> ps <> [] -> Forall (fun p => ~ In 44%N p) ps -> join [44%N] ps = join [44%N] qs -> ps = qs.
Proof.
  intros L N F E.
  assert (C : sum (map commas qs) = 0).
  { assert (X : commas (join [44%N] ps) = commas (join [44%N] qs)) by congruence. rewrite !commas_join, L in X.
    assert (Y : sum (map commas ps) = 0).
    { clear - F. induction F as [|p ps Hp F IH]; cbn; [reflexivity|]. apply commas_none in Hp. unfold sum in IH. lia. }
    lia. }
  assert (F' : Forall (fun p => ~ In 44%N p) qs).
  { clear - C. induction qs as [|q qs IH]; constructor; cbn in C; fold (sum (map commas qs)) in C; [apply commas_none; lia|apply IH; lia]. }
  assert (N' : qs <> []) by (intros ->; destruct ps; [congruence|discriminate]).
  rewrite <- (split_join ps N F), <- (split_join qs N' F'). congruence.
Qed.

Lemma contains_tag tags tk : Forall short_tag tags -> ft_details tk <> [] ->
  contains (map formatted tags) (join [44%N] (pad4 (pos_of (ft_details tk)))) = true <-> has_tag tags tk.
Proof.
  intros F NE. rewrite contains_in, in_map_iff. unfold has_tag, tag_matches. rewrite Forall_forall in F. split.
  - intros (tag & E & I1). exists tag. split; [exact I1|]. exists (split_char 44%N tag). split; [apply split_parts|].
    destruct (F tag I1) as (ps & C & L). unfold formatted in E. rewrite <- (comma_parts_unique _ _ _ C (split_parts tag)) in *.
    apply join_inj; [|..|exact E].
    + rewrite !pad4_length; [reflexivity|apply pos_of_length; exact NE|exact L].
    + destruct C as (N & _). destruct ps; [congruence|discriminate].
    + apply pad4_commas. apply C.
  - intros (tag & I1 & ps & C & E). exists tag. split; [|exact I1]. unfold formatted. rewrite <- (comma_parts_unique _ _ _ C (split_parts tag)), E. reflexivity.
Qed.

Lemma keep_tags_selected tags ts : Forall short_tag tags -> Forall (fun tk => ft_details tk <> []) ts ->
  exists fts out, format_tags tags = Ok fts /\ japanese_keep_tags_apply fts ts = Ok out /\ selected (has_tag tags) ts out.
Proof.
  intros F D. exists (map formatted tags).
  destruct (retain_selected (fun tk => do t <- token_tag tk; Ok (contains (map formatted tags) t)) (has_tag tags) ts) as (out & E & S).
  - intros tk I1. rewrite Forall_forall in D. rewrite (token_tag_ok tk (D tk I1)). eexists. split; [reflexivity|]. apply contains_tag; auto.
  - exists out. split; [apply format_tags_ok; exact F|]. auto.
Qed.

Lemma stop_tags_selected tags ts : Forall short_tag tags -> Forall (fun tk => ft_details tk <> []) ts ->
  exists fts out, format_tags tags = Ok fts /\ japanese_stop_tags_apply fts ts = Ok out /\ selected (fun tk => ~ has_tag tags tk) ts out.
Proof.
  intros F D. exists (map formatted tags).
  destruct (retain_selected (fun tk => do t <- token_tag tk; Ok (negb (contains (map formatted tags) t))) (fun tk => ~ has_tag tags tk) ts) as (out & E & S).
  - intros tk I1. rewrite Forall_forall in D. rewrite (token_tag_ok tk (D tk I1)). eexists. split; [reflexivity|].
    rewrite negb_true_iff, <- (contains_tag tags tk F (D tk I1)). destruct (contains _ _); intuition congruence.
  - exists out. split; [apply format_tags_ok; exact F|]. auto.
Qed.

Lemma korean_tags_selected tags ts : Forall (fun tk => ft_details tk <> []) ts ->
  exists kept stopped, korean_keep_tags_apply tags ts = Ok kept /\ korean_stop_tags_apply tags ts = Ok stopped /\
    selected (fun tk => exists d r, ft_details tk = d :: r /\ In d tags) ts kept /\
    selected (fun tk => ~ exists d r, ft_details tk = d :: r /\ In d tags) ts stopped.
Proof.
  intros D. rewrite Forall_forall in D.
  destruct (retain_selected (fun tk => do d <- idx (ft_details tk) 0; Ok (contains tags d)) (fun tk => exists d r, ft_details tk = d :: r /\ In d tags) ts) as (kept & E1 & S1).
  { intros tk I1. specialize (D tk I1). destruct (ft_details tk) as [|d r]; [congruence|]. eexists. split; [reflexivity|]. rewrite contains_in.
    split; [intros H; exists d, r; auto|intros (d' & r' & E & H); injection E as -> ->; exact H]. }
  destruct (retain_selected (fun tk => do d <- idx (ft_details tk) 0; Ok (negb (contains tags d))) (fun tk => ~ exists d r, ft_details tk = d :: r /\ In d tags) ts) as (stopped & E2 & S2).
  { intros tk I1. specialize (D tk I1). destruct (ft_details tk) as [|d r]; [congruence|]. eexists. split; [reflexivity|].
    assert (X : (exists d' r', d :: r = d' :: r' /\ In d' tags) <-> contains tags d = true).
    { rewrite contains_in. split; [intros (d' & r' & E & H); injection E as -> ->; exact H|intros H; exists d, r; auto]. }
    rewrite X, negb_true_iff. destruct (contains tags d); intuition congruence. }
  exists kept, stopped. auto.
Qed.

(** * Compound words *)

Lemma compound_config_ok kind tags new_tag : Forall short_tag tags -> (forall t, new_tag = Some t -> short_tag t) ->
  compound_config_new kind tags new_tag = Ok (CompoundConfig kind (map formatted tags) (option_map formatted new_tag)).
Proof.
  intros F N. unfold compound_config_new. rewrite (format_tags_ok tags F). cbn [bind]. destruct new_tag as [t|]; [|reflexivity].
  destruct (N t eq_refl) as (ps & C & L). rewrite (format_tag_ok t ps C L). cbn [bind option_map]. unfold formatted.
  rewrite <- (comma_parts_unique _ _ _ C (split_parts t)). reflexivity.
Qed.

Lemma concat_details kind tags new_tag t1 t2 : (forall t, new_tag = Some t -> short_tag t) ->
  concat_token (CompoundConfig kind tags (option_map formatted new_tag)) t1 t2 =
  Ok (FToken (ft_text t1 ++ ft_text t2) (ft_start t1) (ft_end t2) (ft_position t1)
             (ft_position_length t1 + ft_position_length t2) (ft_word t1) (new_details kind (option_map (split_char 44%N) new_tag))).
Proof.
  intros N. unfold concat_token. cbn [cc_new_tag cc_kind]. destruct new_tag as [t|]; cbn [option_map new_details]; [|destruct kind; reflexivity].
  destruct (N t eq_refl) as (ps & C & L). unfold formatted.
  rewrite <- (comma_parts_unique _ _ _ C (split_parts t)). pose proof (pad4_length ps L) as P4. destruct C as (NE & F & E).
  rewrite split_join; [|destruct ps; [congruence|discriminate]|apply pad4_commas; exact F].
  rewrite overwrite_ok by (rewrite P4; destruct kind; cbn; lia). rewrite P4. cbn [bind]. do 2 f_equal. destruct kind; reflexivity.
Qed.

Lemma last_app_one {A} (l : list A) x d : last (l ++ [x]) d = x.
Proof. induction l as [|y l IH]; [reflexivity|]. cbn [app]. destruct (l ++ [x]) eqn:E; [destruct l; discriminate|]. exact IH. Qed.

Lemma sum_app a b : sum (a ++ b) = sum a + sum b.
Proof. unfold sum. induction a as [|x a IH]; cbn; [reflexivity|]. rewrite IH. lia. Qed.

Lemma extend_run details run t u : compound_of details run t ->
  compound_of details (run ++ [u]) (FToken (ft_text t ++ ft_text u) (ft_start t) (ft_end u) (ft_position t)
             (ft_position_length t + ft_position_length u) (ft_word t) details).
Proof.
  intros C. destruct run as [|a run]; [contradiction|]. destruct run as [|b run].
  - cbn in C. subst t. cbn [app compound_of]. cbn. rewrite !app_nil_r. repeat split. lia.
  - destruct C as (C1 & C2 & C3 & C4 & C5 & C6 & C7). cbn [app compound_of].
    cbn [ft_text ft_start ft_end ft_position ft_position_length ft_word ft_details].
    change (a :: b :: run ++ [u]) with ((a :: b :: run) ++ [u]). rewrite last_app_one, flat_map_app, map_app, sum_app, C1, C5.
    cbn [flat_map]. rewrite app_nil_r. repeat split; auto. cbn. lia.
Qed.

Lemma compound_loop_spec kind tags new_tag : Forall short_tag tags -> (forall t, new_tag = Some t -> short_tag t) ->
  let cfg := CompoundConfig kind (map formatted tags) (option_map formatted new_tag) in
  forall ts, Forall (fun tk => ft_details tk <> []) ts ->
  (exists out, compound_loop cfg ts None = Ok out /\ compounded (has_tag tags) (new_details kind (option_map (split_char 44%N) new_tag)) ts out) /\
  (forall run t, Forall (has_tag tags) run -> compound_of (new_details kind (option_map (split_char 44%N) new_tag)) run t ->
    exists out, compound_loop cfg ts (Some t) = Ok out /\ compounded (has_tag tags) (new_details kind (option_map (split_char 44%N) new_tag)) (run ++ ts) out).
Proof.
  intros F N cfg. induction 1 as [|tk ts D Ds [IH1 IH2]]; cbn [compound_loop].
  - split.
    + exists []. split; [reflexivity|constructor].
    + intros run t FR C. exists [t]. split; [reflexivity|]. apply compounded_run; auto. constructor.
  - rewrite (token_tag_ok tk D). cbn [bind]. pose proof (contains_tag tags tk F D) as CT. subst cfg. cbn [cc_tags].
    destruct (contains (map formatted tags) (join [44%N] (pad4 (pos_of (ft_details tk))))).
    + assert (H : has_tag tags tk) by (apply CT; reflexivity). split.
      * destruct (IH2 [tk] tk) as (out & E & C); [repeat constructor; exact H|reflexivity|]. exists out. auto.
      * intros run t FR C. rewrite concat_details by exact N. cbn [bind].
        destruct (IH2 (run ++ [tk]) _ ltac:(apply Forall_app; auto) (extend_run _ run t tk C)) as (out & E & C'). exists out. rewrite <- app_assoc in C'. auto.
    + assert (H : ~ has_tag tags tk) by (intros H; apply CT in H; discriminate). destruct IH1 as (out & E & C). rewrite E. cbn [bind]. split.
      * exists (tk :: out). split; [reflexivity|]. constructor; auto.
      * intros run t FR CR. exists (t :: tk :: out). split; [reflexivity|]. apply compounded_run; auto. constructor; auto.
Qed.

Lemma compound_spec kind tags new_tag ts : Forall short_tag tags -> (forall t, new_tag = Some t -> short_tag t) ->
  Forall (fun tk => ft_details tk <> []) ts ->
  exists cfg out, compound_config_new kind tags new_tag = Ok cfg /\ compound_apply cfg ts = Ok out /\
    compounded (has_tag tags) (new_details kind (option_map (split_char 44%N) new_tag)) ts out.
Proof.
  intros F N D. eexists. destruct (proj1 (compound_loop_spec kind tags new_tag F N ts D)) as (out & E & C). exists out.
  split; [apply compound_config_ok; assumption|]. split; [exact E|exact C].
Qed.

Lemma compound_of_totals details run t : compound_of details run t ->
  ft_text t = flat_map ft_text run /\ ft_position_length t = sum (map ft_position_length run).
Proof.
  destruct run as [|a [|b run]]; [contradiction|cbn; intros ->; rewrite app_nil_r; split; [reflexivity|lia]|]. intros (C1 & _ & _ & _ & C5 & _). auto.
Qed.

Lemma compounded_totals P details ts out : compounded P details ts out ->
  flat_map ft_text out = flat_map ft_text ts /\ sum (map ft_position_length out) = sum (map ft_position_length ts).
Proof.
  induction 1 as [|t r out NP C [IH1 IH2]|run t r out F CO B C [IH1 IH2]]; [auto| |].
  - cbn [flat_map map]. unfold sum in *. cbn [fold_right]. rewrite IH1, IH2. auto.
  - destruct (compound_of_totals _ _ _ CO) as [T1 T2]. rewrite flat_map_app, map_app, sum_app. cbn [flat_map map]. unfold sum at 1. cbn [fold_right].
    fold (sum (map ft_position_length out)). rewrite T1, T2, IH1, IH2. auto.
Qed.

(** * Text filters *)

Lemma map_texts_only f ts out : map_texts f ts = Ok out -> Forall2 only_text ts out /\ Forall2 (fun tk tk' => f tk = Ok (ft_text tk')) ts out.
Proof.
  unfold map_texts. revert out. induction ts as [|tk ts IH]; intros out E; cbn [mapM] in E.
  - injection E as <-. auto.
  - destruct (f tk) as [t| |] eqn:Ef; try discriminate. cbn [bind] in E.
    destruct (mapM (fun tk => do t <- f tk; Ok (set_ft_text tk t)) ts) as [r| |]; try discriminate. cbn [bind] in E. injection E as <-.
    destruct (IH r eq_refl) as [A B]. split; constructor; auto. reflexivity.
Qed.

Lemma map_texts_ok f g ts : (forall tk, In tk ts -> f tk = Ok (g tk)) -> map_texts f ts = Ok (map (fun tk => set_ft_text tk (g tk)) ts).
Proof.
  unfold map_texts. induction ts as [|tk ts IH]; intros H; cbn [mapM map]; [reflexivity|]. rewrite H by (left; reflexivity). cbn [bind].
  rewrite IH by (intros x Hx; apply H; right; exact Hx). reflexivity.
Qed.

Lemma map_text_loop_spec m f : mapping_keys_ok m -> mapping_new m = Ok f -> forall fuel text result, valid_str text -> List.length text <= fuel ->
  exists out segs, map_text_loop fuel f text result = Some (Ok (result ++ out)) /\ replaced m text out segs.
Proof.
  intros K NF fuel text result V L. assert (EF : f = MappingFilter m (mapping_keyset m)).
  { assert (X : Ok (MappingFilter m (mapping_keyset m)) = Ok f) by exact NF. congruence. }
  assert (G : forall fuel text start result st, map_text_loop fuel f text result =
    match mapping_loop fuel f text start result st with
    | Some (Ok (out, _, _)) => Some (Ok out) | Some (Err k) => Some (Err k) | Some Panic => Some Panic | None => None end).
  { clear. induction fuel as [|fuel IH]; intros text start result st; destruct text as [|c r]; cbn [map_text_loop mapping_loop]; try reflexivity.
    destruct (last_error (common_prefix_search (mf_trie f) (utf8 (c :: r)))) as [[v n]|]; [|apply IH].
    destruct (str_to (c :: r) n); [|reflexivity|reflexivity]. destruct (str_from (c :: r) n); [|reflexivity|reflexivity].
    destruct (map_index (mf_mapping f) a); try reflexivity. apply IH. }
  destruct (mapping_loop_spec m f K EF fuel text 0%N result ([], []) V L) as (out & segs & st' & e & E1 & E2 & _).
  exists out, segs. rewrite (G fuel text 0%N result ([], [])), E1. auto.
Qed.

Lemma mapping_tokens_spec m f ts : mapping_keys_ok m -> mapping_new m = Ok f -> Forall (fun tk => valid_str (ft_text tk)) ts ->
  exists out, mapping_tokens f ts = Some (Ok out) /\ Forall2 only_text ts out /\
    Forall2 (fun tk tk' => exists segs, replaced m (ft_text tk) (ft_text tk') segs) ts out.
Proof.
  intros K NF. induction 1 as [|tk ts V F (out & E & A & B)]; cbn [mapping_tokens].
  - exists []. auto.
  - destruct (map_text_loop_spec m f K NF (List.length (ft_text tk)) (ft_text tk) [] V (le_n _)) as (t & segs & Et & R). rewrite Et, E.
    exists (set_ft_text tk t :: out). split; [reflexivity|]. split; constructor; auto; [reflexivity|]. exists segs. exact R.
Qed.

(** * Reading and base forms *)

Lemma detail_filter_spec index ts : Forall (details_cover index) ts ->
  exists out, map_texts (detail_text index) ts = Ok out /\ Forall2 (detail_result index) ts out.
Proof.
  induction 1 as [|tk ts [NE L] F (out & E & R)]; [exists []; split; [reflexivity|constructor]|].
  unfold map_texts in *. cbn [mapM].
  assert (X : exists t, detail_text index tk = Ok t /\ detail_result index tk (set_ft_text tk t)).
  { unfold detail_text, unknown_detail, detail_result. destruct (ft_details tk) as [|d ds] eqn:ED; [congruence|]. cbn [idx nth_error bind hd] in *.
    destruct (str_eqb d (lit "UNK")) eqn:U.
    - apply str_eqb_spec in U. exists (ft_text tk). split; [reflexivity|]. split; [reflexivity|]. destruct index; [|reflexivity]. split; [reflexivity|congruence].
    - assert (N : d <> lit "UNK") by (intros ->; rewrite str_eqb_refl in U; discriminate).
      destruct L as [L|L]; [congruence|]. destruct index as [i|].
      + specialize (L i eq_refl). destruct (nth_error (d :: ds) i) as [t|] eqn:Ei; [|apply nth_error_None in Ei; lia].
        exists t. unfold idx. rewrite Ei. split; [reflexivity|]. split; [unfold only_text, set_ft_text; cbn; reflexivity|]. split; [congruence|]. intros _. reflexivity.
      + exists (ft_text tk). split; [reflexivity|]. split; reflexivity. }
  destruct X as (t & Et & Rt). rewrite Et. cbn [bind]. rewrite E. cbn [bind]. eexists. split; [reflexivity|]. constructor; auto.
Qed.

Lemma user_details_long k r ds : user_details (kind_user_options k) r = Ok ds ->
  (forall i, reading_place k = Some i -> i < List.length ds) /\ (forall i, base_place k = Some i -> i < List.length ds) /\ 3 < List.length ds.
Proof.
  unfold user_details. cbn [kind_user_options uo_simple_fields uo_handler uo_detailed_fields is_simple]. intros H.
  assert (L : detailed_fields k - 4 <= List.length ds).
  { unfold is_simple in H. cbn [kind_user_options uo_simple_fields uo_handler uo_detailed_fields] in H.
    destruct (Nat.eqb (List.length r) 3).
    - unfold simple_details, field in H. destruct (idx r 1) as [f1| |]; try discriminate. cbn [bind] in H.
      destruct k; repeat match type of H with context [idx r ?i] => destruct (idx r i) as [?| |]; try discriminate; cbn [bind] in H end; injection H as <-; cbn; lia.
    - destruct (Nat.leb_spec (detailed_fields k) (List.length r)); [|discriminate]. assert (X : ds = skipn 4 r) by (unfold slice_from in H; congruence). rewrite X, skipn_length. lia. }
  repeat match goal with |- _ /\ _ => split end; try intros i E; destruct k; try discriminate E; try injection E as <-; cbn in *; lia.
Qed.

(** * Katakana *)

Lemma is_katakana_spec fb text : blocks_ok fb -> Forall (fun c => fb c <> None) text ->
  exists b, is_katakana fb text = Ok b /\ (b = true <-> Forall in_katakana text).
Proof.
  intros [B1 B2]. induction 1 as [|c text N F (b & E & IH)]; cbn [is_katakana]; [exists true; split; [reflexivity|]; split; auto|].
  destruct (fb c) as [bl|] eqn:EB; [|congruence].
  destruct (block_eqb bl KATAKANA) eqn:Q.
  - unfold block_eqb, KATAKANA in Q. rewrite andb_true_iff, !N.eqb_eq in Q. cbn [fst snd] in Q. destruct Q as [Q1 Q2]. exists b. split; [exact E|]. rewrite IH. split.
    + intros H. constructor; [|exact H]. specialize (B1 _ _ EB). unfold in_katakana. rewrite Q1, Q2 in B1. exact B1.
    + intros H. exact (Forall_inv_tail H).
  - exists false. split; [reflexivity|]. split; [discriminate|]. intros H. exfalso. pose proof (Forall_inv H) as K. rewrite (B2 _ K) in EB. injection EB as <-. discriminate.
Qed.

Lemma ends_with_char_spec s c : ends_with_char s c = true <-> exists body, s = body ++ [c].
Proof.
  unfold ends_with_char. destruct (rev s) as [|x r] eqn:E.
  - split; [discriminate|]. intros (b & ->). rewrite rev_app_distr in E. discriminate.
  - rewrite N.eqb_eq. split.
    + intros ->. exists (rev r). rewrite <- (rev_involutive s), E. reflexivity.
    + intros (b & ->). rewrite rev_app_distr in E. injection E as <- _. reflexivity.
Qed.

Lemma stem_spec fb min text : blocks_ok fb -> Forall (fun c => fb c <> None) text -> exists t, stem fb min text = Ok t /\ stemmed min text t.
Proof.
  intros B F. unfold stem. destruct (is_katakana_spec fb text B F) as (b & E & K). rewrite E. cbn [bind].
  destruct b; cbn [negb].
  - assert (KT : Forall in_katakana text) by (apply K; reflexivity).
    destruct (ends_with_char text PROLONGED_SOUND_MARK) eqn:W.
    + apply ends_with_char_spec in W. destruct W as (body & ->). cbn [andb].
      destruct (Nat.ltb_spec min (List.length (body ++ [PROLONGED_SOUND_MARK]))) as [L|L].
      * exists body. split.
        -- rewrite blen_app. change (blen [PROLONGED_SOUND_MARK]) with (width PROLONGED_SOUND_MARK). rewrite Nat.add_sub. apply str_to_app.
        -- split; [intros bd EB _ _; apply app_inj_tail in EB; destruct EB; auto|]. intros [H|[H|H]]; [exfalso; apply (H body); reflexivity|contradiction|lia].
      * eexists. split; [reflexivity|]. split; [intros; lia|reflexivity].
    + cbn [andb]. exists text. split; [reflexivity|]. split; [|reflexivity]. intros bd EB _ _. exfalso.
      assert (X : ends_with_char text PROLONGED_SOUND_MARK = true) by (apply ends_with_char_spec; exists bd; exact EB). congruence.
  - exists text. split; [reflexivity|]. split; [|reflexivity]. intros bd _ H _. apply K in H. discriminate.
Qed.

Lemma katakana_stem_spec fb min ts : blocks_ok fb -> Forall (fun tk => Forall (fun c => fb c <> None) (ft_text tk)) ts ->
  exists out, katakana_stem_apply fb min ts = Ok out /\ Forall2 (fun tk tk' => only_text tk tk' /\ stemmed min (ft_text tk) (ft_text tk')) ts out.
Proof.
  intros B. unfold katakana_stem_apply, map_texts. induction 1 as [|tk ts N F (out & E & R)]; cbn [mapM]; [exists []; split; [reflexivity|constructor]|].
  destruct (stem_spec fb min (ft_text tk) B N) as (t & Et & St). rewrite Et. cbn [bind]. rewrite E. cbn [bind]. eexists. split; [reflexivity|].
  constructor; [|exact R]. split; [reflexivity|exact St].
Qed.

Lemma katakana_stem_panics fb min tk ts a c b : ft_text tk = a ++ c :: b -> Forall (fun x => fb x = Some KATAKANA) a -> fb c = None ->
  katakana_stem_apply fb min (tk :: ts) = Panic.
Proof.
  intros E F N. unfold katakana_stem_apply, map_texts. cbn [mapM]. rewrite E. unfold stem.
  assert (X : is_katakana fb (a ++ c :: b) = Panic).
  { clear E. induction F as [|x a Hx F IH]; cbn [app is_katakana]; [rewrite N; reflexivity|]. rewrite Hx. exact IH. }
  rewrite X. reflexivity.
Qed.
