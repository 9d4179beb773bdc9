(** Lemmas about the configuration. *)
From Coq Require Import String.
From Coq Require Import List NArith ZArith Bool Lia ZifyBool ZifyNat ZifyN.
From Verif Require Import MBase MUtf8 MText MCodec MDict MLattice MTokenizer MBuild MCharFilter MAnalyzer MTokenFilter MConfig STokenFilter SConfig.
From Verif Require Import LBase LUtf8 LTokenFilter.
Import ListNotations.
Local Open Scope list_scope.

Lemma bind_ok {A B} (r : res A) (k : A -> res B) y : bind r k = Ok y <-> exists x, r = Ok x /\ k x = Ok y.
Proof. destruct r; cbn [bind]; split; try discriminate; try (intros [? [? ?]]; congruence); eauto. Qed.

Lemma bind_err {A B} (r : res A) (k : A -> res B) e : bind r k = Err e <-> r = Err e \/ exists x, r = Ok x /\ k x = Err e.
Proof.
  destruct r; cbn [bind]; split; try discriminate; intros H; try (destruct H as [H|[? [? ?]]]); try congruence; eauto.
  left; congruence.
Qed.

Lemma bind_panic {A B} (r : res A) (k : A -> res B) : bind r k = Panic <-> r = Panic \/ exists x, r = Ok x /\ k x = Panic.
Proof.
  destruct r; cbn [bind]; split; try discriminate; intros H; try (destruct H as [H|[? [? ?]]]); try congruence; eauto.
Qed.

Lemma ok_or_ok {A} (o : option A) k x : ok_or o k = Ok x <-> o = Some x.
Proof. destruct o; cbn; split; congruence. Qed.

Lemma mapM_ok {A B} (f : A -> res B) l : forall ys, mapM f l = Ok ys <-> Forall2 (fun x y => f x = Ok y) l ys.
Proof.
  induction l as [|x l IH]; intros ys; cbn [mapM].
  - split; [intros H; injection H as <-; constructor | intros H; inversion H; reflexivity].
  - rewrite bind_ok. split.
    + intros [y [H1 H2]]. apply bind_ok in H2. destruct H2 as [zs [H2 H3]]. injection H3 as <-. constructor; [exact H1|]. apply IH. exact H2.
    + intros H. inversion H as [|? y ? zs H1 H2]; subst. exists y. split; [exact H1|]. apply bind_ok. exists zs. split; [|reflexivity]. apply IH. exact H2.
Qed.

(** Objects *)

Lemma lookup_has {A} (fs : list (str * A)) k v : NoDup (map fst fs) -> lookup k fs = Some v <-> In (k, v) fs.
Proof.
  induction fs as [|[k' v'] fs IH]; cbn [lookup map fst]; intros ND.
  - split; [discriminate | intros []].
  - inversion ND as [|? ? N1 N2]; subst. destruct (str_eqb k k') eqn:E.
    + apply str_eqb_spec in E. subst k'. split.
      * intros H. injection H as ->. left. reflexivity.
      * intros [H|H]; [congruence|]. exfalso. apply N1. change k with (fst (k, v)). apply in_map. exact H.
    + rewrite IH by exact N2. split; [intros H; right; exact H|]. intros [H|H]; [|exact H].
      injection H as -> ->. rewrite str_eqb_refl in E. discriminate.
Qed.

Lemma lookup_lacks {A} (fs : list (str * A)) k : lookup k fs = None <-> ~ In k (map fst fs).
Proof.
  induction fs as [|[k' v'] fs IH]; cbn [lookup map fst].
  - split; [intros _ [] | reflexivity].
  - destruct (str_eqb k k') eqn:E.
    + apply str_eqb_spec in E. subst. split; [discriminate|]. intros H. exfalso. apply H. left. reflexivity.
    + rewrite IH. split; intros H; [intros [H1|H1]; [subst; rewrite str_eqb_refl in E; discriminate | exact (H H1)] | intros H1; apply H; right; exact H1].
Qed.

(** Deserialize *)

Lemma de_string_iff v s : de_string v = Ok s <-> means_string v s.
Proof. unfold de_string, means_string. rewrite ok_or_ok. destruct v; cbn; split; congruence. Qed.
Lemma de_bool_iff v b : de_bool v = Ok b <-> v = VBool b.
Proof. destruct v; cbn; split; congruence. Qed.
Lemma de_usize_iff v n : de_usize v = Ok n <-> means_size v n.
Proof.
  unfold means_size. destruct v as [| |z| | | |]; cbn [de_usize]; try (split; [discriminate | intros [H _]; discriminate]).
  destruct ((0 <=? z) && (z <? 2 ^ 64))%Z eqn:E; split.
  - intros H. injection H as <-. split; [f_equal; lia | lia].
  - intros [H1 H2]. injection H1 as ->. f_equal. lia.
  - discriminate.
  - intros [H1 H2]. injection H1 as ->. lia.
Qed.
Lemma de_i32_iff v z : de_i32 v = Ok z <-> means_i32 v z.
Proof.
  unfold means_i32. destruct v as [| |x| | | |]; cbn [de_i32]; try (split; [discriminate | intros [H _]; discriminate]).
  destruct ((- 2 ^ 31 <=? x) && (x <? 2 ^ 31))%Z eqn:E; split.
  - intros H. injection H as <-. split; [reflexivity | lia].
  - intros [H1 H2]. injection H1 as ->. reflexivity.
  - discriminate.
  - intros [H1 H2]. injection H1 as ->. lia.
Qed.
Lemma de_nonzero_iff v n : de_nonzero v = Ok n <-> means_size v n /\ (0 < n)%N.
Proof.
  unfold de_nonzero. rewrite bind_ok. split.
  - intros [m [H1 H2]]. apply de_usize_iff in H1. destruct (m =? 0)%N eqn:E; [discriminate|]. injection H2 as <-. split; [exact H1 | lia].
  - intros [H1 H2]. exists n. split; [apply de_usize_iff; exact H1|]. destruct (n =? 0)%N eqn:E; [lia | reflexivity].
Qed.
Lemma strings_of (f : value -> res str) : (forall v s, f v = Ok s <-> v = VStr s) ->
  forall l ss, mapM f l = Ok ss <-> l = map VStr ss.
Proof.
  intros F l ss. rewrite mapM_ok. split.
  - induction 1 as [|x y l ss H1 H2 IH]; cbn [map]; [reflexivity|]. apply F in H1. congruence.
  - intros ->. induction ss as [|s ss IH]; cbn [map]; constructor; [apply F; reflexivity | exact IH].
Qed.
Lemma de_strings_iff v l : de_strings v = Ok l <-> means_strings v l.
Proof.
  unfold means_strings. destruct v; cbn [de_strings]; try (split; discriminate).
  rewrite (strings_of de_string de_string_iff). split; congruence.
Qed.
Lemma de_map_iff v m : de_map v = Ok m <-> means_map v m.
Proof.
  unfold means_map. destruct v as [| | | | | |fs]; cbn [de_map]; try (split; discriminate).
  rewrite mapM_ok. split.
  - intros H. f_equal. induction H as [|[k x] [k' s] l ss H1 H2 IH]; cbn [map fst snd]; [reflexivity|].
    apply bind_ok in H1. destruct H1 as [s' [H1 H3]]. apply de_string_iff in H1. unfold means_string in H1. injection H3 as -> ->. congruence.
  - intros H. injection H as ->. induction m as [|[k s] m IH]; cbn [map fst snd]; constructor; [reflexivity | exact IH].
Qed.

Lemma de_enum_iff {A} (variant : str -> option A) table :
  (forall s x, variant s = Some x <-> In (s, x) table) -> forall v x, de_enum variant v = Ok x <-> means_name table v x.
Proof.
  intros T v x. unfold means_name.
  destruct v as [| | | |s| |fs]; cbn [de_enum];
    try (split; [discriminate | intros [s' [_ [H|H]]]; discriminate]).
  - rewrite ok_or_ok, T. split; [intros H; exists s; auto | intros [s' [H1 [H2|H2]]]; [congruence | discriminate]].
  - destruct fs as [|[s w] [|f2 fs]]; try destruct w; try (split; [discriminate | intros [s' [_ [H|H]]]; discriminate]).
    rewrite ok_or_ok, T. split; [intros H; exists s; auto | intros [s' [H1 [H2|H2]]]; [discriminate | congruence]].
Qed.

Ltac table_lemma := intros s x; split;
  [ repeat match goal with |- context [if str_eqb s ?l then _ else _] =>
      let E := fresh "E" in destruct (str_eqb s l) eqn:E; [apply str_eqb_spec in E; intros H; injection H as <-; subst; cbn [In]; tauto|clear E] end;
    intros H; discriminate
  | cbn [In]; intros H; repeat destruct H as [H|H]; try contradiction; injection H as <- <-; reflexivity].

Lemma kind_variant_iff : forall s x, kind_variant s = Some x <-> In (s, x) kind_names.
Proof. unfold kind_variant, kind_names. table_lemma. Qed.
Lemma form_variant_iff : forall s x, form_variant s = Some x <-> In (s, x) form_names.
Proof. unfold form_variant, form_names. table_lemma. Qed.
Lemma kana_variant_iff : forall s x, kana_variant s = Some x <-> In (s, x) kana_names.
Proof. unfold kana_variant, kana_names. table_lemma. Qed.

Lemma kind_from_str_iff : forall s x, kind_from_str s = Ok x <-> In (s, x) kind_names.
Proof. unfold kind_from_str, kind_names. table_lemma. Qed.
Lemma mode_from_str_iff : forall s x, mode_from_str s = Ok x <-> In (s, x) mode_names.
Proof. unfold mode_from_str, mode_names. table_lemma. Qed.
Lemma format_from_str_iff : forall s x, format_from_str s = Ok x <-> In (s, x) format_names.
Proof. unfold format_from_str, format_names. table_lemma. Qed.

Ltac names_or_error := intros s; repeat match goal with |- context [if str_eqb s ?l then _ else _] => destruct (str_eqb s l) end;
  first [left; eexists; reflexivity | right; reflexivity].
Lemma kind_from_str_total : forall s, (exists x, kind_from_str s = Ok x) \/ kind_from_str s = Err EDictionaryKind.
Proof. unfold kind_from_str. names_or_error. Qed.
Lemma mode_from_str_total : forall s, (exists x, mode_from_str s = Ok x) \/ mode_from_str s = Err EMode.
Proof. unfold mode_from_str. names_or_error. Qed.
Lemma format_from_str_total : forall s, (exists x, format_from_str s = Ok x) \/ format_from_str s = Err EArgs.
Proof. unfold format_from_str. names_or_error. Qed.

Lemma required_iff {A} (de : value -> res A) (means : value -> A -> Prop) fs k :
  (forall v x, de v = Ok x <-> means v x) -> NoDup (map fst fs) ->
  forall x, required de (lookup k fs) = Ok x <-> exists v, In (k, v) fs /\ means v x.
Proof.
  intros D ND x. unfold required. destruct (lookup k fs) as [v|] eqn:E.
  - apply lookup_has in E; [|exact ND]. rewrite D. split; [intros H; exists v; auto|].
    intros [w [H1 H2]]. apply lookup_has in E; [|exact ND]. apply lookup_has in H1; [|exact ND]. congruence.
  - apply lookup_lacks in E. split; [discriminate|]. intros [v [H _]]. exfalso. apply E. change k with (fst (k, v)). apply in_map. exact H.
Qed.

Lemma optional_iff {A} (de : value -> res A) (means : value -> A -> Prop) fs k :
  (forall v x, de v = Ok x <-> means v x) -> (forall x, ~ means VNull x) -> NoDup (map fst fs) ->
  forall o, optional de (lookup (lit k) fs) = Ok o <-> maybe means fs k o.
Proof.
  intros D N ND o. unfold optional, maybe, has, lacks. destruct (lookup (lit k) fs) as [v|] eqn:E.
  - pose proof E as L. apply lookup_has in E; [|exact ND].
    assert (U : forall w, In (lit k, w) fs -> w = v) by (intros w H; apply lookup_has in H; [congruence | exact ND]).
    assert (P : In (lit k) (map fst fs)) by (change (lit k) with (fst (lit k, v)); apply in_map; exact E).
    unfold de_option. destruct o as [x|].
    + destruct v; split; try discriminate; try (intros H; apply bind_ok in H; destruct H as [y [H1 H2]]; injection H2 as <-; apply D in H1; eauto; fail);
        intros [w [H1 H2]]; apply U in H1; subst w; try (exfalso; exact (N x H2)); apply bind_ok; exists x; (split; [apply D; exact H2 | reflexivity]).
    + destruct v; split; try (intros _; left; exact E); try reflexivity; try (intros H; apply bind_ok in H; destruct H as [y [_ H2]]; discriminate);
        intros [H|H]; try (apply U in H; discriminate); contradiction.
  - apply lookup_lacks in E. destruct o as [x|]; split; try discriminate; try (intros _; right; exact E); try reflexivity.
    intros [w [H _]]. exfalso. apply E. change (lit k) with (fst (lit k, w)). apply in_map. exact H.
Qed.

Lemma Forall2_weaken {A B} (P Q : A -> B -> Prop) l l' : (forall x y, P x y -> Q x y) -> Forall2 P l l' -> Forall2 Q l l'.
Proof. intros H. induction 1; constructor; auto. Qed.

Lemma format_tag_iff tag t : format_tag tag = Ok t <-> formatted_as tag t.
Proof.
  unfold formatted_as. split.
  - intros H. pose proof (split_parts tag) as P. exists (split_char 44%N tag). split; [exact P|].
    destruct (Nat.leb (List.length (split_char 44%N tag)) 4) eqn:E.
    + apply Nat.leb_le in E. rewrite (format_tag_ok tag _ P E) in H. injection H as <-. auto.
    + apply Nat.leb_gt in E. rewrite (format_tag_long tag _ P E) in H. discriminate.
  - intros [ps [H1 [H2 ->]]]. apply format_tag_ok; assumption.
Qed.
Lemma format_tags_iff tags ts : format_tags tags = Ok ts <-> Forall2 formatted_as tags ts.
Proof.
  unfold format_tags. rewrite mapM_ok. split; intros H; (eapply Forall2_weaken; [|exact H]); intros a b; apply format_tag_iff.
Qed.
Lemma format_tag_panic tag : format_tag tag = Panic <-> long_tag tag.
Proof.
  unfold long_tag. split.
  - intros H. pose proof (split_parts tag) as P. exists (split_char 44%N tag). split; [exact P|].
    destruct (Nat.leb (List.length (split_char 44%N tag)) 4) eqn:E; [|apply Nat.leb_gt; exact E].
    apply Nat.leb_le in E. rewrite (format_tag_ok tag _ P E) in H. discriminate.
  - intros [ps [H1 H2]]. apply (format_tag_long tag ps); assumption.
Qed.
Lemma format_tag_no_err tag e : format_tag tag <> Err e.
Proof.
  pose proof (split_parts tag) as P. destruct (Nat.leb (List.length (split_char 44%N tag)) 4) eqn:E.
  - apply Nat.leb_le in E. rewrite (format_tag_ok tag _ P E). discriminate.
  - apply Nat.leb_gt in E. rewrite (format_tag_long tag _ P E). discriminate.
Qed.
Lemma mapM_no_err {A B} (f : A -> res B) l e : (forall x, f x <> Err e) -> mapM f l <> Err e.
Proof.
  intros F. induction l as [|x l IH]; cbn [mapM]; [discriminate|]. intros H. apply bind_err in H. destruct H as [H|[y [_ H]]]; [exact (F x H)|].
  apply bind_err in H. destruct H as [H|[ys [_ H]]]; [exact (IH H) | discriminate].
Qed.
Lemma mapM_panic {A B} (f : A -> res B) l : (forall x e, f x <> Err e) -> mapM f l = Panic <-> Exists (fun x => f x = Panic) l.
Proof.
  intros F. induction l as [|x l IH]; cbn [mapM].
  - split; [discriminate | intros H; inversion H].
  - rewrite bind_panic. split.
    + intros [H|[y [_ H]]]; [left; exact H|]. right. apply IH. apply bind_panic in H. destruct H as [H|[? [_ H]]]; [exact H | discriminate].
    + intros H. inversion H as [? ? H1|? ? H1]; subst; [left; exact H1|]. destruct (f x) as [y|e|] eqn:E; [|exfalso; exact (F x e E)|left; reflexivity].
      right. exists y. split; [reflexivity|]. apply bind_panic. left. apply IH. exact H1.
Qed.
Lemma format_tags_panic tags : format_tags tags = Panic <-> exists tag, In tag tags /\ long_tag tag.
Proof.
  unfold format_tags. rewrite mapM_panic by (intros; apply format_tag_no_err). rewrite Exists_exists.
  split; intros [x [H1 H2]]; exists x; (split; [exact H1 | apply format_tag_panic; exact H2]).
Qed.

(** ** Loaders *)

Ltac lits := repeat match goal with |- context [str_eqb (lit ?a) (lit ?b)] =>
  let r := eval vm_compute in (str_eqb (lit a) (lit b)) in change (str_eqb (lit a) (lit b)) with r end; cbv iota.

Lemma kind_config_iff fs k : NoDup (map fst fs) ->
  kind_config_from_value (VObj fs) = Ok k <-> exists v, has fs "kind" v /\ means_name kind_names v k.
Proof. intros ND. apply (required_iff (de_enum kind_variant) _ fs _ (de_enum_iff _ _ kind_variant_iff) ND). Qed.
Lemma kana_config_iff fs k : NoDup (map fst fs) ->
  kana_config_from_value (VObj fs) = Ok k <-> exists v, has fs "kind" v /\ means_name kana_names v k.
Proof. intros ND. apply (required_iff (de_enum kana_variant) _ fs _ (de_enum_iff _ _ kana_variant_iff) ND). Qed.
Lemma normalize_config_iff fs k : NoDup (map fst fs) ->
  normalize_config_from_value (VObj fs) = Ok k <-> exists v, has fs "kind" v /\ means_name form_names v k.
Proof. intros ND. apply (required_iff (de_enum form_variant) _ fs _ (de_enum_iff _ _ form_variant_iff) ND). Qed.
Lemma words_config_iff fs l : NoDup (map fst fs) ->
  words_config_from_value (VObj fs) = Ok l <-> exists v, has fs "words" v /\ means_strings v l.
Proof. intros ND. apply (required_iff de_strings _ fs _ de_strings_iff ND). Qed.
Lemma korean_tags_config_iff fs l : NoDup (map fst fs) ->
  korean_tags_config_from_value (VObj fs) = Ok l <-> exists v, has fs "tags" v /\ means_strings v l.
Proof. intros ND. apply (required_iff de_strings _ fs _ de_strings_iff ND). Qed.
Lemma mapping_config_iff fs m : NoDup (map fst fs) ->
  mapping_config_from_value (VObj fs) = Ok m <-> exists v, has fs "mapping" v /\ means_map v m.
Proof. intros ND. apply (required_iff de_map _ fs _ de_map_iff ND). Qed.

Lemma size_not_null : forall n, ~ means_size VNull n.
Proof. intros n [E _]. discriminate. Qed.
Lemma string_not_null : forall s, ~ means_string VNull s.
Proof. intros s E. discriminate. Qed.
Lemma name_not_null {A} (table : list (str * A)) : forall x, ~ means_name table VNull x.
Proof. intros x [s [_ [E|E]]]; discriminate. Qed.

Lemma length_config_iff fs a b : NoDup (map fst fs) ->
  length_config_from_value (VObj fs) = Ok (a, b) <-> maybe means_size fs "min" a /\ maybe means_size fs "max" b.
Proof.
  intros ND. unfold length_config_from_value, de_struct2. cbn [de_struct map bind].
  pose proof (optional_iff _ _ fs "min" de_usize_iff size_not_null ND) as M1.
  pose proof (optional_iff _ _ fs "max" de_usize_iff size_not_null ND) as M2.
  rewrite <- M1, <- M2, bind_ok. split.
  - intros [x [H1 H2]]. apply bind_ok in H2. destruct H2 as [y [H2 H3]].
    assert (x = a) by congruence. assert (y = b) by congruence. subst. auto.
  - intros [H1 H2]. exists a. split; [exact H1|]. apply bind_ok. exists b. auto.
Qed.

Lemma stem_config_iff fs n : NoDup (map fst fs) ->
  stem_config_from_value (VObj fs) = Ok n <-> (exists v, has fs "min" v /\ means_size v n /\ (0 < n)%N) \/ (lacks fs "min" /\ n = 3%N).
Proof.
  intros ND. cbn [stem_config_from_value]. unfold has, lacks. destruct (lookup (lit "min") fs) as [v|] eqn:E.
  - pose proof E as L. apply lookup_has in E; [|exact ND]. rewrite de_nonzero_iff. split.
    + intros H. left. exists v. tauto.
    + intros [[w [H1 H2]]|[H _]].
      * apply lookup_has in H1; [|exact ND]. assert (w = v) by congruence. subst. exact H2.
      * exfalso. apply H. change (lit "min") with (fst (lit "min", v)). apply in_map. exact E.
  - apply lookup_lacks in E. split; [intros H; injection H as <-; right; auto|]. intros [[w [H1 _]]|[_ ->]]; [|reflexivity].
    exfalso. apply E. change (lit "min") with (fst (lit "min", w)). apply in_map. exact H1.
Qed.

Lemma as_str_iff v s : ok_or (as_str v) EDeserialize = Ok s <-> v = VStr s.
Proof. apply de_string_iff. Qed.

Lemma tags_config_iff fs ts : NoDup (map fst fs) ->
  tags_config_from_value (VObj fs) = Ok ts <-> exists v tags, has fs "tags" v /\ means_strings v tags /\ Forall2 formatted_as tags ts.
Proof.
  intros ND. unfold tags_config_from_value, has, means_strings. rewrite bind_ok. unfold index, get. split.
  - intros [l [H1 H2]]. apply ok_or_ok in H1. apply bind_ok in H2. destruct H2 as [tags [H2 H3]].
    apply (strings_of _ as_str_iff) in H2. apply format_tags_iff in H3.
    destruct (lookup (lit "tags") fs) as [v|] eqn:E; [|discriminate]. apply lookup_has in E; [|exact ND].
    destruct v; try discriminate. injection H1 as ->. exists (VArr l), tags. subst l. auto.
  - intros [v [tags [H1 [H2 H3]]]]. apply lookup_has in H1; [|exact ND]. rewrite H1, H2. exists (map VStr tags). split; [reflexivity|].
    apply bind_ok. exists tags. split; [apply (strings_of _ as_str_iff); reflexivity | apply format_tags_iff; exact H3].
Qed.

Lemma number_config_iff fs o : NoDup (map fst fs) ->
  number_config_from_value (VObj fs) = Ok o <->
  match o with
  | Some ts => exists v tags, has fs "tags" v /\ means_strings v tags /\ Forall2 formatted_as tags ts
  | None => forall l, ~ has fs "tags" (VArr l)
  end.
Proof.
  intros ND. unfold number_config_from_value, has, means_strings, get. destruct (lookup (lit "tags") fs) as [v|] eqn:E.
  - pose proof E as L. apply lookup_has in E; [|exact ND].
    assert (U : forall w, In (lit "tags", w) fs -> w = v) by (intros w H; apply lookup_has in H; [congruence | exact ND]).
    destruct v as [| | | | |l|];
      try (destruct o as [ts|]; [split; [discriminate | intros [w [tags [H1 [H2 _]]]]; apply U in H1; congruence]
                                |split; [intros _ l' H; apply U in H; discriminate | reflexivity]]).
    destruct o as [ts|]; split.
    + intros H. apply bind_ok in H. destruct H as [tags [H1 H2]]. apply bind_ok in H2. destruct H2 as [ts' [H2 H3]]. injection H3 as ->.
      apply (strings_of _ as_str_iff) in H1. apply format_tags_iff in H2. exists (VArr l), tags. subst l. auto.
    + intros [w [tags [H1 [H2 H3]]]]. apply U in H1. subst w. injection H2 as ->. apply bind_ok. exists tags.
      split; [apply (strings_of _ as_str_iff); reflexivity|]. apply bind_ok. exists ts. split; [apply format_tags_iff; exact H3 | reflexivity].
    + intros H. apply bind_ok in H. destruct H as [tags [H1 H2]]. apply bind_ok in H2. destruct H2 as [ts' [H2 H3]]. discriminate.
    + intros H. exfalso. exact (H l E).
  - apply lookup_lacks in E. destruct o as [ts|]; split; try discriminate; try reflexivity.
    + intros [w [tags [H1 _]]]. exfalso. apply E. change (lit "tags") with (fst (lit "tags", w)). apply in_map. exact H1.
    + intros _ l H. apply E. change (lit "tags") with (fst (lit "tags", VArr l)). apply in_map. exact H.
Qed.

Lemma compound_config_iff fs c : NoDup (map fst fs) ->
  compound_config_from_value (VObj fs) = Ok c <->
  exists v w tags new_tag, has fs "kind" v /\ means_name kind_names v (cc_kind c) /\
    has fs "tags" w /\ means_strings w tags /\ Forall2 formatted_as tags (cc_tags c) /\
    maybe means_string fs "new_tag" new_tag /\
    match new_tag, cc_new_tag c with Some a, Some b => formatted_as a b | None, None => True | _, _ => False end.
Proof.
  intros ND. unfold compound_config_from_value. cbn [de_struct map bind]. unfold has. rewrite bind_ok. split.
  - intros [k [H1 H2]]. apply bind_ok in H2. destruct H2 as [tags [H2 H3]]. apply bind_ok in H3. destruct H3 as [nt [H3 H4]].
    apply (required_iff _ _ _ _ (de_enum_iff _ _ kind_variant_iff) ND) in H1.
    apply (required_iff _ _ _ _ de_strings_iff ND) in H2.
    apply (optional_iff _ _ _ _ de_string_iff string_not_null ND) in H3.
    unfold compound_config_new in H4. apply bind_ok in H4. destruct H4 as [ts [H4 H5]]. apply bind_ok in H5. destruct H5 as [nt' [H5 H6]].
    injection H6 as <-. apply format_tags_iff in H4. destruct H1 as [v [V1 V2]]. destruct H2 as [w [W1 W2]].
    exists v, w, tags, nt. cbn [cc_kind cc_tags cc_new_tag]. repeat match goal with |- _ /\ _ => split end; try assumption.
    destruct nt as [t|]; [|injection H5 as <-; exact I]. apply bind_ok in H5. destruct H5 as [f [H5 H6]]. injection H6 as <-.
    apply format_tag_iff. exact H5.
  - intros [v [w [tags [nt [V1 [V2 [W1 [W2 [H4 [H3 H5]]]]]]]]]]. exists (cc_kind c).
    split; [apply (required_iff _ _ _ _ (de_enum_iff _ _ kind_variant_iff) ND); eauto|].
    apply bind_ok. exists tags. split; [apply (required_iff _ _ _ _ de_strings_iff ND); eauto|].
    apply bind_ok. exists nt. split; [apply (optional_iff _ _ _ _ de_string_iff string_not_null ND); exact H3|].
    unfold compound_config_new. apply bind_ok. exists (cc_tags c). split; [apply format_tags_iff; exact H4|].
    apply bind_ok. exists (cc_new_tag c). split; [|destruct c; reflexivity].
    destruct nt as [t|], (cc_new_tag c) as [t'|]; try contradiction; [|reflexivity].
    apply bind_ok. exists t'. split; [apply format_tag_iff; exact H5 | reflexivity].
Qed.

Lemma load_token_filter_iff name fs d : NoDup (map fst fs) ->
  load_token_filter name (VObj fs) = Ok d <-> token_filter_described name fs d.
Proof.
  intros ND. split.
  - unfold load_token_filter.
    repeat (match goal with |- context [if str_eqb name ?l then _ else _] => destruct (str_eqb name l) eqn:E end;
      [apply str_eqb_spec in E; subst name; intros H; try (apply bind_ok in H; destruct H as [x [H1 H2]])|clear E]).
    + injection H2 as <-. apply kind_config_iff in H1; [|exact ND]. destruct H1 as [v [H1 H2]]. econstructor; eauto.
    + injection H2 as <-. apply compound_config_iff in H1; [|exact ND]. destruct H1 as [v [w [tags [nt [H1 [H2 [H3 [H4 [H5 [H6 H7]]]]]]]]]].
      destruct x as [k ts nt']. econstructor; eauto.
    + injection H2 as <-. apply kana_config_iff in H1; [|exact ND]. destruct H1 as [v [H1 H2]]. econstructor; eauto.
    + injection H2 as <-. apply stem_config_iff in H1; [|exact ND]. destruct H1 as [[v [H1 [H2 H3]]]|[H1 ->]]; [eapply described_stem; eauto | apply described_stem_default; exact H1].
    + injection H2 as <-. apply tags_config_iff in H1; [|exact ND]. destruct H1 as [v [tags [H1 [H2 H3]]]]. econstructor; eauto.
    + injection H2 as <-. apply number_config_iff in H1; [|exact ND]. destruct x as [ts|]; [destruct H1 as [v [tags [H1 [H2 H3]]]]; eapply described_number; eauto | apply described_number_all; exact H1].
    + injection H2 as <-. apply kind_config_iff in H1; [|exact ND]. destruct H1 as [v [H1 H2]]. econstructor; eauto.
    + injection H2 as <-. apply tags_config_iff in H1; [|exact ND]. destruct H1 as [v [tags [H1 [H2 H3]]]]. econstructor; eauto.
    + injection H2 as <-. apply words_config_iff in H1; [|exact ND]. destruct H1 as [v [H1 H2]]. econstructor; eauto.
    + injection H2 as <-. apply korean_tags_config_iff in H1; [|exact ND]. destruct H1 as [v [H1 H2]]. econstructor; eauto.
    + injection H as <-. constructor.
    + injection H2 as <-. apply korean_tags_config_iff in H1; [|exact ND]. destruct H1 as [v [H1 H2]]. econstructor; eauto.
    + destruct x as [a b]. injection H2 as <-. apply length_config_iff in H1; [|exact ND]. destruct H1. constructor; assumption.
    + injection H as <-. constructor.
    + apply bind_ok in H2. destruct H2 as [f [H2 H3]]. injection H3 as <-. apply mapping_config_iff in H1; [|exact ND]. destruct H1 as [v [H1 H3]]. econstructor; eauto.
    + injection H2 as <-. apply words_config_iff in H1; [|exact ND]. destruct H1 as [v [H1 H2]]. econstructor; eauto.
    + injection H as <-. constructor.
    + discriminate.
  - intros H. destruct H; unfold load_token_filter; lits; try reflexivity.
    + apply bind_ok. exists k. split; [apply kind_config_iff; eauto | reflexivity].
    + apply bind_ok. exists k. split; [apply kind_config_iff; eauto | reflexivity].
    + apply bind_ok. exists (CompoundConfig k ts nt). split; [apply compound_config_iff; [exact ND|]; exists v, w, tags, new_tag; cbn [cc_kind cc_tags cc_new_tag]; auto 10 | reflexivity].
    + apply bind_ok. exists k. split; [apply kana_config_iff; eauto | reflexivity].
    + apply bind_ok. exists n. split; [apply stem_config_iff; [exact ND|]; left; eauto | reflexivity].
    + apply bind_ok. exists 3%N. split; [apply stem_config_iff; [exact ND|]; right; eauto | reflexivity].
    + apply bind_ok. exists ts. split; [apply tags_config_iff; eauto | reflexivity].
    + apply bind_ok. exists ts. split; [apply tags_config_iff; eauto | reflexivity].
    + apply bind_ok. exists (Some ts). split; [apply number_config_iff; eauto | reflexivity].
    + apply bind_ok. exists None. split; [apply number_config_iff; eauto | reflexivity].
    + apply bind_ok. exists ws. split; [apply words_config_iff; eauto | reflexivity].
    + apply bind_ok. exists ws. split; [apply words_config_iff; eauto | reflexivity].
    + apply bind_ok. exists ts. split; [apply korean_tags_config_iff; eauto | reflexivity].
    + apply bind_ok. exists ts. split; [apply korean_tags_config_iff; eauto | reflexivity].
    + apply bind_ok. exists (a, b). split; [apply length_config_iff; eauto | reflexivity].
    + apply bind_ok. exists m. split; [apply mapping_config_iff; eauto|]. apply bind_ok. exists f. split; [assumption | reflexivity].
Qed.
