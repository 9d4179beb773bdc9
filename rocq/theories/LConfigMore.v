(** Lemmas about the configuration, continued: errors, panics, the analyzer and round trips. *)
From Coq Require Import String.
From Coq Require Import List NArith ZArith Bool Lia ZifyBool ZifyNat ZifyN.
From Verif Require Import MBase MUtf8 MText MCodec MDict MLattice MTokenizer MBuild MCharFilter MAnalyzer MTokenFilter MConfig STokenFilter SConfig.
From Verif Require Import LBase LUtf8 LTokenFilter LConfig.
Import ListNotations.
Local Open Scope list_scope.

(** ** Only one kind of error, and panics only for long tags *)

(* Ok, or the one error *)
Definition fine {A} (r : res A) : Prop := match r with Panic => False | Err k => k = EDeserialize | Ok _ => True end.

Lemma fine_bind {A B} (r : res A) (k : A -> res B) : fine r -> (forall x, r = Ok x -> fine (k x)) -> fine (bind r k).
Proof. destruct r; cbn; auto. Qed.
Lemma fine_mapM {A B} (f : A -> res B) l : (forall x, fine (f x)) -> fine (mapM f l).
Proof.
  intros F. induction l as [|x l IH]; cbn [mapM]; [exact I|]. apply fine_bind; [apply F|]. intros y _. apply fine_bind; [exact IH|]. intros; exact I.
Qed.
Lemma fine_ok_or {A} (o : option A) : fine (ok_or o EDeserialize).
Proof. destruct o; cbn; auto. Qed.
Lemma fine_string v : fine (de_string v).
Proof. apply fine_ok_or. Qed.
Lemma fine_bool v : fine (de_bool v).
Proof. destruct v; cbn; auto. Qed.
Lemma fine_usize v : fine (de_usize v).
Proof. destruct v; cbn [de_usize]; try exact eq_refl. destruct (_ && _)%bool; cbn; auto. Qed.
Lemma fine_nonzero v : fine (de_nonzero v).
Proof. unfold de_nonzero. apply fine_bind; [apply fine_usize|]. intros x _. destruct (x =? 0)%N; cbn; auto. Qed.
Lemma fine_strings v : fine (de_strings v).
Proof. destruct v; cbn [de_strings]; try exact eq_refl. apply fine_mapM. apply fine_string. Qed.
Lemma fine_map v : fine (de_map v).
Proof. destruct v; cbn [de_map]; try exact eq_refl. apply fine_mapM. intros [k x]. apply fine_bind; [apply fine_string|]. intros; exact I. Qed.
Lemma fine_enum {A} (variant : str -> option A) v : fine (de_enum variant v).
Proof. destruct v as [| | | | | |fs]; cbn [de_enum]; try exact eq_refl; [apply fine_ok_or|]. destruct fs as [|[s w] [|f2 fs]]; try destruct w; try exact eq_refl. apply fine_ok_or. Qed.
Lemma fine_required {A} (de : value -> res A) o : (forall v, fine (de v)) -> fine (required de o).
Proof. intros F. destruct o; cbn; auto. Qed.
Lemma fine_optional {A} (de : value -> res A) o : (forall v, fine (de v)) -> fine (optional de o).
Proof. intros F. destruct o as [v|]; cbn [optional]; [|exact I]. destruct v; cbn [de_option]; try exact I; (apply fine_bind; [apply F | intros; exact I]). Qed.
Lemma fine_struct names v : fine (de_struct names v).
Proof. destruct v; cbn [de_struct]; try exact eq_refl; try exact I. destruct (Nat.eqb _ _); cbn; auto. Qed.
Lemma fine_struct1 {A} n (f : option value -> res A) v : (forall o, fine (f o)) -> fine (de_struct1 n f v).
Proof. intros F. apply fine_bind; [apply fine_struct|]. intros [|a [|b l]] _; try exact eq_refl. apply F. Qed.
Lemma fine_struct2 {A} n1 n2 (f : option value -> option value -> res A) v : (forall a b, fine (f a b)) -> fine (de_struct2 n1 n2 f v).
Proof. intros F. apply fine_bind; [apply fine_struct|]. intros [|a [|b [|c l]]] _; try exact eq_refl. apply F. Qed.

(* Ok, the one error, or a panic under a condition *)
Definition fine_unless {A} (P : Prop) (r : res A) : Prop := match r with Panic => P | Err k => k = EDeserialize | Ok _ => True end.
Lemma fine_unless_bind {A B} P (r : res A) (k : A -> res B) : fine_unless P r -> (forall x, r = Ok x -> fine_unless P (k x)) -> fine_unless P (bind r k).
Proof. destruct r; cbn; auto. Qed.
Lemma fine_fine_unless {A} P (r : res A) : fine r -> fine_unless P r.
Proof. destruct r; cbn; tauto. Qed.
Lemma fine_unless_weaken {A} (P Q : Prop) (r : res A) : (P -> Q) -> fine_unless P r -> fine_unless Q r.
Proof. destruct r; cbn; tauto. Qed.
Lemma fine_format_tag tag : fine_unless (long_tag tag) (format_tag tag).
Proof. destruct (format_tag tag) as [t|e|] eqn:E; cbn; [exact I | exfalso; exact (format_tag_no_err tag e E) | apply format_tag_panic; exact E]. Qed.
Lemma fine_format_tags tags : fine_unless (exists tag, In tag tags /\ long_tag tag) (format_tags tags).
Proof.
  destruct (format_tags tags) as [t|e|] eqn:E; cbn; [exact I | exfalso | apply format_tags_panic; exact E].
  exact (mapM_no_err format_tag tags e (fun x => format_tag_no_err x e) E).
Qed.

Lemma lookup_in {A} (fs : list (str * A)) k v : lookup k fs = Some v -> In (k, v) fs.
Proof.
  induction fs as [|[k' v'] fs IH]; cbn [lookup]; [discriminate|]. destruct (str_eqb k k') eqn:E; intros H.
  - apply str_eqb_spec in E. left. congruence.
  - right. auto.
Qed.

Ltac names := cbn [In map]; repeat (try (left; reflexivity); right).

Lemma load_token_filter_fine name fs : fine_unless (has_long_tag name fs) (load_token_filter name (VObj fs)).
Proof.
  unfold load_token_filter.
  assert (T : In name (map lit ["japanese_compound_word"; "japanese_keep_tags"; "japanese_number"; "japanese_stop_tags"]%string) ->
    fine_unless (has_long_tag name fs) (tags_config_from_value (VObj fs))).
  { intros NI. unfold tags_config_from_value. apply fine_unless_bind; [apply fine_fine_unless; apply fine_ok_or|]. intros l H1.
    apply ok_or_ok in H1. unfold index, get in H1. destruct (lookup (lit "tags") fs) as [v|] eqn:L; [|discriminate].
    apply lookup_in in L. destruct v; try discriminate. injection H1 as ->.
    apply fine_unless_bind; [apply fine_fine_unless; apply fine_mapM; intros x; apply fine_ok_or|]. intros tags H2.
    apply (strings_of _ as_str_iff) in H2. subst l.
    eapply fine_unless_weaken; [|apply fine_format_tags]. intros [tag [I1 L1]]. left. split; [exact NI|].
    exists (VArr (map VStr tags)), tags, tag. unfold has, means_strings. auto. }
  repeat (match goal with |- context [if str_eqb name ?l then _ else _] => destruct (str_eqb name l) eqn:E end;
    [apply str_eqb_spec in E; subst name|clear E]);
  try exact I; try exact eq_refl;
  try (apply fine_fine_unless; apply fine_bind; [|intros; try exact I; auto];
       first [apply fine_struct1; intros o; apply fine_required; intros v; first [apply fine_enum | apply fine_strings | apply fine_map]]; fail).
  - apply fine_unless_bind; [|intros; exact I]. unfold compound_config_from_value. cbn [de_struct map bind].
    apply fine_unless_bind; [apply fine_fine_unless; apply fine_required; intros v; apply fine_enum|]. intros k _.
    apply fine_unless_bind; [apply fine_fine_unless; apply fine_required; intros v; apply fine_strings|]. intros tags H2.
    apply fine_unless_bind; [apply fine_fine_unless; apply fine_optional; intros v; apply fine_string|]. intros nt H3.
    unfold compound_config_new. apply fine_unless_bind.
    + eapply fine_unless_weaken; [|apply fine_format_tags]. intros [tag [I1 L1]]. left. split; [names|].
      destruct (lookup (lit "tags") fs) as [v|] eqn:L; [|discriminate]. apply lookup_in in L. cbn [required] in H2.
      apply de_strings_iff in H2. exists v, tags, tag. unfold has. auto.
    + intros ts _. apply fine_unless_bind; [|intros; exact I]. destruct nt as [t|]; [|exact I].
      apply fine_unless_bind; [|intros; exact I]. eapply fine_unless_weaken; [|apply fine_format_tag]. intros L1. right.
      split; [reflexivity|]. destruct (lookup (lit "new_tag") fs) as [v|] eqn:L; [|discriminate]. apply lookup_in in L. cbn [optional] in H3.
      unfold de_option in H3. exists t. split; [|exact L1]. unfold has.
      destruct v; try discriminate; try (apply bind_ok in H3; destruct H3 as [y [H3 H4]]; apply de_string_iff in H3; unfold means_string in H3; try discriminate H3).
      congruence.
  - apply fine_fine_unless. apply fine_bind; [|intros; exact I]. cbn [stem_config_from_value]. destruct (lookup (lit "min") fs); [apply fine_nonzero | exact I].
  - apply fine_unless_bind; [apply T; names | intros; exact I].
  - apply fine_unless_bind; [|intros; exact I]. unfold number_config_from_value, get.
    destruct (lookup (lit "tags") fs) as [v|] eqn:L; [|exact I]. destruct v; try exact I.
    apply fine_unless_bind; [apply fine_fine_unless; apply fine_mapM; intros x; apply fine_ok_or|]. intros tags H2.
    apply (strings_of _ as_str_iff) in H2. subst l. apply fine_unless_bind; [|intros; exact I].
    eapply fine_unless_weaken; [|apply fine_format_tags]. intros [tag [I1 L1]]. left. split; [names|]. apply lookup_in in L.
    exists (VArr (map VStr tags)), tags, tag. unfold has, means_strings. auto.
  - apply fine_unless_bind; [apply T; names | intros; exact I].
  - apply fine_fine_unless. apply fine_bind; [|intros [a b] _; exact I]. apply fine_struct2. intros a b.
    apply fine_bind; [apply fine_optional; apply fine_usize|]. intros x _. apply fine_bind; [apply fine_optional; apply fine_usize|]. intros; exact I.
Qed.

(* the other direction, when the rest of the configuration is in order *)
Lemma load_token_filter_unknown name v : ~ In name token_filter_names -> load_token_filter name v = Err EDeserialize.
Proof.
  intros N. unfold load_token_filter.
  repeat (match goal with |- context [if str_eqb name ?l then _ else _] => destruct (str_eqb name l) eqn:E end;
    [apply str_eqb_spec in E; subst name; exfalso; apply N; unfold token_filter_names; names; fail|clear E]).
  reflexivity.
Qed.

Lemma load_token_filter_null name d : load_token_filter name VNull = Ok d <-> In (name, d) argless_token_filters.
Proof.
  unfold argless_token_filters. split.
  - unfold load_token_filter.
    repeat (match goal with |- context [if str_eqb name ?l then _ else _] => destruct (str_eqb name l) eqn:E end;
      [apply str_eqb_spec in E; subst name; cbn; intros H; try discriminate; injection H as <-; tauto|clear E]).
    discriminate.
  - cbn [In]. intros H. repeat destruct H as [H|H]; try contradiction; injection H as <- <-; reflexivity.
Qed.

(** ** Character filters *)

Lemma load_char_filter_iff e name fs d : NoDup (map fst fs) ->
  load_char_filter e name (VObj fs) = Ok d <-> char_filter_described (e_regex e) name fs d.
Proof.
  intros ND.
  pose proof (fun k x => required_iff _ _ fs (lit k) de_bool_iff ND x) as B.
  pose proof (fun k x => required_iff _ _ fs (lit k) de_string_iff ND x) as S.
  split.
  - unfold load_char_filter.
    repeat (match goal with |- context [if str_eqb name ?l then _ else _] => destruct (str_eqb name l) eqn:E end;
      [apply str_eqb_spec in E; subst name; intros H; apply bind_ok in H; destruct H as [x [H1 H2]]|clear E]).
    + injection H2 as <-. unfold iteration_config_from_value, de_struct2 in H1. cbn [de_struct map bind] in H1.
      apply bind_ok in H1. destruct H1 as [a [H1 H2]]. apply bind_ok in H2. destruct H2 as [b [H2 H3]]. injection H3 as <-.
      apply B in H1. destruct H1 as [v [H1 ->]]. apply B in H2. destruct H2 as [w [H2 ->]]. constructor; assumption.
    + apply bind_ok in H2. destruct H2 as [f [H2 H3]]. injection H3 as <-. apply mapping_config_iff in H1; [|exact ND]. destruct H1 as [v [H1 H3]]. econstructor; eauto.
    + destruct x as [p r]. apply bind_ok in H2. destruct H2 as [rx [H2 H3]]. injection H3 as <-. apply ok_or_ok in H2.
      unfold regex_config_from_value, de_struct2 in H1. cbn [de_struct map bind] in H1.
      apply bind_ok in H1. destruct H1 as [a [H1 H4]]. apply bind_ok in H4. destruct H4 as [b [H4 H3]]. injection H3 as -> ->.
      apply S in H1. destruct H1 as [v [H1 ->]]. apply S in H4. destruct H4 as [w [H4 ->]]. econstructor; eassumption.
    + injection H2 as <-. apply normalize_config_iff in H1; [|exact ND]. destruct H1 as [v [H1 H2]]. econstructor; eauto.
    + discriminate.
  - intros H. destruct H; unfold load_char_filter; lits.
    + apply bind_ok. exists (IterationConfig a b). split; [|reflexivity]. unfold iteration_config_from_value, de_struct2. cbn [de_struct map bind].
      apply bind_ok. exists a. split; [apply B; eauto|]. apply bind_ok. exists b. split; [apply B; eauto | reflexivity].
    + apply bind_ok. exists m. split; [apply mapping_config_iff; eauto|]. apply bind_ok. exists f. split; [assumption | reflexivity].
    + apply bind_ok. exists (p, r). split; [|apply bind_ok; exists rx; split; [apply ok_or_ok; assumption | reflexivity]].
      unfold regex_config_from_value, de_struct2. cbn [de_struct map bind].
      apply bind_ok. exists p. split; [apply S; exists (VStr p); unfold means_string; auto|]. apply bind_ok. exists r. split; [apply S; exists (VStr r); unfold means_string; auto | reflexivity].
    + apply bind_ok. exists k. split; [apply normalize_config_iff; eauto | reflexivity].
Qed.

Lemma load_char_filter_unknown e name v : ~ In name char_filter_names -> load_char_filter e name v = Err EDeserialize.
Proof.
  intros N. unfold load_char_filter.
  repeat (match goal with |- context [if str_eqb name ?l then _ else _] => destruct (str_eqb name l) eqn:E end;
    [apply str_eqb_spec in E; subst name; exfalso; apply N; unfold char_filter_names; names; fail|clear E]).
  reflexivity.
Qed.

(* no panic on any value; an invalid expression is the only other error *)
Lemma load_char_filter_errors e name v :
  match load_char_filter e name v with
  | Ok _ => True
  | Err k => k = EDeserialize \/
             (k = EArgs /\ name = lit "regex" /\ exists p r, regex_config_from_value v = Ok (p, r) /\ e_regex e p = None)
  | Panic => False
  end.
Proof.
  assert (W : forall A (r : res A), fine r -> match r with Ok _ => True | Err k => k = EDeserialize \/ (k = EArgs /\ name = lit "regex" /\ exists p r, regex_config_from_value v = Ok (p, r) /\ e_regex e p = None) | Panic => False end)
    by (intros A [x|k|]; cbn; auto).
  unfold load_char_filter.
  repeat (match goal with |- context [if str_eqb name ?l then _ else _] => destruct (str_eqb name l) eqn:E end;
    [apply str_eqb_spec in E|clear E]).
  - apply W. apply fine_bind; [|intros; exact I]. apply fine_struct2. intros a b.
    apply fine_bind; [apply fine_required; apply fine_bool|]. intros x _. apply fine_bind; [apply fine_required; apply fine_bool|]. intros; exact I.
  - apply W. apply fine_bind; [apply fine_struct1; intros o; apply fine_required; apply fine_map|]. intros; exact I.
  - assert (F : fine (regex_config_from_value v)).
    { apply fine_struct2. intros a b. apply fine_bind; [apply fine_required; apply fine_string|]. intros x _.
      apply fine_bind; [apply fine_required; apply fine_string|]. intros; exact I. }
    destruct (regex_config_from_value v) as [[p r]|k|]; cbn [fine bind] in *; [|left; exact F | contradiction].
    destruct (e_regex e p) as [rx|] eqn:R; cbn; [exact I|]. right. split; [reflexivity|]. split; [exact E|]. exists p, r. auto.
  - apply W. apply fine_bind; [|intros; exact I]. apply fine_struct1. intros o. apply fine_required. apply fine_enum.
  - left. reflexivity.
Qed.

(** ** The analyzer *)

Lemma str_kind_iff s name : distinct s -> as_str (index s (lit "kind")) = Some name <-> setting_kind s name.
Proof.
  intros D. unfold setting_kind, index, get, has. destruct s as [| | | | | |fs]; try (cbn; split; [discriminate | intros [fs [H _]]; discriminate]).
  specialize (D fs eq_refl). split.
  - destruct (lookup (lit "kind") fs) as [v|] eqn:E; [|discriminate]. destruct v; try discriminate. intros H. injection H as ->.
    exists fs. split; [reflexivity|]. apply lookup_has; assumption.
  - intros [fs' [H1 H2]]. injection H1 as <-. apply lookup_has in H2; [|exact D]. rewrite H2. reflexivity.
Qed.

Lemma args_iff s a : distinct s -> setting_args s a -> index s (lit "args") = a.
Proof.
  intros D [fs [-> [H|[H ->]]]]; unfold index, get; specialize (D fs eq_refl).
  - apply lookup_has in H; [|exact D]. rewrite H. reflexivity.
  - apply lookup_lacks in H. rewrite H. reflexivity.
Qed.
Lemma args_exist fs : NoDup (map fst fs) -> setting_args (VObj fs) (index (VObj fs) (lit "args")).
Proof.
  intros D. exists fs. split; [reflexivity|]. unfold index, get, has, lacks. destruct (lookup (lit "args") fs) as [v|] eqn:E.
  - left. apply lookup_has; assumption.
  - right. split; [apply lookup_lacks; exact E | reflexivity].
Qed.

Lemma load_filters_iff {A} (load : str -> value -> res A) l : Forall distinct l ->
  forall fs, load_filters load (Some l) = Ok fs <-> settings_loaded load l fs.
Proof.
  intros D. cbn [load_filters].
  assert (G : forall acc fs, foldM (fun acc s =>
      match as_str (index s (lit "kind")) with
      | Some name => do f <- load name (index s (lit "args")); Ok (acc ++ [f])
      | None => Ok acc
      end) l acc = Ok fs <-> exists gs, fs = acc ++ gs /\ settings_loaded load l gs).
  { induction D as [|s l Ds D IH]; intros acc fs; cbn [foldM].
    - split; [intros H; injection H as <-; exists []; rewrite app_nil_r; split; [reflexivity | constructor]|].
      intros [gs [-> H]]. inversion H. rewrite app_nil_r. reflexivity.
    - rewrite bind_ok. split.
      + intros [acc' [H1 H2]]. apply IH in H2. destruct H2 as [gs [-> H2]].
        destruct (as_str (index s (lit "kind"))) as [name|] eqn:K.
        * apply bind_ok in H1. destruct H1 as [f [H1 H3]]. injection H3 as <-. exists (f :: gs). rewrite <- app_assoc. split; [reflexivity|].
          apply str_kind_iff in K; [|exact Ds]. destruct (K) as [os [-> _]]. eapply settings_filter; [exact K | apply args_exist; apply (Ds os eq_refl) | exact H1 | exact H2].
        * injection H1 as <-. exists gs. split; [reflexivity|]. apply settings_skip; [|exact H2]. intros name H. apply str_kind_iff in H; [|exact Ds]. congruence.
      + intros [gs [-> H]]. inversion H as [|? ? ? N1 H1|? name a f ? gs' K1 A1 L1 H1]; subst.
        * exists acc. split; [|apply IH; eauto]. destruct (as_str (index s (lit "kind"))) as [name|] eqn:K; [|reflexivity].
          exfalso. apply str_kind_iff in K; [|exact Ds]. exact (N1 name K).
        * exists (acc ++ [f]). split.
          -- apply str_kind_iff in K1; [|exact Ds]. rewrite K1. rewrite (args_iff s a Ds A1), L1. reflexivity.
          -- apply IH. exists gs'. rewrite <- app_assoc. split; [reflexivity | exact H1]. }
  intros fs. rewrite bind_ok. split.
  - intros [x [H1 H2]]. injection H2 as <-. apply G in H1. destruct H1 as [gs [-> H1]]. exact H1.
  - intros H. exists fs. split; [|reflexivity]. apply G. exists fs. auto.
Qed.

Lemma top_filters_iff {A} (load : str -> value -> res A) top key : distinct_settings top ->
  forall fs, load_filters load (as_array (index (VObj top) (lit key))) = Ok fs <-> filters_loaded load top key fs.
Proof.
  intros [ND D] fs. unfold filters_loaded, index, get, has. destruct (lookup (lit key) top) as [v|] eqn:E.
  - apply lookup_has in E; [|exact ND].
    assert (U : forall w, In (lit key, w) top -> w = v).
    { intros w H. apply lookup_has in E; [|exact ND]. apply lookup_has in H; [congruence | exact ND]. }
    destruct v as [| | | | |l|]; cbn [as_array];
      try (cbn [load_filters]; split; [intros H; injection H as <-; right; split; [intros l H; apply U in H; discriminate | reflexivity]
        | intros [[l [H _]]|[_ ->]]; [apply U in H; discriminate | reflexivity]]).
    rewrite load_filters_iff by (apply (D (lit key) (VArr l) E); reflexivity). split.
    + intros H. left. exists l. auto.
    + intros [[l' [H1 H2]]|[H _]]; [|exfalso; exact (H l E)]. apply U in H1. injection H1 as ->. exact H2.
  - apply lookup_lacks in E. cbn [as_array load_filters]. split.
    + intros H. injection H as <-. right. split; [|reflexivity]. intros l H. apply E. change (lit key) with (fst (lit key, VArr l)). apply in_map. exact H.
    + intros [[l [H _]]|[_ ->]]; [|reflexivity]. exfalso. apply E. change (lit key) with (fst (lit key, VArr l)). apply in_map. exact H.
Qed.

Lemma analyzer_from_config_iff e top d : distinct_settings top ->
  analyzer_from_config e (VObj top) = Ok d <->
  filters_loaded (load_char_filter e) top "character_filters" (ad_char_filters d) /\
  (exists fs tc, has top "tokenizer" (VObj fs) /\ de_tokenizer_config fs = Ok tc /\ tokenizer_from_config e tc = Ok (ad_tokenizer d)) /\
  filters_loaded load_token_filter top "token_filters" (ad_token_filters d).
Proof.
  intros D. unfold analyzer_from_config. rewrite bind_ok. split.
  - intros [cfs [H1 H]]. apply bind_ok in H. destruct H as [fs [H2 H]]. apply bind_ok in H. destruct H as [tc [H3 H]].
    apply bind_ok in H. destruct H as [t [H4 H]]. apply bind_ok in H. destruct H as [tfs [H5 H]]. injection H as <-. cbn [ad_char_filters ad_tokenizer ad_token_filters].
    split; [apply top_filters_iff; assumption|]. split; [|apply top_filters_iff; assumption].
    exists fs, tc. split; [|auto]. apply ok_or_ok in H2. unfold index, get in H2. destruct (lookup (lit "tokenizer") top) as [v|] eqn:E; [|discriminate].
    apply lookup_in in E. destruct v; try discriminate. injection H2 as ->. exact E.
  - intros [H1 [[fs [tc [H2 [H3 H4]]]] H5]]. exists (ad_char_filters d). split; [apply top_filters_iff; assumption|].
    apply bind_ok. exists fs. split; [apply ok_or_ok; unfold index, get; apply lookup_has in H2; [rewrite H2; reflexivity | apply D]|].
    apply bind_ok. exists tc. split; [exact H3|]. apply bind_ok. exists (ad_tokenizer d). split; [exact H4|].
    apply bind_ok. exists (ad_token_filters d). split; [apply top_filters_iff; assumption | destruct d; reflexivity].
Qed.
