(** Lemmas about the configuration of the tokenizer, round trips and the command line. *)
From Coq Require Import String.
From Coq Require Import List NArith ZArith Bool Lia ZifyBool ZifyNat ZifyN.
From Verif Require Import MBase MUtf8 MText MCodec MDict MLattice MTokenizer MBuild MCharFilter MAnalyzer MTokenFilter MConfig STokenFilter SConfig.
From Verif Require Import LBase LUtf8 LTokenFilter LConfig LConfigMore.
Import ListNotations.
Local Open Scope list_scope.

(** ** The tokenizer *)

Definition part_of {A} (de : value -> res A) (o : option value) (before after : option A) : Prop :=
  match o with Some v => exists x, de v = Ok x /\ after = Some x | None => after = before end.

Lemma tokenizer_fields fs : NoDup (map fst fs) -> forall d u m d' u' m',
  foldM tokenizer_field fs (d, u, m) = Ok (d', u', m') <->
  (forall key v, In (key, v) fs -> In key [lit "dictionary"; lit "user_dictionary"; lit "mode"]) /\
  part_of de_dictionary_config (lookup (lit "dictionary") fs) d d' /\
  part_of de_user_dictionary_config (lookup (lit "user_dictionary") fs) u u' /\
  part_of de_mode (lookup (lit "mode") fs) m m'.
Proof.
  induction fs as [|[key v] fs IH]; intros ND d u m d' u' m'.
  - cbn. split; [intros H; assert (d = d' /\ u = u' /\ m = m') as (-> & -> & ->) by (split; [congruence|split; congruence]); repeat split; auto; intros; contradiction|].
    intros [_ [-> [-> ->]]]. reflexivity.
  - cbn [map fst] in ND. inversion ND as [|? ? N1 N2]; subst. specialize (IH N2). cbn [foldM]. rewrite bind_ok.
    assert (K : (forall key0 v0, In (key0, v0) ((key, v) :: fs) -> In key0 [lit "dictionary"; lit "user_dictionary"; lit "mode"]) <->
      In key [lit "dictionary"; lit "user_dictionary"; lit "mode"] /\ (forall key0 v0, In (key0, v0) fs -> In key0 [lit "dictionary"; lit "user_dictionary"; lit "mode"])).
    { split.
      - intros H. split; [apply (H key v); left; reflexivity | intros k0 v0 H0; apply (H k0 v0); right; exact H0].
      - intros [H1 H2] k0 v0 [H|H]; [injection H as <- <-; exact H1 | exact (H2 k0 v0 H)]. }
    rewrite K. clear K. cbn [lookup].
    assert (NL : forall k, k = key -> lookup k fs = None) by (intros k ->; apply lookup_lacks; exact N1).
    unfold tokenizer_field.
    destruct (str_eqb key (lit "dictionary")) eqn:E1; [|destruct (str_eqb key (lit "user_dictionary")) eqn:E2; [|destruct (str_eqb key (lit "mode")) eqn:E3]].
    + apply str_eqb_spec in E1. subst key. lits. split.
      * intros [[[d1 u1] m1] [H1 H2]]. apply bind_ok in H1. destruct H1 as [x [H1 H3]]. injection H3 as <- <- <-. apply IH in H2.
        rewrite (NL _ eq_refl) in H2. cbn [part_of] in *. destruct H2 as [G1 [-> [G2 G3]]]. split; [split; [names|exact G1]|]. split; [exists x; auto | auto].
      * intros [[_ G1] [[x [H1 ->]] [G2 G3]]]. exists (Some x, u, m). split; [apply bind_ok; exists x; auto|]. apply IH. rewrite (NL _ eq_refl). cbn [part_of]. auto.
    + apply str_eqb_spec in E2. subst key. lits. split.
      * intros [[[d1 u1] m1] [H1 H2]]. apply bind_ok in H1. destruct H1 as [x [H1 H3]]. injection H3 as <- <- <-. apply IH in H2.
        rewrite (NL _ eq_refl) in H2. cbn [part_of] in *. destruct H2 as [G1 [G2 [-> G3]]]. split; [split; [names|exact G1]|]. split; [exact G2|]. split; [exists x; auto | auto].
      * intros [[_ G1] [G2 [[x [H1 ->]] G3]]]. exists (d, Some x, m). split; [apply bind_ok; exists x; auto|]. apply IH. rewrite (NL _ eq_refl). cbn [part_of]. auto.
    + apply str_eqb_spec in E3. subst key. lits. split.
      * intros [[[d1 u1] m1] [H1 H2]]. apply bind_ok in H1. destruct H1 as [x [H1 H3]]. injection H3 as <- <- <-. apply IH in H2.
        rewrite (NL _ eq_refl) in H2. cbn [part_of] in *. destruct H2 as [G1 [G2 [G3 ->]]]. split; [split; [names|exact G1]|]. split; [exact G2|]. split; [exact G3 | exists x; auto].
      * intros [[_ G1] [G2 [G3 [x [H1 ->]]]]]. exists (d, u, Some x). split; [apply bind_ok; exists x; auto|]. apply IH. rewrite (NL _ eq_refl). cbn [part_of]. auto.
    + split; [intros [st [H _]]; discriminate|]. intros [[H _] _]. exfalso. cbn [In] in H.
      destruct H as [H|[H|[H|[]]]]; rewrite <- H, str_eqb_refl in *; discriminate.
Qed.

Lemma de_dictionary_config_iff v c : distinct v -> (forall l, v <> VArr l) -> de_dictionary_config v = Ok c <-> dictionary_described v c.
Proof.
  intros D NA. unfold dictionary_described, de_dictionary_config, de_struct2.
  destruct v as [| | | | |l|fs]; cbn [de_struct bind]; try (split; [discriminate | intros [fs [H _]]; discriminate]); [exfalso; exact (NA l eq_refl)|].
  specialize (D fs eq_refl). cbn [map].
  pose proof (optional_iff _ _ fs "kind" (de_enum_iff _ _ kind_variant_iff) (name_not_null _) D) as M1.
  pose proof (optional_iff _ _ fs "path" de_string_iff string_not_null D) as M2.
  rewrite bind_ok. split.
  - intros [k [H1 H2]]. apply bind_ok in H2. destruct H2 as [p [H2 H3]]. injection H3 as <-. exists fs. cbn [dc_kind dc_path]. split; [reflexivity|]. split; [apply M1; exact H1 | apply M2; exact H2].
  - intros [fs' [E [H1 H2]]]. injection E as <-. exists (dc_kind c). split; [apply M1; exact H1|]. apply bind_ok. exists (dc_path c). split; [apply M2; exact H2 | destruct c; reflexivity].
Qed.

Lemma de_user_dictionary_config_iff v c : distinct v -> (forall l, v <> VArr l) -> de_user_dictionary_config v = Ok c <-> user_dictionary_described v c.
Proof.
  intros D NA. unfold user_dictionary_described, de_user_dictionary_config, de_struct2.
  destruct v as [| | | | |l|fs]; cbn [de_struct bind]; try (split; [discriminate | intros [fs [H _]]; discriminate]); [exfalso; exact (NA l eq_refl)|].
  specialize (D fs eq_refl). cbn [map].
  pose proof (optional_iff _ _ fs "kind" (de_enum_iff _ _ kind_variant_iff) (name_not_null _) D) as M1.
  pose proof (required_iff _ _ fs (lit "path") de_string_iff D) as M2.
  rewrite bind_ok. split.
  - intros [p [H1 H2]]. apply bind_ok in H2. destruct H2 as [k [H2 H3]]. injection H3 as <-. exists fs. cbn [udc_kind udc_path]. split; [reflexivity|].
    apply M2 in H1. destruct H1 as [w [H1 ->]]. split; [exact H1 | apply M1; exact H2].
  - intros [fs' [E [H1 H2]]]. injection E as <-. exists (udc_path c). split; [apply M2; exists (VStr (udc_path c)); unfold means_string; auto|].
    apply bind_ok. exists (udc_kind c). split; [apply M1; exact H2 | destruct c; reflexivity].
Qed.

Lemma de_penalty_iff v p : distinct v -> (forall l, v <> VArr l) -> de_penalty v = Ok p <-> penalty_described v p.
Proof.
  intros D NA. unfold penalty_described, de_penalty.
  destruct v as [| | | | |l|fs]; cbn [de_struct bind]; try (split; [discriminate | intros [fs [H _]]; discriminate]); [exfalso; exact (NA l eq_refl)|].
  specialize (D fs eq_refl). cbn [map]. unfold has.
  pose proof (fun k => required_iff _ _ fs k de_usize_iff D) as M1.
  pose proof (fun k => required_iff _ _ fs k de_i32_iff D) as M2.
  rewrite bind_ok. split.
  - intros [a [H1 H]]. apply bind_ok in H. destruct H as [b [H2 H]]. apply bind_ok in H. destruct H as [c [H3 H]]. apply bind_ok in H. destruct H as [d [H4 H]]. injection H as <-.
    exists fs. cbn [kanji_threshold kanji_penalty other_threshold other_penalty]. split; [reflexivity|].
    split; [apply M1; exact H1|]. split; [apply M2; exact H2|]. split; [apply M1; exact H3 | apply M2; exact H4].
  - intros [fs' [E [H1 [H2 [H3 H4]]]]]. injection E as <-. exists (kanji_threshold p). split; [apply M1; exact H1|].
    apply bind_ok. exists (kanji_penalty p). split; [apply M2; exact H2|]. apply bind_ok. exists (other_threshold p). split; [apply M1; exact H3|].
    apply bind_ok. exists (other_penalty p). split; [apply M2; exact H4 | destruct p; reflexivity].
Qed.

Lemma de_mode_iff v m : (forall w, v = VObj [(lit "decompose", w)] -> distinct w /\ forall l, w <> VArr l) -> de_mode v = Ok m <-> mode_described v m.
Proof.
  intros D. unfold mode_described.
  destruct v as [| | | |s|l|fs]; cbn [de_mode];
    try (destruct m; split; try discriminate; [intros [H|H]; discriminate | intros [w [H _]]; discriminate]).
  - destruct (str_eqb s (lit "normal")) eqn:E.
    + apply str_eqb_spec in E. subst s. destruct m; split; try discriminate; auto. intros [w [H _]]; discriminate.
    + destruct m; split; try discriminate; [|intros [w [H _]]; discriminate]. intros [H|H]; [|discriminate]. injection H as ->. rewrite str_eqb_refl in E. discriminate.
  - destruct fs as [|[s x] [|f2 fs]]; try (destruct m; split; try discriminate; [intros [H|H]; discriminate | intros [w [H _]]; discriminate]).
    destruct (str_eqb s (lit "normal")) eqn:E; [|destruct (str_eqb s (lit "decompose")) eqn:E2].
    + apply str_eqb_spec in E. subst s. destruct m as [|p]; split.
      * destruct x; try discriminate. auto.
      * intros [H|H]; [discriminate|]. injection H as ->. reflexivity.
      * destruct x; discriminate.
      * intros [w [H _]]. discriminate.
    + apply str_eqb_spec in E2. subst s. destruct (D x eq_refl) as [D1 D2]. rewrite bind_ok. destruct m as [|p]; split.
      * intros [q [_ H]]. discriminate.
      * intros [H|H]; discriminate.
      * intros [q [H1 H2]]. injection H2 as ->. exists x. split; [reflexivity|]. apply de_penalty_iff; assumption.
      * intros [w [H1 H2]]. injection H1 as <-. exists p. split; [apply de_penalty_iff; assumption | reflexivity].
    + destruct m as [|p]; split; try discriminate.
      * intros [H|H]; [discriminate|]. injection H as -> ->. rewrite str_eqb_refl in E. discriminate.
      * intros [w [H _]]. injection H as -> ->. rewrite str_eqb_refl in E2. discriminate.
Qed.

Lemma de_tokenizer_config_iff fs c : object_structs fs -> de_tokenizer_config fs = Ok c <-> tokenizer_described fs c.
Proof.
  intros [ND [D1 D2]]. unfold de_tokenizer_config, tokenizer_described. rewrite bind_ok.
  assert (H0 : forall k v, lookup (lit k) fs = Some v <-> has fs k v) by (intros; apply lookup_has; exact ND).
  assert (U : forall k v w, has fs k v -> has fs k w -> v = w) by (intros k v w A B; apply H0 in A; apply H0 in B; congruence).
  split.
  - intros [[[d u] m] [H1 H2]]. apply tokenizer_fields in H1; [|exact ND]. destruct H1 as [K [P1 [P2 P3]]].
    apply bind_ok in H2. destruct H2 as [dc [H2 H3]]. apply ok_or_ok in H2. subst d. injection H3 as <-. cbn [tc_dictionary tc_user tc_mode].
    split; [exact K|]. split; [|split].
    + destruct (lookup (lit "dictionary") fs) as [v|] eqn:L; cbn [part_of] in P1; [|discriminate]. destruct P1 as [x [P1 E]]. injection E as <-.
      apply H0 in L. exists v. split; [exact L|]. destruct (D1 v (or_introl L)). apply de_dictionary_config_iff; assumption.
    + destruct (lookup (lit "user_dictionary") fs) as [v|] eqn:L; cbn [part_of] in P2.
      * destruct P2 as [x [P2 ->]]. apply H0 in L. exists v. split; [exact L|]. destruct (D1 v (or_intror L)). apply de_user_dictionary_config_iff; assumption.
      * subst u. apply lookup_lacks in L. exact L.
    + destruct (lookup (lit "mode") fs) as [v|] eqn:L; cbn [part_of] in P3.
      * destruct P3 as [x [P3 ->]]. apply H0 in L. left. exists v. split; [exact L|]. apply de_mode_iff; [|exact P3]. intros w. apply D2. exact L.
      * subst m. apply lookup_lacks in L. right. split; [exact L | reflexivity].
  - intros [K [[v [L1 P1]] [P2 P3]]].
    exists (Some (tc_dictionary c), tc_user c, match lookup (lit "mode") fs with Some _ => Some (tc_mode c) | None => None end). split.
    + apply tokenizer_fields; [exact ND|]. split; [exact K|]. split; [|split].
      * pose proof L1 as L. apply H0 in L. rewrite L. cbn [part_of]. exists (tc_dictionary c). split; [|reflexivity]. destruct (D1 v (or_introl L1)). apply de_dictionary_config_iff; assumption.
      * destruct (tc_user c) as [u|].
        -- destruct P2 as [w [L2 P2]]. pose proof L2 as L. apply H0 in L. rewrite L. cbn [part_of]. exists u. split; [|reflexivity]. destruct (D1 w (or_intror L2)). apply de_user_dictionary_config_iff; assumption.
        -- apply lookup_lacks in P2. rewrite P2. reflexivity.
      * destruct P3 as [[w [L3 P3]]|[L3 _]].
        -- pose proof L3 as L. apply H0 in L. rewrite L. cbn [part_of]. exists (tc_mode c). split; [|reflexivity]. apply de_mode_iff; [|exact P3]. intros x. apply D2. exact L3.
        -- apply lookup_lacks in L3. rewrite L3. reflexivity.
    + apply bind_ok. exists (tc_dictionary c). split; [reflexivity|]. destruct c as [dc u m]. cbn [tc_dictionary tc_user tc_mode] in *. do 2 f_equal.
      destruct P3 as [[w [L3 P3]]|[L3 ->]].
      * apply H0 in L3. rewrite L3. reflexivity.
      * destruct (lookup (lit "mode") fs); reflexivity.
Qed.

(** ** Round trips *)

Lemma pad4_length ps : List.length ps <= 4 -> List.length (pad4 ps) = 4.
Proof. intros H. unfold pad4. rewrite app_length, repeat_length. lia. Qed.
Lemma pad4_full ps : List.length ps = 4 -> pad4 ps = ps.
Proof. intros H. unfold pad4. rewrite H. cbn. apply app_nil_r. Qed.
Lemma formatted_parts tag t : formatted_as tag t -> format_tag t = Ok t.
Proof.
  intros [ps [[NE [F E]] [L ->]]]. apply format_tag_iff. exists (pad4 ps). split; [|split].
  - split; [|split].
    + intros H. pose proof (pad4_length ps L) as X. rewrite H in X. discriminate.
    + unfold pad4. apply Forall_app. split; [exact F|]. apply Forall_forall. intros x H. apply repeat_spec in H. subst x. cbn. intros [H|[]]. discriminate.
    + reflexivity.
  - rewrite pad4_length; lia.
  - rewrite (pad4_full (pad4 ps)); [reflexivity | apply pad4_length; exact L].
Qed.
Lemma formatted_again tags ts : format_tags tags = Ok ts -> format_tags ts = Ok ts.
Proof.
  intros H. apply format_tags_iff in H. unfold format_tags. apply mapM_ok. induction H as [|x y l l' H1 H2 IH]; constructor; [|exact IH].
  exact (formatted_parts x y H1).
Qed.

Lemma ser_strings_iff ss : de_strings (ser_strings ss) = Ok ss.
Proof. apply de_strings_iff. reflexivity. Qed.
Lemma ser_N_iff v n : de_usize v = Ok n -> de_usize (ser_N n) = Ok n.
Proof. intros H. apply de_usize_iff in H. apply de_usize_iff. destruct H. split; [reflexivity | assumption]. Qed.
Lemma ser_option_N_iff o a : optional de_usize o = Ok a -> optional de_usize (Some (ser_option ser_N a)) = Ok a.
Proof.
  intros H. destruct a as [n|]; [|reflexivity]. cbn [optional ser_option]. unfold ser_N at 1. cbn [de_option].
  assert (X : exists v, de_usize v = Ok n).
  { destruct o as [v|]; [|discriminate]. cbn [optional] in H. exists v. destruct v; cbn [de_option] in H; try discriminate; apply bind_ok in H; destruct H as [y [H1 H2]]; congruence. }
  destruct X as [v X]. apply ser_N_iff in X. unfold ser_N in X. rewrite X. reflexivity.
Qed.
Lemma ser_kind_iff k : de_enum kind_variant (ser_kind k) = Ok k.
Proof. destruct k; reflexivity. Qed.
Lemma ser_map_iff m : de_map (ser_map m) = Ok m.
Proof.
  apply de_map_iff. unfold means_map, ser_map. f_equal. apply map_ext. intros [a b]. reflexivity.
Qed.

Ltac field1 := cbn [de_struct1 de_struct map bind lookup]; lits; cbn [required].

Lemma token_filter_round_trip name v d : load_token_filter name v = Ok d ->
  fst (ser_token_filter d) = name /\ load_token_filter name (snd (ser_token_filter d)) = Ok d.
Proof.
  unfold load_token_filter at 1.
  assert (TR : forall ts, format_tags ts = Ok ts -> tags_config_from_value (VObj [(lit "tags", ser_strings ts)]) = Ok ts).
  { intros ts H. unfold tags_config_from_value, index, get. cbn [lookup]. lits. cbn [as_array ser_strings ok_or bind].
    rewrite (proj2 (strings_of _ as_str_iff (map VStr ts) ts) eq_refl). exact H. }
  assert (TC : forall w ts, tags_config_from_value w = Ok ts -> format_tags ts = Ok ts).
  { intros w ts H. unfold tags_config_from_value in H. apply bind_ok in H. destruct H as [l [_ H]]. apply bind_ok in H. destruct H as [tags [_ H]]. exact (formatted_again _ _ H). }
  repeat (match goal with |- context [if str_eqb name ?l then _ else _] => destruct (str_eqb name l) eqn:E end;
    [apply str_eqb_spec in E; subst name; intros H; try (apply bind_ok in H; destruct H as [x [H1 H2]])|clear E]); try discriminate;
  try (injection H as <-; split; reflexivity).
  - injection H2 as <-. split; [reflexivity|]. destruct x; reflexivity.
  - injection H2 as <-. split; [reflexivity|]. cbn [ser_token_filter snd]. unfold load_token_filter. lits.
    unfold compound_config_from_value in H1. apply bind_ok in H1. destruct H1 as [fs [_ H1]]. destruct fs as [|a [|b [|c [|d fs]]]]; try discriminate.
    apply bind_ok in H1. destruct H1 as [k [_ H1]]. apply bind_ok in H1. destruct H1 as [tags [_ H1]]. apply bind_ok in H1. destruct H1 as [nt [_ H1]].
    unfold compound_config_new in H1. apply bind_ok in H1. destruct H1 as [ts [F1 H1]]. apply bind_ok in H1. destruct H1 as [nt' [F2 H1]]. injection H1 as <-.
    cbn [cc_kind cc_tags cc_new_tag]. unfold compound_config_from_value. cbn [de_struct map bind lookup]. lits. cbn [required]. rewrite ser_kind_iff. cbn [bind].
    rewrite ser_strings_iff. cbn [bind]. apply formatted_again in F1.
    assert (N : match nt' with Some t => format_tag t = Ok t | None => True end).
    { destruct nt as [t|]; [|injection F2 as <-; exact I]. apply bind_ok in F2. destruct F2 as [f [F2 F3]]. injection F3 as <-. apply format_tag_iff in F2. exact (formatted_parts _ _ F2). }
    destruct nt' as [t'|]; cbn [ser_option optional de_option de_string as_str ok_or bind]; unfold compound_config_new; rewrite F1; cbn [bind]; [rewrite N|]; reflexivity.
  - injection H2 as <-. split; [reflexivity|]. destruct x; reflexivity.
  - injection H2 as <-. split; [reflexivity|]. cbn [ser_token_filter snd]. unfold load_token_filter. lits. cbn [stem_config_from_value lookup]. lits.
    assert (X : de_nonzero (ser_N x) = Ok x).
    { apply de_nonzero_iff. unfold means_size, ser_N. destruct v as [| | | | |l|fs]; cbn [stem_config_from_value] in H1; try discriminate.
      - destruct l as [|y [|z l]]; [injection H1 as <-; repeat split; reflexivity| |discriminate]. apply de_nonzero_iff in H1. destruct H1 as [[_ H1] H2]. auto.
      - destruct (lookup (lit "min") fs) as [y|]; [apply de_nonzero_iff in H1; destruct H1 as [[_ H1] H2]; auto | injection H1 as <-; repeat split; reflexivity]. }
    rewrite X. reflexivity.
  - injection H2 as <-. split; [reflexivity|]. cbn [ser_token_filter snd]. unfold load_token_filter. lits. rewrite (TR x (TC v x H1)). reflexivity.
  - injection H2 as <-. split; [reflexivity|]. cbn [ser_token_filter snd]. unfold load_token_filter. lits.
    unfold number_config_from_value in *. cbn [get lookup]. lits. destruct x as [ts|]; [|reflexivity]. cbn [ser_option ser_strings].
    rewrite (proj2 (strings_of _ as_str_iff (map VStr ts) ts) eq_refl). cbn [bind].
    destruct (get v (lit "tags")) as [[| | | | |l|]|]; try discriminate. apply bind_ok in H1. destruct H1 as [tags [_ H1]]. apply bind_ok in H1. destruct H1 as [ts' [H1 H2]]. injection H2 as ->.
    rewrite (formatted_again _ _ H1). reflexivity.
  - injection H2 as <-. split; [reflexivity|]. destruct x; reflexivity.
  - injection H2 as <-. split; [reflexivity|]. cbn [ser_token_filter snd]. unfold load_token_filter. lits. rewrite (TR x (TC v x H1)). reflexivity.
  - injection H2 as <-. split; [reflexivity|]. cbn [ser_token_filter snd]. unfold load_token_filter. lits. unfold words_config_from_value. field1. rewrite ser_strings_iff. reflexivity.
  - injection H2 as <-. split; [reflexivity|]. cbn [ser_token_filter snd]. unfold load_token_filter. lits. unfold korean_tags_config_from_value. field1. rewrite ser_strings_iff. reflexivity.
  - injection H2 as <-. split; [reflexivity|]. cbn [ser_token_filter snd]. unfold load_token_filter. lits. unfold korean_tags_config_from_value. field1. rewrite ser_strings_iff. reflexivity.
  - destruct x as [a b]. injection H2 as <-. split; [reflexivity|]. cbn [ser_token_filter snd]. unfold load_token_filter. lits.
    unfold length_config_from_value, de_struct2 in *. apply bind_ok in H1. destruct H1 as [fs [_ H1]]. destruct fs as [|p [|q [|r fs]]]; try discriminate.
    apply bind_ok in H1. destruct H1 as [a' [A1 H1]]. apply bind_ok in H1. destruct H1 as [b' [B1 H1]]. assert (a' = a) by congruence. assert (b' = b) by congruence. subst.
    cbn [de_struct map bind lookup]. lits. rewrite (ser_option_N_iff _ _ A1). cbn [bind]. rewrite (ser_option_N_iff _ _ B1). reflexivity.
  - apply bind_ok in H2. destruct H2 as [f [H2 H3]]. injection H3 as <-. split; [reflexivity|]. cbn [ser_token_filter snd]. unfold load_token_filter. lits.
    unfold mapping_config_from_value. field1. rewrite ser_map_iff. cbn [bind].
    assert (E : mf_mapping f = x) by (unfold mapping_new in H2; cbn in H2; injection H2 as <-; reflexivity). rewrite E, H2. reflexivity.
  - injection H2 as <-. split; [reflexivity|]. cbn [ser_token_filter snd]. unfold load_token_filter. lits. unfold words_config_from_value. field1. rewrite ser_strings_iff. reflexivity.
Qed.

(* sizes that fit *)
Lemma ser_option_kind o : optional (de_enum kind_variant) (Some (ser_option ser_kind o)) = Ok o.
Proof. destruct o as [[]|]; reflexivity. Qed.
Lemma ser_option_str o : optional de_string (Some (ser_option VStr o)) = Ok o.
Proof. destruct o; reflexivity. Qed.
Lemma ser_dictionary_config_ok c : de_dictionary_config (ser_dictionary_config c) = Ok c.
Proof.
  unfold de_dictionary_config, de_struct2, ser_dictionary_config. cbn [de_struct map bind lookup]. lits.
  rewrite ser_option_kind. cbn [bind]. rewrite ser_option_str. destruct c; reflexivity.
Qed.
Lemma ser_user_dictionary_config_ok c : de_user_dictionary_config (ser_user_dictionary_config c) = Ok c.
Proof.
  unfold de_user_dictionary_config, de_struct2, ser_user_dictionary_config. cbn [de_struct map bind lookup]. lits.
  cbn [required de_string as_str ok_or bind]. rewrite ser_option_kind. destruct c; reflexivity.
Qed.
Lemma ser_mode_ok m : mode_fits m -> de_mode (ser_mode m) = Ok m.
Proof.
  destruct m as [|p]; [reflexivity|]. intros [H1 [H2 [H3 H4]]]. cbn [ser_mode de_mode]. lits. unfold de_penalty, ser_penalty.
  cbn [de_struct map bind lookup]. lits. cbn [required].
  rewrite (proj2 (de_usize_iff (ser_N (kanji_threshold p)) (kanji_threshold p))) by (split; [reflexivity | exact H1]). cbn [bind].
  rewrite (proj2 (de_i32_iff (VInt (kanji_penalty p)) (kanji_penalty p))) by (split; [reflexivity | exact H3]). cbn [bind].
  rewrite (proj2 (de_usize_iff (ser_N (other_threshold p)) (other_threshold p))) by (split; [reflexivity | exact H2]). cbn [bind].
  rewrite (proj2 (de_i32_iff (VInt (other_penalty p)) (other_penalty p))) by (split; [reflexivity | exact H4]). cbn [bind]. destruct p; reflexivity.
Qed.
Lemma tokenizer_config_round_trip c : mode_fits (tc_mode c) -> tc_user c <> None -> de_tokenizer_config (ser_tokenizer_config c) = Ok c.
Proof.
  intros F U. destruct c as [d u m]. cbn [tc_mode tc_user] in *. destruct u as [u|]; [|congruence].
  unfold de_tokenizer_config, ser_tokenizer_config. cbn [tc_dictionary tc_user tc_mode ser_option foldM tokenizer_field]. lits.
  rewrite ser_dictionary_config_ok. cbn [bind tokenizer_field]. lits. rewrite ser_user_dictionary_config_ok. cbn [bind tokenizer_field]. lits.
  rewrite (ser_mode_ok m F). reflexivity.
Qed.
Lemma tokenizer_config_no_round_trip c : mode_fits (tc_mode c) -> tc_user c = None -> de_tokenizer_config (ser_tokenizer_config c) = Err EDeserialize.
Proof.
  intros F U. destruct c as [d u m]. cbn [tc_mode tc_user] in *. subst u.
  unfold de_tokenizer_config, ser_tokenizer_config. cbn [tc_dictionary tc_user tc_mode ser_option foldM tokenizer_field]. lits.
  rewrite ser_dictionary_config_ok. reflexivity.
Qed.

(** * Character filters *)

Lemma char_filter_round_trip e c : load_char_filter e (fst (ser_char_filter c)) (snd (ser_char_filter c)) = char_filter_new e c.
Proof.
  destruct c as [[a b]|m|p r|k]; cbn [ser_char_filter fst snd char_filter_new]; unfold load_char_filter; lits.
  - reflexivity.
  - unfold mapping_config_from_value. field1. rewrite ser_map_iff. reflexivity.
  - reflexivity.
  - destruct k; reflexivity.
Qed.
Lemma char_filter_from_config e name v d : load_char_filter e name v = Ok d -> exists c, fst (ser_char_filter c) = name /\ char_filter_new e c = Ok d.
Proof.
  unfold load_char_filter.
  repeat (match goal with |- context [if str_eqb name ?l then _ else _] => destruct (str_eqb name l) eqn:E end;
    [apply str_eqb_spec in E; subst name; intros H; try (apply bind_ok in H; destruct H as [x [H1 H2]])|clear E]); try discriminate.
  - exists (CCIteration x). split; [reflexivity|exact H2].
  - exists (CCMapping x). split; [reflexivity|exact H2].
  - destruct x as [p r]. exists (CCRegex p r). split; [reflexivity|exact H2].
  - exists (CCNormalize x). split; [reflexivity|exact H2].
Qed.
