(** Settings that say the same make filters that do the same; filters whose order does not matter. *)
From Coq Require Import String.
From Coq Require Import List NArith ZArith Bool Lia Permutation Sorted ZifyBool ZifyNat ZifyN.
From Verif Require Import MBase MUtf8 MText MCodec MDict MCharDef MTokenizer MDetails MBuild MCharFilter MAnalyzer MTokenFilter MConfig
  STok SBuild SCharFilter STokenFilter SConfig SRun SSame
  LBase LUtf8 LDict LBuild LMapping LTokenFilter LConfig LConfigMore LRun.
Import ListNotations.
Local Open Scope list_scope.

(** * Sets *)

Lemma contains_same l l' : (forall x, In x l <-> In x l') -> forall s, contains l s = contains l' s.
Proof.
  intros H s. destruct (contains l s) eqn:E, (contains l' s) eqn:E'; try reflexivity.
  - apply contains_in, H, contains_in in E. congruence.
  - apply contains_in, H, contains_in in E'. congruence.
Qed.
Lemma retain_ext {A} (f g : A -> res bool) : (forall x, f x = g x) -> forall l, retain f l = retain g l.
Proof. intros H. induction l as [|x l IH]; cbn [retain]; [reflexivity|]. rewrite H, IH. reflexivity. Qed.
Lemma formatted_same l l' ts : (forall x, In x l <-> In x l') -> Forall2 formatted_as l ts ->
  exists ts', Forall2 formatted_as l' ts' /\ forall x, In x ts <-> In x ts'.
Proof.
  intros H F.
  assert (X : forall l1 l2 t1, (forall x, In x l2 -> In x l1) -> Forall2 formatted_as l1 t1 -> exists t2, Forall2 formatted_as l2 t2 /\ forall y, In y t2 -> In y t1).
  { intros l1 l2 t1. revert l2. induction l2 as [|x l2 IH]; intros I F1; [exists []; split; [constructor|intros y []]|].
    destruct IH as (t2 & F2 & I2); [intros y J; apply I; right; exact J|exact F1|].
    assert (J : exists y, In y t1 /\ formatted_as x y).
    { specialize (I x (or_introl eq_refl)). clear - I F1. induction F1 as [|a b l t H F IH]; [destruct I|]. destruct I as [->|I]; [exists b; split; [left; reflexivity|exact H]|].
      destruct (IH I) as (y & J & K). exists y. split; [right; exact J|exact K]. }
    destruct J as (y & J & K). exists (y :: t2). split; [constructor; assumption|]. intros z [<-|Z]; auto. }
  destruct (X l l' ts (fun x => proj2 (H x)) F) as (ts' & F' & I'). exists ts'. split; [exact F'|]. intros y. split; [|apply I'].
  intros Y. assert (J : exists x, In x l /\ formatted_as x y).
  { clear - Y F. induction F as [|a b l t H F IH]; [destruct Y|]. destruct Y as [->|Y]; [exists a; split; [left; reflexivity|exact H]|]. destruct (IH Y) as (x & J & K). exists x. split; [right; exact J|exact K]. }
  destruct J as (x & J & K). apply H in J. clear - F' J K. induction F' as [|a b l t H F IH]; [destruct J|]. destruct J as [->|J]; [|right; apply IH, J].
  left. apply format_tag_iff in H, K. congruence.
Qed.

(** * Maps *)

Lemma map_index_perm m m' key : NoDup (map fst m) -> Permutation m m' -> map_index m key = map_index m' key.
Proof.
  intros ND P. unfold map_index.
  assert (X : forall (k v : str) (l : list (str * str)), NoDup (map fst l) -> In (k, v) l -> find (fun '(k, _) => str_eqb k key) l = (if str_eqb k key then Some (k, v) else find (fun '(k, _) => str_eqb k key) l)).
  { intros k v l NL I. destruct (str_eqb k key) eqn:E; [|reflexivity]. induction l as [|[a b] l IH]; [destruct I|]. cbn [find]. inversion NL as [|? ? N1 N2]; subst. destruct I as [I|I].
    - injection I as -> ->. rewrite E. reflexivity.
    - destruct (str_eqb a key) eqn:E2; [|apply IH; assumption]. apply str_eqb_spec in E, E2. subst a. subst k. exfalso. apply N1. apply in_map_iff. exists (key, v). auto. }
  assert (ND' : NoDup (map fst m')) by (eapply Permutation_NoDup; [apply Permutation_map, P|exact ND]).
  destruct (find (fun '(k, _) => str_eqb k key) m) as [[k v]|] eqn:F.
  - apply find_some in F. destruct F as [I E]. assert (I' : In (k, v) m') by (eapply Permutation_in; eassumption). rewrite (X k v m' ND' I'). rewrite E. reflexivity.
  - destruct (find (fun '(k, _) => str_eqb k key) m') as [[k v]|] eqn:F'; [|reflexivity]. apply find_some in F'. destruct F' as [I E].
    assert (I' : In (k, v) m) by (eapply Permutation_in; [apply Permutation_sym, P|exact I]). pose proof (find_none _ _ F _ I') as Z. cbn in Z. congruence.
Qed.

Lemma sorted_bytes l : forall l', Permutation l l' -> StronglySorted (fun a b => bytes_leb a b = true) l -> StronglySorted (fun a b => bytes_leb a b = true) l' -> l = l'.
Proof.
  induction l as [|x l IH]; intros [|y l'] P S S'; [reflexivity|apply Permutation_nil in P; discriminate|apply Permutation_sym, Permutation_nil in P; discriminate|].
  inversion S as [|? ? S1 F1]; subst. inversion S' as [|? ? S2 F2]; subst. rewrite Forall_forall in F1, F2.
  assert (E : x = y).
  { assert (IX : In x (y :: l')) by (eapply Permutation_in; [exact P|left; reflexivity]). assert (IY : In y (x :: l)) by (eapply Permutation_in; [apply Permutation_sym, P|left; reflexivity]).
    destruct IX as [E|IX]; [congruence|]. destruct IY as [E|IY]; [congruence|]. apply bytes_leb_antisym; [apply F1, IY|apply F2, IX]. }
  subst y. f_equal. apply IH; try assumption. eapply Permutation_cons_inv. exact P.
Qed.

Lemma mapping_keyset_perm m m' : Permutation m m' -> mapping_keyset m = mapping_keyset m'.
Proof.
  intros P. unfold mapping_keyset.
  assert (E : map utf8 (stable_sort str_leb (map fst m)) = map utf8 (stable_sort str_leb (map fst m'))).
  { assert (SS : forall l, StronglySorted (fun a b => bytes_leb a b = true) (map utf8 (stable_sort str_leb l))).
    { intros l. pose proof (stable_sort_sorted l) as S. induction S as [|x q S IH F]; cbn [map]; constructor; [exact IH|]. rewrite Forall_map. exact F. }
    apply sorted_bytes; try apply SS. apply Permutation_map. eapply Permutation_trans; [apply Permutation_sym, stable_sort_perm|]. eapply Permutation_trans; [apply Permutation_map, P|apply stable_sort_perm]. }
  revert E. generalize (stable_sort str_leb (map fst m)) (stable_sort str_leb (map fst m')). generalize 0%N. intros i l. revert i. induction l as [|x l IH]; intros i [|y l'] E; try discriminate E; [reflexivity|].
  cbn [map number_from] in *. injection E as E1 E2. rewrite E1. f_equal. apply IH, E2.
Qed.

Lemma mapping_loop_same f f' : mf_trie f = mf_trie f' -> (forall k, map_index (mf_mapping f) k = map_index (mf_mapping f') k) ->
  forall fuel s start result st, mapping_loop fuel f s start result st = mapping_loop fuel f' s start result st.
Proof.
  intros T M. induction fuel as [|fuel IH]; intros [|c r] start result st; cbn [mapping_loop]; try reflexivity. rewrite T. destruct (last_error _) as [[v n]|]; [|apply IH].
  destruct (str_to (c :: r) n); try reflexivity. destruct (str_from (c :: r) n); try reflexivity. rewrite M. destruct (map_index (mf_mapping f') a); try reflexivity. apply IH.
Qed.
Lemma map_text_loop_same f f' : mf_trie f = mf_trie f' -> (forall k, map_index (mf_mapping f) k = map_index (mf_mapping f') k) ->
  forall fuel s result, map_text_loop fuel f s result = map_text_loop fuel f' s result.
Proof.
  intros T M. induction fuel as [|fuel IH]; intros [|c r] result; cbn [map_text_loop]; try reflexivity. rewrite T. destruct (last_error _) as [[v n]|]; [|apply IH].
  destruct (str_to (c :: r) n); try reflexivity. destruct (str_from (c :: r) n); try reflexivity. rewrite M. destruct (map_index (mf_mapping f') a); try reflexivity. apply IH.
Qed.
Lemma mapping_tokens_same f f' : mf_trie f = mf_trie f' -> (forall k, map_index (mf_mapping f) k = map_index (mf_mapping f') k) ->
  forall ts, mapping_tokens f ts = mapping_tokens f' ts.
Proof. intros T M. induction ts as [|tk ts IH]; cbn [mapping_tokens]; [reflexivity|]. rewrite (map_text_loop_same f f' T M), IH. reflexivity. Qed.
Lemma mapping_new_perm m m' f : NoDup (map fst m) -> Permutation m m' -> mapping_new m = Ok f ->
  exists f', mapping_new m' = Ok f' /\ mf_trie f = mf_trie f' /\ forall k, map_index (mf_mapping f) k = map_index (mf_mapping f') k.
Proof.
  intros ND P H. assert (E : Ok (MappingFilter m (mapping_keyset m)) = Ok f) by exact H. injection E as <-. exists (MappingFilter m' (mapping_keyset m')). split; [reflexivity|].
  cbn [mf_trie mf_mapping]. split; [apply mapping_keyset_perm, P|]. intros k. apply map_index_perm; assumption.
Qed.

(** * Settings *)

Lemma same_has fs fs' key v : same_settings fs fs' -> has fs key v -> exists v', has fs' key v' /\ same_value v v'.
Proof.
  intros (mid & P & F) H. unfold has in *. eapply Permutation_in in H; [|exact P]. clear P. induction F as [|[a x] [b y] mid fs' [E S] F IH]; [destruct H|]. cbn [fst snd] in E, S. destruct H as [H|H].
  - injection H as -> ->. exists y. split; [left; congruence|exact S].
  - destruct (IH H) as (v' & I & S'). exists v'. split; [right; exact I|exact S'].
Qed.
Lemma same_back fs fs' key v : same_settings fs fs' -> has fs' key v -> exists v', has fs key v' /\ same_value v' v.
Proof.
  intros (mid & P & F) H. assert (X : exists v', In (lit key, v') mid /\ same_value v' v).
  { clear P. unfold has in H. induction F as [|[a x] [b y] mid fs' [E S] F IH]; [destruct H|]. cbn [fst snd] in E, S. destruct H as [H|H].
    - injection H as -> ->. exists x. split; [left; congruence|exact S].
    - destruct (IH H) as (v' & I & S'). exists v'. split; [right; exact I|exact S']. }
  destruct X as (v' & I & S). exists v'. split; [|exact S]. eapply Permutation_in; [apply Permutation_sym, P|exact I].
Qed.
Lemma same_keys fs fs' : same_settings fs fs' -> Permutation (map fst fs) (map fst fs').
Proof.
  intros (mid & P & F). eapply Permutation_trans; [apply Permutation_map, P|]. clear P. induction F as [|a b mid fs' [E S] F IH]; cbn [map]; [constructor|]. rewrite E. constructor. exact IH.
Qed.
Lemma same_lacks fs fs' key : same_settings fs fs' -> lacks fs key -> lacks fs' key.
Proof. intros S L I. apply L. eapply Permutation_in; [apply Permutation_sym, same_keys, S|exact I]. Qed.

Lemma same_name {A} (table : list (str * A)) v v' k : same_value v v' -> means_name table v k -> means_name table v' k.
Proof.
  intros S (s & I & H). destruct S as [v|l l' E|m m' ND P]; [exists s; auto| |]; destruct H as [H|H]; try discriminate H.
  destruct m as [|[a b] [|? ?]]; discriminate H.
Qed.
Lemma same_size v v' n : same_value v v' -> means_size v n -> means_size v' n.
Proof. intros S [E L]. destruct S; try discriminate E. split; assumption. Qed.
Lemma same_string v v' s : same_value v v' -> means_string v s -> means_string v' s.
Proof. intros S E. unfold means_string in *. destruct S; try discriminate E. exact E. Qed.
Lemma strings_inj l l' : map VStr l = map VStr l' -> l = l'.
Proof. revert l'. induction l as [|a l IH]; intros [|b l'] E; try discriminate E; [reflexivity|]. cbn [map] in E. injection E as -> E. f_equal. apply IH, E. Qed.
Lemma same_strings v v' l : same_value v v' -> means_strings v l -> exists l', means_strings v' l' /\ forall x, In x l <-> In x l'.
Proof.
  intros S E. unfold means_strings in *. destruct S as [v|a b H|m m' ND P]; [exists l; split; [exact E|tauto]| |discriminate E].
  injection E as E. apply strings_inj in E. subst a. exists b. split; [reflexivity|exact H].
Qed.
Lemma maps_inj m m' : map (fun kv : str * str => (fst kv, VStr (snd kv))) m = map (fun kv => (fst kv, VStr (snd kv))) m' -> m = m'.
Proof. revert m'. induction m as [|[a b] m IH]; intros [|[c d] m'] E; try discriminate E; [reflexivity|]. cbn [map fst snd] in E. injection E as -> -> E. f_equal. apply IH, E. Qed.
Lemma same_maps v v' m f : same_value v v' -> means_map v m -> mapping_new m = Ok f ->
  exists m' f', means_map v' m' /\ mapping_new m' = Ok f' /\ mf_trie f = mf_trie f' /\ forall k, map_index (mf_mapping f) k = map_index (mf_mapping f') k.
Proof.
  intros S E F. unfold means_map in *. destruct S as [v|a b H|a b N1 P]; [exists m, f; auto|discriminate E|].
  injection E as E. apply maps_inj in E. subst a. destruct (mapping_new_perm _ _ _ N1 P F) as (f' & F' & T & I). exists b, f'. auto.
Qed.
Lemma same_null v v' : same_value v v' -> v = VNull -> v' = VNull.
Proof. intros S E. destruct S; try discriminate E. exact E. Qed.
Lemma same_maybe_size fs fs' key o : same_settings fs fs' -> maybe means_size fs key o -> maybe means_size fs' key o.
Proof.
  intros S. destruct o as [n|]; cbn [maybe].
  - intros (v & H & M). destruct (same_has _ _ _ _ S H) as (v' & H' & SV). exists v'. split; [exact H'|eapply same_size; eassumption].
  - intros [H|H]; [left|right; eapply same_lacks; eassumption]. destruct (same_has _ _ _ _ S H) as (v' & H' & SV). apply same_null in SV; [|reflexivity]. subst v'. exact H'.
Qed.
Lemma same_maybe_string fs fs' key o : same_settings fs fs' -> maybe means_string fs key o -> maybe means_string fs' key o.
Proof.
  intros S. destruct o as [n|]; cbn [maybe].
  - intros (v & H & M). destruct (same_has _ _ _ _ S H) as (v' & H' & SV). exists v'. split; [exact H'|eapply same_string; eassumption].
  - intros [H|H]; [left|right; eapply same_lacks; eassumption]. destruct (same_has _ _ _ _ S H) as (v' & H' & SV). apply same_null in SV; [|reflexivity]. subst v'. exact H'.
Qed.


Lemma compound_same k ts ts' nt : (forall x, In x ts <-> In x ts') -> forall l, compound_apply (CompoundConfig k ts nt) l = compound_apply (CompoundConfig k ts' nt) l.
Proof.
  intros H l. unfold compound_apply. generalize (None : option ftoken). induction l as [|tk l IH]; intros cur; cbn [compound_loop]; [reflexivity|].
  destruct (token_tag tk); [|reflexivity|reflexivity]. cbn [bind cc_tags]. rewrite (contains_same ts ts' H). destruct (contains ts' a); [|rewrite IH; reflexivity].
  destruct cur as [t|]; [|apply IH]. destruct (concat_token (CompoundConfig k ts nt) t tk) eqn:E; unfold concat_token in *; cbn [cc_new_tag cc_kind] in *; rewrite E; cbn [bind]; [apply IH|reflexivity|reflexivity].
Qed.

Theorem same_token_filter name fs fs' d : NoDup (map fst fs) -> same_settings fs fs' -> load_token_filter name (VObj fs) = Ok d ->
  exists d', load_token_filter name (VObj fs') = Ok d' /\ forall e ts, run_token_filter e d' ts = run_token_filter e d ts.
Proof.
  intros ND S L. assert (ND' : NoDup (map fst fs')) by (eapply Permutation_NoDup; [apply same_keys, S|exact ND]).
  apply load_token_filter_iff in L; [|exact ND].
  assert (G : exists d', token_filter_described name fs' d' /\ forall e ts, run_token_filter e d' ts = run_token_filter e d ts).
  { destruct L;
    repeat match goal with
    | H : has ?f ?key ?v, S : same_settings ?f _ |- _ =>
      lazymatch goal with K : same_value v _ |- _ => fail | _ => let v' := fresh "v'" in let H' := fresh "H'" in let SV := fresh "SV" in destruct (same_has _ _ _ _ S H) as (v' & H' & SV) end
    end;
    repeat match goal with
    | H : means_name ?t ?v ?k, SV : same_value ?v ?v' |- _ => lazymatch goal with K : means_name t v' k |- _ => fail | _ => pose proof (same_name t v v' k SV H) end
    | H : means_size ?v ?k, SV : same_value ?v ?v' |- _ => lazymatch goal with K : means_size v' k |- _ => fail | _ => pose proof (same_size v v' k SV H) end
    end;
    try (eexists; split; [econstructor; eassumption|reflexivity]).
    - destruct (same_strings _ _ _ SV H2) as (tags' & M' & I'). destruct (formatted_same _ _ _ I' H3) as (ts' & F' & J'). eexists. split; [eapply described_compound; try eassumption; eapply same_maybe_string; eassumption|].
      intros e l. cbn [run_token_filter]. apply compound_same. intros x. symmetry. apply J'.
    - eexists. split; [apply described_stem_default; eapply same_lacks; eassumption|reflexivity].
    - destruct (same_strings _ _ _ SV H0) as (tags' & M' & I'). destruct (formatted_same _ _ _ I' H1) as (ts' & F' & J'). eexists. split; [eapply described_keep_tags; eassumption|].
      intros e l. cbn [run_token_filter]. apply retain_ext. intros tk. destruct (token_tag tk); cbn [bind]; try reflexivity. rewrite (contains_same _ _ J'). reflexivity.
    - destruct (same_strings _ _ _ SV H0) as (tags' & M' & I'). destruct (formatted_same _ _ _ I' H1) as (ts' & F' & J'). eexists. split; [eapply described_stop_tags; eassumption|].
      intros e l. cbn [run_token_filter]. apply retain_ext. intros tk. destruct (token_tag tk); cbn [bind]; try reflexivity. rewrite (contains_same _ _ J'). reflexivity.
    - destruct (same_strings _ _ _ SV H0) as (tags' & M' & I'). destruct (formatted_same _ _ _ I' H1) as (ts' & F' & J'). eexists. split; [eapply described_number; eassumption|].
      intros e l. cbn [run_token_filter]. unfold japanese_number_apply, map_texts. induction l as [|tk l IH]; cbn [mapM]; [reflexivity|]. rewrite IH. destruct (token_tag tk); cbn [bind]; try reflexivity. rewrite (contains_same _ _ J'). reflexivity.
    - eexists. split; [apply described_number_all|reflexivity]. intros l I. destruct (same_back _ _ _ _ S I) as (v & I' & SV). inversion SV; subst; eapply H; eassumption.
    - destruct (same_strings _ _ _ SV H0) as (tags' & M' & I'). eexists. split; [eapply described_keep_words; eassumption|]. intros e l. cbn [run_token_filter]. apply retain_ext. intros tk. rewrite (contains_same _ _ I'). reflexivity.
    - destruct (same_strings _ _ _ SV H0) as (tags' & M' & I'). eexists. split; [eapply described_stop_words; eassumption|]. intros e l. cbn [run_token_filter]. apply retain_ext. intros tk. rewrite (contains_same _ _ I'). reflexivity.
    - destruct (same_strings _ _ _ SV H0) as (tags' & M' & I'). eexists. split; [eapply described_korean_keep; eassumption|]. intros e l. cbn [run_token_filter]. apply retain_ext. intros tk. destruct (idx (ft_details tk) 0); cbn [bind]; try reflexivity. rewrite (contains_same _ _ I'). reflexivity.
    - destruct (same_strings _ _ _ SV H0) as (tags' & M' & I'). eexists. split; [eapply described_korean_stop; eassumption|]. intros e l. cbn [run_token_filter]. apply retain_ext. intros tk. destruct (idx (ft_details tk) 0); cbn [bind]; try reflexivity. rewrite (contains_same _ _ I'). reflexivity.
    - eexists. split; [apply described_length; eapply same_maybe_size; eassumption|reflexivity].
    - destruct (same_maps _ _ _ _ SV H0 H1) as (m' & f' & M' & F' & T' & I').
      eexists. split; [eapply described_mapping; eassumption|]. intros e l. cbn [run_token_filter]. rewrite (mapping_tokens_same f f' T' I'). reflexivity. }
  destruct G as (d' & G & E). exists d'. split; [apply load_token_filter_iff; assumption|exact E].
Qed.

Theorem same_char_filter e name fs fs' d : NoDup (map fst fs) -> same_settings fs fs' -> load_char_filter e name (VObj fs) = Ok d ->
  exists d', load_char_filter e name (VObj fs') = Ok d' /\ forall text, run_char_filter e d' text = run_char_filter e d text.
Proof.
  intros ND S L. assert (ND' : NoDup (map fst fs')) by (eapply Permutation_NoDup; [apply same_keys, S|exact ND]).
  apply load_char_filter_iff in L; [|exact ND].
  assert (SB : forall key b, has fs key (VBool b) -> has fs' key (VBool b)) by (intros key b H; destruct (same_has _ _ _ _ S H) as (v' & H' & SV); inversion SV; subst; assumption).
  assert (SS : forall key b, has fs key (VStr b) -> has fs' key (VStr b)) by (intros key b H; destruct (same_has _ _ _ _ S H) as (v' & H' & SV); inversion SV; subst; assumption).
  assert (G : exists d', char_filter_described (e_regex e) name fs' d' /\ forall text, run_char_filter e d' text = run_char_filter e d text).
  { destruct L as [fs a b H H'|fs v m f H M NF|fs p r rx H H' E|fs v k H M].
    - eexists. split; [apply described_iteration; [apply SB, H|apply SB, H']|reflexivity].
    - destruct (same_has _ _ _ _ S H) as (v' & H' & SV). destruct (same_maps _ _ _ _ SV M NF) as (m' & f' & M' & F' & T' & I').
      eexists. split; [eapply described_char_mapping; eassumption|]. intros text. cbn [run_char_filter]. unfold mapping_apply. symmetry. apply mapping_loop_same; assumption.
    - eexists. split; [apply described_regex with (p := p); [apply SS, H|apply SS, H'|exact E]|reflexivity].
    - destruct (same_has _ _ _ _ S H) as (v' & H' & SV). eexists. split; [apply described_normalize with (v := v'); [exact H'|eapply same_name; eassumption]|reflexivity]. }
  destruct G as (d' & G & E). exists d'. split; [apply load_char_filter_iff; assumption|exact E].
Qed.

(** * Whole analyzers *)

Lemma has_unique fs key v v' : NoDup (map fst fs) -> has fs key v -> has fs key v' -> v = v'.
Proof.
  intros ND H H'. unfold has in *. induction fs as [|[k x] fs IH]; [destruct H|]. inversion ND as [|? ? N1 N2]; subst. destruct H as [H|H], H' as [H'|H'].
  - congruence.
  - injection H as -> ->. exfalso. apply N1. apply in_map_iff. exists (lit key, v'). auto.
  - injection H' as -> ->. exfalso. apply N1. apply in_map_iff. exists (lit key, v). auto.
  - apply IH; assumption.
Qed.

Lemma same_loaded {A} (load : str -> value -> res A) (eqv : A -> A -> Prop) :
  (forall a, eqv a a) ->
  (forall name fs fs' d, NoDup (map fst fs) -> same_settings fs fs' -> load name (VObj fs) = Ok d -> exists d', load name (VObj fs') = Ok d' /\ eqv d d') ->
  forall l l' ds, Forall2 same_entry l l' -> settings_loaded load l ds -> exists ds', settings_loaded load l' ds' /\ Forall2 eqv ds ds'.
Proof.
  intros R H l l' ds F L. revert l' F. induction L as [|s l ds NK L IH|s name a f l ds K AR LD L IH]; intros l' F; inversion F as [|? s' ? l2 SE F2]; subst.
  - exists []. split; constructor.
  - destruct (IH _ F2) as (ds' & L' & E'). exists ds'. split; [|exact E']. apply settings_skip; [|exact L']. destruct SE; [exact NK|]. exfalso. apply (NK name). exists fs. auto.
  - destruct (IH _ F2) as (ds' & L' & E'). destruct SE as [s|fs fs' nm args args' N1 N2 N3 H1 H2 H3 H4 SS].
    + exists (f :: ds'). split; [eapply settings_filter; eassumption|constructor; auto].
    + destruct K as (g & G & K). injection G as <-. destruct AR as (g & G & AR). injection G as <-.
      pose proof (has_unique _ _ _ _ N1 K H1) as E. injection E as <-.
      assert (E : a = VObj args). { destruct AR as [AR|[AR _]]; [exact (has_unique _ _ _ _ N1 AR H2)|]. exfalso. apply AR. apply in_map_iff. exists (lit "args", VObj args). auto. }
      subst a. destruct (H _ _ _ _ N3 SS LD) as (d' & LD' & E). exists (d' :: ds'). split; [|constructor; assumption].
      eapply settings_filter; [exists fs'; eauto|exists fs'; eauto|exact LD'|exact L'].
Qed.

Lemma same_filters_loaded {A} (load : str -> value -> res A) (eqv : A -> A -> Prop) top top' key ds :
  (forall a, eqv a a) ->
  (forall name fs fs' d, NoDup (map fst fs) -> same_settings fs fs' -> load name (VObj fs) = Ok d -> exists d', load name (VObj fs') = Ok d' /\ eqv d d') ->
  NoDup (map fst top) -> same_filters top top' key -> filters_loaded load top key ds -> exists ds', filters_loaded load top' key ds' /\ Forall2 eqv ds ds'.
Proof.
  intros R H ND SF FL. destruct SF as [[N N']|(l & l' & I & I' & F)].
  - destruct FL as [(l & I & _)|[_ ->]]; [destruct (N _ I)|]. exists []. split; [right; auto|constructor].
  - destruct FL as [(l2 & I2 & L)|[N _]]; [|destruct (N _ I)]. pose proof (has_unique _ _ _ _ ND I I2) as E. injection E as <-.
    destruct (same_loaded load eqv R H _ _ _ F L) as (ds' & L' & E). exists ds'. split; [left; exists l'; auto|exact E].
Qed.

Lemma apply_char_filters_same fs fs' : Forall2 (fun f f' => forall t, f t = f' t) fs fs' -> forall text vecs, apply_char_filters fs text vecs = apply_char_filters fs' text vecs.
Proof. induction 1 as [|f f' fs fs' E F IH]; intros text vecs; cbn [apply_char_filters]; [reflexivity|]. rewrite E. destruct (f' text) as [[[[a b] c]| |]|]; try reflexivity. apply IH. Qed.
Lemma foldM_filters_same (fs fs' : list token_filter) : Forall2 (fun f f' => forall t, f t = f' t) fs fs' -> forall ts, foldM (fun ts f => f ts) fs ts = foldM (fun ts f => f ts) fs' ts.
Proof. induction 1 as [|f f' fs fs' E F IH]; intros ts; cbn [foldM]; [reflexivity|]. rewrite E. destruct (f' ts); cbn [bind]; try reflexivity. apply IH. Qed.

Theorem same_analyzer_from_config e top top' d : distinct_settings top -> distinct_settings top' -> same_analyzer top top' ->
  analyzer_from_config e (VObj top) = Ok d ->
  exists d', analyzer_from_config e (VObj top') = Ok d' /\ forall text, analyze (analyzer_of e d') text = analyze (analyzer_of e d) text.
Proof.
  intros D D' (T & C & TK) L. apply analyzer_from_config_iff in L; [|exact D]. destruct L as (L1 & (fs & tc & L2 & L3 & L4) & L5).
  destruct (same_filters_loaded (load_char_filter e) (fun a b => forall t, run_char_filter e a t = run_char_filter e b t) top top' "character_filters" (ad_char_filters d)) as (cds & C1 & C2);
    [reflexivity| |apply D|exact C|exact L1|].
  { intros name fs1 fs2 d1 N S E. destruct (same_char_filter _ _ _ _ _ N S E) as (d2 & E2 & H). exists d2. split; [exact E2|]. intros t. symmetry. apply H. }
  destruct (same_filters_loaded load_token_filter (fun a b => forall t, run_token_filter e a t = run_token_filter e b t) top top' "token_filters" (ad_token_filters d)) as (tds & T1 & T2);
    [reflexivity| |apply D|exact TK|exact L5|].
  { intros name fs1 fs2 d1 N S E. destruct (same_token_filter _ _ _ _ N S E) as (d2 & E2 & H). exists d2. split; [exact E2|]. intros t. symmetry. apply H. }
  exists (AnalyzerDef cds (ad_tokenizer d) tds). split.
  - apply analyzer_from_config_iff; [exact D'|]. cbn [ad_char_filters ad_tokenizer ad_token_filters]. split; [exact C1|]. split; [|exact T1]. exists fs, tc. split; [apply T, L2|auto].
  - intros text. unfold analyze, analyzer_of. cbn [ad_char_filters ad_tokenizer ad_token_filters an_char_filters an_tokenizer].
    assert (E1 : forall x y, Forall2 (fun a b => forall t, run_char_filter e a t = run_char_filter e b t) x y -> Forall2 (fun f f' => forall t, f t = f' t) (map (run_char_filter e) x) (map (run_char_filter e) y)) by (induction 1; constructor; auto).
    assert (E2 : forall x y, Forall2 (fun a b => forall t, run_token_filter e a t = run_token_filter e b t) x y -> Forall2 (fun f f' => forall t, f t = f' t) (map (run_token_filter e) x) (map (run_token_filter e) y)) by (induction 1; constructor; auto).
    rewrite <- (apply_char_filters_same _ _ (E1 _ _ C2)). destruct (apply_char_filters _ text []) as [[[nt vecs]| |]|]; try reflexivity.
    destruct (tokenize (ad_tokenizer d) nt) as [[tmp| |]|]; try reflexivity. f_equal. unfold analyze_normalized. cbn [an_token_filters].
    destruct (mapM (analyzed_token _) tmp); cbn [bind]; try reflexivity. rewrite (foldM_filters_same _ _ (E2 _ _ T2)). reflexivity.
Qed.

(** * Filters that keep or drop *)

Definition some_details (tk : ftoken) : Prop := ft_details tk <> [].

Lemma retain_filter {A} (f : A -> res bool) (P : A -> bool) l : Forall (fun x => f x = Ok (P x)) l -> retain f l = Ok (filter P l).
Proof. induction 1 as [|x l E F IH]; cbn [retain filter]; [reflexivity|]. rewrite E, IH. cbn [bind]. destruct (P x); reflexivity. Qed.

Lemma idx_details tk : some_details tk -> idx (ft_details tk) 0 = Ok (hd [] (ft_details tk)).
Proof. unfold some_details. destruct (ft_details tk); [congruence|reflexivity]. Qed.

Definition tag_of (ds : list str) : str := join [44%N] (pad4 (pos_of ds)).
(* what a filter keeps *)
Definition keeps (d : token_filter_def) (tk : ftoken) : bool :=
  match d with
  | TFKeepTags ts => contains ts (tag_of (ft_details tk))
  | TFStopTags ts => negb (contains ts (tag_of (ft_details tk)))
  | TFKoreanKeepTags ts => contains ts (hd [] (ft_details tk))
  | TFKoreanStopTags ts => negb (contains ts (hd [] (ft_details tk)))
  | TFKeepWords ws => contains ws (ft_text tk)
  | TFStopWords ws => negb (contains ws (ft_text tk))
  | TFLength a b => match a with Some m => negb (Nat.ltb (List.length (ft_text tk)) (N.to_nat m)) | None => true end
      && match b with Some m => negb (Nat.ltb (N.to_nat m) (List.length (ft_text tk))) | None => true end
  | _ => true
  end.
Lemma run_keeps e d ts : by_details d \/ by_text d -> Forall some_details ts -> run_token_filter e d ts = Ok (filter (keeps d) ts).
Proof.
  intros B F. destruct B as [B|B]; destruct B; cbn [run_token_filter]; apply retain_filter; (revert F; apply Forall_impl; intros tk NE; cbn [keeps]).
  - rewrite (token_tag_ok _ NE). reflexivity.
  - rewrite (token_tag_ok _ NE). reflexivity.
  - rewrite (idx_details _ NE). reflexivity.
  - rewrite (idx_details _ NE). reflexivity.
  - reflexivity.
  - reflexivity.
  - destruct a as [a|], b as [b|]; cbn [option_map]; try destruct (Nat.ltb (List.length (ft_text tk)) (N.to_nat a)); try destruct (Nat.ltb (N.to_nat b) (List.length (ft_text tk))); reflexivity.
Qed.
Lemma filter_some P ts : Forall some_details ts -> Forall some_details (filter P ts).
Proof. intros F. apply Forall_forall. intros x I. apply filter_In in I. rewrite Forall_forall in F. apply F, I. Qed.
Lemma filter_filter {A} (P Q : A -> bool) l : filter Q (filter P l) = filter (fun x => P x && Q x) l.
Proof. induction l as [|x l IH]; cbn [filter]; [reflexivity|]. destruct (P x); cbn [filter andb]; rewrite IH; reflexivity. Qed.
Lemma then_keeps e d d' ts : by_details d \/ by_text d -> by_details d' \/ by_text d' -> Forall some_details ts ->
  then_run e d d' ts = Ok (filter (fun tk => keeps d tk && keeps d' tk) ts).
Proof. intros B B' F. unfold then_run. rewrite (run_keeps e d ts B F). rewrite (run_keeps e d' _ B' (filter_some _ _ F)). rewrite filter_filter. reflexivity. Qed.

Theorem keeping_commutes e d d' ts : by_details d \/ by_text d -> by_details d' \/ by_text d' -> Forall some_details ts ->
  exists out, then_run e d d' ts = Ok out /\ then_run e d' d ts = Ok out.
Proof.
  intros B B' F. eexists. split; [apply then_keeps; assumption|]. rewrite then_keeps by assumption. f_equal. apply filter_ext. intros tk. apply andb_comm.
Qed.
Theorem keeping_again e d ts out : by_details d \/ by_text d -> Forall some_details ts -> run_token_filter e d ts = Ok out -> run_token_filter e d out = Ok out.
Proof.
  intros B F H. rewrite (run_keeps e d ts B F) in H. injection H as <-. rewrite (run_keeps e d _ B (filter_some _ _ F)). rewrite filter_filter. f_equal. apply filter_ext. intros tk. apply andb_diag.
Qed.
Theorem keeping_opposite e d d' ts : opposite d d' -> Forall some_details ts ->
  (exists P a b, run_token_filter e d ts = Ok a /\ run_token_filter e d' ts = Ok b /\ a = filter P ts /\ b = filter (fun tk => negb (P tk)) ts /\ Permutation ts (a ++ b)) /\
  then_run e d d' ts = Ok [] /\ then_run e d' d ts = Ok [].
Proof.
  intros O F. assert (X : (by_details d \/ by_text d) /\ (by_details d' \/ by_text d') /\ forall tk, keeps d' tk = negb (keeps d tk)) by (destruct O; (split; [|split]); try (left; constructor); try (right; constructor); reflexivity).
  destruct X as (B & B' & N).
  assert (P0 : forall (P : ftoken -> bool) l, Permutation l (filter P l ++ filter (fun tk => negb (P tk)) l)).
  { intros P l. induction l as [|x l IH]; [constructor|]. cbn [filter]. destruct (P x); cbn [negb app]; [constructor; exact IH|]. apply Permutation_cons_app, IH. }
  split; [|split].
  - exists (keeps d), (filter (keeps d) ts), (filter (fun tk => negb (keeps d tk)) ts). split; [apply run_keeps; assumption|]. split; [rewrite run_keeps by assumption; f_equal; apply filter_ext, N|]. auto.
  - rewrite then_keeps by assumption. f_equal. induction ts as [|x ts IH]; [reflexivity|]. inversion F; subst. cbn [filter]. rewrite N, andb_negb_r. auto.
  - rewrite then_keeps by assumption. f_equal. induction ts as [|x ts IH]; [reflexivity|]. inversion F; subst. cbn [filter]. rewrite N, andb_comm, andb_negb_r. auto.
Qed.
Lemma contains_both a b c : both a b c -> forall s, contains c s = contains a s && contains b s.
Proof.
  intros H s. destruct (contains c s) eqn:E; symmetry.
  - apply contains_in, H in E. apply andb_true_iff. split; apply contains_in; apply E.
  - apply not_true_iff_false. intros X. apply andb_true_iff in X. destruct X as [X Y]. assert (Z : contains c s = true) by (apply contains_in, H; split; apply contains_in; assumption). congruence.
Qed.
Lemma contains_either a b c : either a b c -> forall s, contains c s = contains a s || contains b s.
Proof.
  intros H s. destruct (contains c s) eqn:E; symmetry.
  - apply contains_in, H in E. apply orb_true_iff. destruct E as [E|E]; [left|right]; apply contains_in, E.
  - apply not_true_iff_false. intros X. apply orb_true_iff in X. assert (Z : contains c s = true) by (apply contains_in, H; destruct X as [X|X]; [left|right]; apply contains_in, X). congruence.
Qed.
Theorem keeping_merged e d d' m ts : merged d d' m -> Forall some_details ts -> exists out, then_run e d d' ts = Ok out /\ run_token_filter e m ts = Ok out.
Proof.
  intros M F. assert (X : (by_details d \/ by_text d) /\ (by_details d' \/ by_text d') /\ (by_details m \/ by_text m) /\ forall tk, keeps m tk = keeps d tk && keeps d' tk).
  { destruct M as [a b c H|a b c H|a b c H|a b c H|a b c H|a b c H|a b]; (split; [|split; [|split]]); try (left; constructor); try (right; constructor); intros tk; cbn [keeps];
      rewrite ?(contains_both _ _ _ H), ?(contains_either _ _ _ H), ?negb_orb, ?andb_true_r; reflexivity. }
  destruct X as (B & B' & BM & E). eexists. split; [apply then_keeps; assumption|]. rewrite run_keeps by assumption. f_equal. apply filter_ext, E.
Qed.

(** * Filters that change texts *)

Lemma mapping_map_texts f ts : match mapping_tokens f ts with Some r => r | None => Panic end =
  map_texts (fun tk => match map_text_loop (List.length (ft_text tk)) f (ft_text tk) [] with Some r => r | None => Panic end) ts.
Proof.
  unfold map_texts. induction ts as [|tk ts IH]; cbn [mapping_tokens mapM]; [reflexivity|]. destruct (map_text_loop _ f (ft_text tk) []) as [[t| |]|]; cbn [bind]; try reflexivity.
  rewrite <- IH. destruct (mapping_tokens f ts) as [[r| |]|]; reflexivity.
Qed.
(* what becomes of a token's text *)
Definition new_text (e : env) (d : token_filter_def) (tk : ftoken) : res str :=
  match d with
  | TFBaseForm k => detail_text (base_detail k) tk
  | TFReadingForm k => detail_text (reading_detail k) tk
  | TFKoreanReadingForm => detail_text (Some 3) tk
  | TFKana k => Ok (e_kana e k (ft_text tk))
  | TFLowercase => Ok (e_lower e (ft_text tk))
  | TFUppercase => Ok (e_upper e (ft_text tk))
  | TFMapping f => match map_text_loop (List.length (ft_text tk)) f (ft_text tk) [] with Some r => r | None => Panic end
  | TFStem m => stem (e_block e) (N.to_nat m) (ft_text tk)
  | TFNumber tags => do tag <- token_tag tk; match tags with Some tags => if contains tags tag then to_arabic_numerals (ft_text tk) else Ok (ft_text tk) | None => to_arabic_numerals (ft_text tk) end
  | _ => Panic
  end.
Lemma run_rewrites e d ts : rewrites d -> run_token_filter e d ts = map_texts (new_text e d) ts.
Proof. intros R. destruct R; try reflexivity. apply mapping_map_texts. Qed.
Lemma map_texts_inv f ts out : map_texts f ts = Ok out <-> Forall2 (fun tk tk' => exists t, f tk = Ok t /\ tk' = set_ft_text tk t) ts out.
Proof.
  unfold map_texts. revert out. induction ts as [|tk ts IH]; intros out; cbn [mapM].
  - split; [intros H; injection H as <-; constructor|intros H; inversion H; reflexivity].
  - split.
    + intros H. apply bind_ok in H. destruct H as (x & X & H). apply bind_ok in X. destruct X as (t & T & X). injection X as <-. apply bind_ok in H. destruct H as (r & R & H). injection H as <-.
      constructor; [eauto|]. apply IH, R.
    + intros H. inversion H as [|? ? ? r (t & T & ->) F]; subst. rewrite T. cbn [bind]. apply IH in F. rewrite F. reflexivity.
Qed.

Lemma keeps_set d tk t : by_details d -> keeps d (set_ft_text tk t) = keeps d tk.
Proof. intros B. destruct B; destruct tk; reflexivity. Qed.
Theorem rewriting_commutes e r d ts out : rewrites r -> by_details d -> Forall some_details ts -> then_run e r d ts = Ok out -> then_run e d r ts = Ok out.
Proof.
  intros R B F H. unfold then_run in *. rewrite (run_rewrites e r ts R) in H. destruct (map_texts (new_text e r) ts) as [mid| |] eqn:M; try discriminate H.
  apply map_texts_inv in M. rewrite (run_keeps e d ts (or_introl B) F). rewrite (run_rewrites e r _ R).
  assert (F' : Forall some_details mid). { clear H. revert F. induction M as [|tk tk' ts mid (t & _ & ->) M IH]; intros F; [constructor|]. inversion F as [|? ? F1 F2]; subst. constructor; [exact F1|exact (IH F2)]. }
  rewrite (run_keeps e d mid (or_introl B) F') in H. injection H as <-. apply map_texts_inv. clear F F'.
  induction M as [|tk tk' ts mid (t & T & ->) M IH]; cbn [filter]; [constructor|]. rewrite (keeps_set d tk t B). destruct (keeps d tk); [constructor; eauto|exact IH].
Qed.

Lemma detail_text_set i tk t t' : detail_text i tk = Ok t -> t' = t \/ (i <> None /\ hd [] (ft_details tk) <> lit "UNK") -> detail_text i (set_ft_text tk t') = Ok t.
Proof.
  unfold detail_text, unknown_detail. replace (ft_details (set_ft_text tk t')) with (ft_details tk) by (destruct tk; reflexivity). replace (ft_text (set_ft_text tk t')) with t' by (destruct tk; reflexivity).
  destruct (ft_details tk) as [|d ds]; [discriminate|]. cbn [idx hd bind nth_error]. change (idx (d :: ds) 0) with (Ok d). cbn [bind].
  destruct (str_eqb d (lit "UNK")) eqn:E; intros H [->|[NI NU]].
  - reflexivity.
  - apply str_eqb_spec in E. congruence.
  - destruct i; [exact H|]. reflexivity.
  - destruct i; [exact H|congruence].
Qed.
Definition place_of (d : token_filter_def) : option nat := match d with TFBaseForm k => base_detail k | TFReadingForm k => reading_detail k | TFKoreanReadingForm => Some 3 | _ => None end.
Theorem showing_again e d ts out : shows_detail d -> run_token_filter e d ts = Ok out -> run_token_filter e d out = Ok out.
Proof.
  intros S H. assert (X : rewrites d /\ forall tk, new_text e d tk = detail_text (place_of d) tk) by (destruct S; split; try constructor; reflexivity).
  destruct X as (R & E). rewrite (run_rewrites e d ts R) in H. rewrite (run_rewrites e d out R). apply map_texts_inv in H. apply map_texts_inv.
  induction H as [|tk tk' ts out (t & T & ->) M IH]; constructor; [|exact IH]. exists t. split; [|destruct tk; reflexivity]. rewrite E in T. rewrite E. apply detail_text_set; [exact T|left; reflexivity].
Qed.
Theorem showing_last e r d ts out : rewrites r -> shows_detail d -> Forall (fun tk => hd [] (ft_details tk) <> lit "UNK") ts ->
  then_run e r d ts = Ok out -> run_token_filter e d ts = Ok out.
Proof.
  intros Rr S F H. assert (X : rewrites d /\ place_of d <> None /\ forall tk, new_text e d tk = detail_text (place_of d) tk).
  { destruct S as [k I|k I|]; (split; [constructor|split; [|reflexivity]]); cbn [place_of]; try discriminate; destruct I as [<-|[<-|[<-|[]]]]; discriminate. }
  destruct X as (R & PL & E). unfold then_run in H. rewrite (run_rewrites e r _ Rr) in H. destruct (map_texts (new_text e r) ts) as [mid| |] eqn:M; try discriminate H.
  rewrite (run_rewrites e d mid R) in H. rewrite (run_rewrites e d ts R). apply map_texts_inv in M, H. apply map_texts_inv. revert out H. induction M as [|tk tk' ts mid (t & T & ->) M IH]; intros out H; inversion H as [|? ? ? o (t' & T' & ->) H2]; subst; constructor.
  - inversion F; subst. exists t'. split; [|destruct tk; reflexivity]. rewrite E in T'. rewrite E.
    replace tk with (set_ft_text (set_ft_text tk t) (ft_text tk)) by (destruct tk; reflexivity). apply detail_text_set; [exact T'|]. right. split; [exact PL|]. destruct tk; assumption.
  - inversion F; subst. apply IH; assumption.
Qed.
