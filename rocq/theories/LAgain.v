(** Filters applied a second time. *)
From Coq Require Import List NArith ZArith Bool Lia ZifyBool ZifyNat ZifyN.
From Verif Require Import MBase MUtf8 MText MCodec MDict MBuild MCharFilter MAnalyzer MTokenFilter MConfig
  SCharFilter STokenFilter SNumber SAgain LBase LUtf8 LOffset LMapping LCharFilter LKana LTokenFilter LNumeral LTokenProps LNumber LSame.
Import ListNotations.
Local Open Scope list_scope.

(** ** Token filters *)

Lemma retain_again {A} (f : A -> res bool) l : forall out, retain f l = Ok out -> retain f out = Ok out.
Proof.
  induction l as [|x l IH]; intros out H; cbn [retain] in H; [injection H as <-; reflexivity|].
  apply bind_ok in H. destruct H as (b & E & H). apply bind_ok in H. destruct H as (r & R & H). injection H as <-.
  destruct b; [|exact (IH _ R)]. cbn [retain]. rewrite E. cbn [bind]. rewrite (IH _ R). reflexivity.
Qed.

Lemma map_texts_again f : (forall tk t, f tk = Ok t -> f (set_ft_text tk t) = Ok t) -> forall ts out, map_texts f ts = Ok out -> map_texts f out = Ok out.
Proof.
  intros S ts out H. apply map_texts_inv in H. apply map_texts_inv. induction H as [|tk tk' ts out (t & T & ->) M IH]; constructor; [|exact IH].
  exists t. split; [exact (S _ _ T)|destruct tk; reflexivity].
Qed.

Lemma concat_token_tag cfg t1 t2 t : concat_token cfg t1 t2 = Ok t -> exists p, token_tag t = Ok p.
Proof.
  intros H. unfold concat_token in H. apply bind_ok in H. destruct H as (ds & D & H). injection H as <-.
  eexists. apply token_tag_ok. cbn [ft_details]. intros ->.
  destruct (cc_new_tag cfg) as [nt|]; [|discriminate D]. unfold compound_details in D. destruct (split_char 44%N nt) as [|p ps]; cbn [overwrite] in D; [discriminate D|].
  apply bind_ok in D. destruct D as (r & _ & D). discriminate D.
Qed.

Lemma compound_again_loop cfg ts : forall cur out, (forall t, cur = Some t -> exists p, token_tag t = Ok p) ->
  compound_loop cfg ts cur = Ok out -> compound_loop cfg out None = Ok out.
Proof.
  induction ts as [|tk ts IH]; intros cur out C H; cbn [compound_loop] in H.
  - injection H as <-. destruct cur as [t|]; [|reflexivity]. destruct (C t eq_refl) as (p & P). cbn [compound_loop]. rewrite P. cbn [bind].
    destruct (contains (cc_tags cfg) p); reflexivity.
  - apply bind_ok in H. destruct H as (pos & P & H). destruct (contains (cc_tags cfg) pos) eqn:K.
    + destruct cur as [t|].
      * apply bind_ok in H. destruct H as (t' & T & H). apply (IH (Some t')); [|exact H]. intros u E. injection E as <-. exact (concat_token_tag _ _ _ _ T).
      * apply (IH (Some tk)); [|exact H]. intros u E. injection E as <-. eauto.
    + apply bind_ok in H. destruct H as (rest & R & H). injection H as <-. assert (X := IH None rest ltac:(discriminate) R).
      assert (Y : compound_loop cfg (tk :: rest) None = Ok (tk :: rest)) by (cbn [compound_loop]; rewrite P; cbn [bind]; rewrite K, X; reflexivity).
      destruct cur as [t|]; [|exact Y]. destruct (C t eq_refl) as (p & Q). cbn [compound_loop]. rewrite Q. cbn [bind].
      destruct (contains (cc_tags cfg) p); cbn [compound_loop].
      * rewrite P. cbn [bind]. rewrite K, X. reflexivity.
      * cbn [compound_loop] in Y. rewrite Y. reflexivity.
Qed.

Lemma glyph_decimal d : (d <= 9)%N -> glyph d (48 + d)%N.
Proof.
  intros H. assert (X : (d = 0 \/ d = 1 \/ d = 2 \/ d = 3 \/ d = 4 \/ d = 5 \/ d = 6 \/ d = 7 \/ d = 8 \/ d = 9)%N) by lia.
  repeat (destruct X as [->|X]); try subst d; eexists; (split; [unfold digit_glyphs; cbn [In]; auto 16|left; reflexivity]).
Qed.
Lemma digit_no_unit d : (d <= 9)%N -> ~ is_unit (48 + d)%N.
Proof.
  intros H U. apply is_unit_of in U. destruct U as (e & U). apply unit_no_digit in U. destruct (glyph_facts _ _ (glyph_decimal d H)) as (E & _). congruence.
Qed.
Lemma image_fixed c c' : ~ is_unit c -> glyph_image c c' -> ~ is_unit c' /\ glyph_image c' c'.
Proof.
  intros U [(d & G & ->)|(N & ->)].
  - destruct (glyph_facts _ _ G) as (_ & L & _). split; [exact (digit_no_unit d L)|]. left. exists d. split; [exact (glyph_decimal d L)|reflexivity].
  - split; [exact U|]. right. auto.
Qed.
Lemma read_fixed b s r : read_as b s r -> Forall (fun c => ~ is_unit c /\ glyph_image c c) r.
Proof.
  induction 1 as [b|b c s c' r U G R IH|b c s n r x R IH RM L LD]; [constructor|constructor; [exact (image_fixed _ _ U G)|exact IH]|].
  assert (D0 : ~ is_unit 48%N /\ glyph_image 48%N 48%N) by (split; [exact (digit_no_unit 0 ltac:(lia))|left; exists 0%N; split; [exact (glyph_decimal 0 ltac:(lia))|reflexivity]]).
  assert (D1 : ~ is_unit 49%N /\ glyph_image 49%N 49%N) by (split; [exact (digit_no_unit 1 ltac:(lia))|left; exists 1%N; split; [exact (glyph_decimal 1 ltac:(lia))|reflexivity]]).
  apply Forall_app. split; [destruct LD; [constructor; [exact D1|constructor]|constructor]|]. apply Forall_app. split; [|exact IH].
  apply Forall_forall. intros y I. apply repeat_spec in I. subst y. exact D0.
Qed.
Theorem number_again s r : to_arabic_numerals s = Ok r -> to_arabic_numerals r = Ok r.
Proof.
  intros H. apply number_exact, read_fixed in H. destruct (plain_text r) as (r' & E & F); [revert H; apply Forall_impl; tauto|].
  rewrite E. f_equal. symmetry. apply (images_fun r r); [|exact F]. clear -H. induction H as [|c r (_ & G) H IH]; constructor; assumption.
Qed.

Theorem tokens_again e d ts out : once_enough e d -> run_token_filter e d ts = Ok out -> run_token_filter e d out = Ok out.
Proof.
  intros O H. destruct d; cbn [run_token_filter once_enough] in *; try contradiction; try (exact (retain_again _ _ _ H)).
  - apply map_texts_again in H; [exact H|]. intros tk t T. apply detail_text_set; [exact T|left; reflexivity].
  - exact (compound_again_loop _ _ None out ltac:(discriminate) H).
  - apply map_texts_again in H; [exact H|]. intros tk t T. injection T as <-. destruct tk; cbn. f_equal. apply O.
  - apply map_texts_again in H; [exact H|]. intros tk t T. apply bind_ok in T. destruct T as (tag & G & T).
    assert (G' : token_tag (set_ft_text tk t) = Ok tag) by (destruct tk; exact G). rewrite G'. cbn [bind].
    assert (X : ft_text (set_ft_text tk t) = t) by (destruct tk; reflexivity). rewrite X.
    destruct tags as [l|]; [destruct (contains l tag); [|reflexivity]|]; exact (number_again _ _ T).
  - apply map_texts_again in H; [exact H|]. intros tk t T. apply detail_text_set; [exact T|left; reflexivity].
  - apply map_texts_again in H; [exact H|]. intros tk t T. apply detail_text_set; [exact T|left; reflexivity].
  - apply map_texts_again in H; [exact H|]. intros tk t T. injection T as <-. destruct tk; cbn. f_equal. apply O.
  - apply map_texts_again in H; [exact H|]. intros tk t T. injection T as <-. destruct tk; cbn. f_equal. apply O.
Qed.

(** ** Katakana stems *)

Lemma katakana_known fb text b : blocks_ok fb -> is_katakana fb text = Ok b -> (b = true <-> Forall in_katakana text).
Proof.
  intros [B1 B2]. revert b. induction text as [|c text IH]; intros b H; cbn [is_katakana] in H; [injection H as <-; split; constructor|].
  destruct (fb c) as [bl|] eqn:E; [|discriminate H]. destruct (block_eqb bl KATAKANA) eqn:Q.
  - unfold block_eqb, KATAKANA in Q. rewrite andb_true_iff, !N.eqb_eq in Q. cbn [fst snd] in Q. destruct Q as [Q1 Q2]. rewrite (IH b H). split.
    + intros F. constructor; [|exact F]. specialize (B1 _ _ E). unfold in_katakana. rewrite Q1, Q2 in B1. exact B1.
    + intros F. exact (Forall_inv_tail F).
  - injection H as <-. split; [discriminate|]. intros F. exfalso. rewrite (B2 _ (Forall_inv F)) in E. injection E as <-. discriminate Q.
Qed.
Lemma katakana_true fb text : blocks_ok fb -> Forall in_katakana text -> is_katakana fb text = Ok true.
Proof.
  intros [B1 B2]. induction 1 as [|c text K F IH]; cbn [is_katakana]; [reflexivity|]. rewrite (B2 _ K). exact IH.
Qed.
Lemma ends_false s c : ends_with_char s c = false -> forall body, s <> body ++ [c].
Proof. intros E body ->. assert (X : ends_with_char (body ++ [c]) c = true) by (apply ends_with_char_spec; eauto). congruence. Qed.

Lemma stem_mark fb min body : blocks_ok fb -> Forall in_katakana (body ++ [0x30FC%N]) ->
  stem fb min (body ++ [0x30FC%N]) = if Nat.ltb min (List.length (body ++ [0x30FC%N])) then Ok body else Ok (body ++ [0x30FC%N]).
Proof.
  intros B K. unfold stem. rewrite (katakana_true fb _ B K). cbn [bind negb].
  assert (X : ends_with_char (body ++ [0x30FC%N]) PROLONGED_SOUND_MARK = true) by (apply ends_with_char_spec; exists body; reflexivity). rewrite X. cbn [andb]. unfold char in *.
  destruct (Nat.ltb min (List.length (body ++ [0x30FC%N]))); [|reflexivity].
  rewrite blen_app. change (blen [0x30FC%N]) with (width PROLONGED_SOUND_MARK). rewrite Nat.add_sub. apply str_to_app.
Qed.

Theorem stem_again fb min text t : blocks_ok fb -> stem fb min text = Ok t -> (stem fb min t = Ok t <-> ~ two_marks min text).
Proof.
  intros B H. assert (U : forall s k, is_katakana fb s = Ok k -> (forall b, k = true -> s = b ++ [0x30FC%N] -> List.length s <= min) -> stem fb min s = Ok s).
  { intros s k E F. unfold stem. rewrite E. cbn [bind]. destruct k; cbn [negb]; [|reflexivity].
    destruct (ends_with_char s PROLONGED_SOUND_MARK) eqn:W; cbn [andb]; [|reflexivity]. apply ends_with_char_spec in W. destruct W as (b & ->).
    specialize (F b eq_refl eq_refl). destruct (Nat.ltb_spec min (List.length (b ++ [PROLONGED_SOUND_MARK]))); [lia|reflexivity]. }
  split.
  - intros A (body & -> & K & L). unfold str, char in *. change (body ++ [0x30FC; 0x30FC]%N) with (body ++ [0x30FC%N] ++ [0x30FC%N]) in *. rewrite app_assoc in *.
    rewrite (stem_mark fb min _ B K) in H. destruct (Nat.ltb_spec min (List.length ((body ++ [0x30FC%N]) ++ [0x30FC%N]))) as [_|X]; [|lia]. injection H as <-.
    apply Forall_app in K. destruct K as [K _]. rewrite (stem_mark fb min _ B K) in A. rewrite !app_length in L. cbn [List.length] in L.
    destruct (Nat.ltb_spec min (List.length (body ++ [0x30FC%N]))) as [_|X]; [|rewrite app_length in X; cbn [List.length] in X; lia].
    injection A as A. apply (f_equal (@List.length _)) in A. rewrite app_length in A. cbn [List.length] in A. lia.
  - intros NT. assert (E : exists k, is_katakana fb text = Ok k).
    { unfold stem in H. apply bind_ok in H. destruct H as (k & E & _). eauto. }
    destruct E as (k & E). pose proof (katakana_known fb text k B E) as KK.
    destruct (ends_with_char text PROLONGED_SOUND_MARK) eqn:W.
    + apply ends_with_char_spec in W. destruct W as (body & ->). change PROLONGED_SOUND_MARK with 0x30FC%N in *.
      unfold two_marks, str, char in *. destruct k.
      * assert (K : Forall in_katakana (body ++ [0x30FC%N])) by (apply KK; reflexivity). rewrite (stem_mark fb min _ B K) in H.
        destruct (Nat.ltb_spec min (List.length (body ++ [0x30FC%N]))) as [L|L]; injection H as <-.
        -- pose proof K as K'. apply Forall_app in K'. destruct K' as [K' _]. apply (U _ true); [exact (katakana_true fb _ B K')|].
           intros b _ ->. destruct (Nat.le_gt_cases (List.length (b ++ [0x30FC%N])) min) as [|G]; [assumption|]. exfalso. apply NT. exists b.
           rewrite <- app_assoc in *. split; [reflexivity|]. split; [exact K|]. rewrite !app_length in *. cbn [List.length] in *. lia.
        -- apply (U _ true E). intros. exact L.
      * unfold stem in H. rewrite E in H. cbn [bind negb] in H. injection H as <-. apply (U _ false E). discriminate.
    + unfold stem in H. rewrite E in H. cbn [bind] in H. rewrite W in H. cbn [andb] in H.
      assert (X : Ok text = Ok t) by (destruct k; exact H). injection X as <-. apply (U _ k E). intros b _ Eb. destruct (ends_false _ _ W _ Eb).
Qed.

(** ** Iteration marks *)

Lemma pair_voices pairs kanji kana c : pairs = voiced_hiragana \/ pairs = voiced_katakana -> mark_action kanji kana c = None ->
  mark_action kanji kana (voice pairs c) = None /\ mark_action kanji kana (unvoice pairs c) = None.
Proof.
  intros P A. assert (X : forall x, In x (map fst pairs ++ map snd pairs) -> mark_action kanji kana x = None).
  { assert (Y : forallb (fun x => negb (existsb (N.eqb x) [0x3005; 0x309d; 0x309e; 0x30fd; 0x30fe]%N)) (map fst pairs ++ map snd pairs) = true) by (destruct P as [->| ->]; vm_compute; reflexivity).
    rewrite forallb_forall in Y. intros x I. specialize (Y x I). apply negb_true_iff in Y. cbn [existsb] in Y. rewrite !orb_false_iff in Y.
    destruct Y as (Y1 & Y2 & Y3 & Y4 & Y5 & _). unfold mark_action. rewrite Y1, Y2, Y3, Y4, Y5. reflexivity. }
  split.
  - unfold voice. destruct (find _ pairs) as [[a b]|] eqn:F; [|exact A]. apply find_some in F. apply X, in_or_app. right. apply in_map_iff. exists (a, b). tauto.
  - unfold unvoice. destruct (find _ pairs) as [[a b]|] eqn:F; [|exact A]. apply find_some in F. apply X, in_or_app. left. apply in_map_iff. exists (a, b). tauto.
Qed.
Lemma action_no_mark kanji kana mark f c : mark_action kanji kana mark = Some f -> mark_action kanji kana c = None -> mark_action kanji kana (f c) = None.
Proof.
  intros F A. unfold mark_action in F at 1.
  repeat match type of F with (if ?b then _ else _) = _ => destruct b end; try discriminate F; injection F as <-; cbv beta;
    lazymatch goal with
    | |- mark_action _ _ (voice ?p ?x) = _ => apply (pair_voices p _ _ x); [first [left; reflexivity|right; reflexivity]|exact A]
    | |- mark_action _ _ (unvoice ?p ?x) = _ => apply (pair_voices p _ _ x); [first [left; reflexivity|right; reflexivity]|exact A]
    | _ => exact A
    end.
Qed.
Lemma no_marks_expanded kanji kana text : (forall p c, nth_error text p = Some c -> mark_action kanji kana c = None) -> marks_expanded kanji kana text text.
Proof. intros H. split; [reflexivity|]. intros p c E. rewrite (H p c E). exact E. Qed.

Theorem marks_again cfg text out : repeats_no_mark (ic_kanji cfg) (ic_kana cfg) text ->
  iteration_apply cfg text = Ok (out, [], []) -> iteration_apply cfg out = Ok (out, [], []).
Proof.
  intros R H. destruct (iteration_spec cfg text) as (o & E & M). rewrite H in E. injection E as <-.
  assert (X : marks_expanded (ic_kanji cfg) (ic_kana cfg) out out).
  { apply no_marks_expanded. intros p x Ex. destruct M as [L M]. destruct (nth_error text p) as [c|] eqn:Ec.
    - specialize (M p c Ec). destruct (mark_action (ic_kanji cfg) (ic_kana cfg) c) as [f|] eqn:A.
      + destruct M as (s & n & c' & RN & B & C & D). rewrite D in Ex. injection Ex as <-. apply (action_no_mark _ _ c f c' A).
        destruct (mark_action (ic_kanji cfg) (ic_kana cfg) c') as [g|] eqn:A'; [|reflexivity]. exfalso. apply (R s n p RN B). exists c', g. auto.
      + congruence.
    - exfalso. apply nth_error_None in Ec. assert (nth_error out p <> None) by congruence. apply nth_error_Some in H0. lia. }
  destruct (iteration_spec cfg out) as (o & E & M'). rewrite E. rewrite (marks_expanded_unique _ _ _ _ _ M' X). reflexivity.
Qed.

(** ** Mappings *)

Lemma free_unchanged m text : (forall k v, In (k, v) m -> k <> []) -> free_of_keys m text -> replaced m text text (map (fun c => (width c, width c)) text).
Proof.
  intros NE. induction text as [|c text IH]; intros F; [constructor|]. cbn [map]. apply replaced_char.
  - intros k v t I E. apply (F k v [] t I). exact E.
  - apply IH. intros k v a b I ->. apply (F k v (c :: a) b I). reflexivity.
Qed.
Lemma record_none (text : str) st : forall e, exists e', record_all (map (fun c => (width c, width c)) text) (st, e) = (st, e').
Proof.
  induction text as [|c text IH]; intros e; [exists e; reflexivity|]. unfold record_all in *. cbn [map fold_left]. rewrite record_same. apply IH.
Qed.
Theorem mapping_free m f text : mapping_keys_ok m -> mapping_new m = Ok f -> valid_str text -> free_of_keys m text ->
  mapping_apply f text = Some (Ok (text, [], [])).
Proof.
  intros K NF V F. assert (EF : Ok (MappingFilter m (mapping_keyset m)) = Ok f) by exact NF. injection EF as <-.
  destruct (mapping_loop_spec m _ K eq_refl (List.length text) text 0%N [] ([], []) V (le_n _)) as (out & segs & st' & e & E1 & E2 & E3).
  assert (NE : forall k v, In (k, v) m -> k <> []).
  { intros k v I. destruct K as (_ & _ & FK & _). rewrite Forall_forall in FK. exact (proj1 (FK _ I)). }
  destruct (replaced_unique m text _ _ (proj1 (proj2 K)) E2 _ _ (free_unchanged m text NE F)) as [-> ->].
  destruct (record_none text ([], []) 0%N) as (e' & R). rewrite E3 in R. injection R as -> ->. exact E1.
Qed.

Lemma replaced_prefix m text out segs : keys_apart m -> replaced m text out segs -> forall k b, (forall c, In c k -> exists k' v', In (k', v') m /\ In c k') ->
  out = k ++ b -> exists t, text = k ++ t.
Proof.
  intros [A1 A2]. induction 1 as [|k0 v0 rest out segs I NE MX R IH|c rest out segs NK R IH]; intros k b C E.
  - destruct k; [exists []; reflexivity|discriminate E].
  - destruct k as [|x k]; [eexists; reflexivity|]. exfalso. destruct v0 as [|y v0]; [destruct (A1 _ _ I); reflexivity|]. cbn [app] in E. injection E as -> _.
    destruct (C x (or_introl eq_refl)) as (k' & v' & I' & Ix). apply (A2 _ _ _ _ x I' I Ix). left. reflexivity.
  - destruct k as [|x k]; [eexists; reflexivity|]. cbn [app] in E. injection E as -> E. destruct (IH k b (fun y Hy => C y (or_intror Hy)) E) as (t & ->). exists t. reflexivity.
Qed.
Lemma replaced_free m text out segs : (forall k v, In (k, v) m -> k <> []) -> keys_apart m -> replaced m text out segs -> free_of_keys m out.
Proof.
  intros KN AP. induction 1 as [|k0 v0 rest out segs I NE MX R IH|c rest out segs NK R IH]; intros k v a b Ik E.
  - destruct a; [|discriminate E]. destruct k; [|discriminate E]. exact (KN _ _ Ik eq_refl).
  - revert a E. assert (X : forall w a, (forall x, In x w -> In x v0) -> w ++ out = a ++ k ++ b -> False).
    { induction w as [|y w IW]; intros a S E; [exact (IH k v a b Ik E)|]. destruct a as [|z a].
      - destruct k as [|x k]; [exact (KN _ _ Ik eq_refl)|]. cbn [app] in E. injection E as -> _. destruct AP as [_ A2]. apply (A2 _ _ _ _ x Ik I (or_introl eq_refl)). apply S. left. reflexivity.
      - cbn [app] in E. injection E as -> E. apply (IW a); [|exact E]. intros x Hx. apply S. right. exact Hx. }
    intros a E. exact (X v0 a (fun x H => H) E).
  - destruct a as [|z a]; [|cbn [app] in E; injection E as -> E; exact (IH k v a b Ik E)]. cbn [app] in E.
    destruct (replaced_prefix m (c :: rest) (c :: out) _ AP (replaced_char m c rest out segs NK R) k b) as (t & T).
    + intros x Hx. exists k, v. auto.
    + exact E.
    + exact (NK k v t Ik T).
Qed.
Lemma replaced_valid m text out segs : Forall (fun kv => valid_str (snd kv)) m -> replaced m text out segs -> valid_str text -> valid_str out.
Proof.
  intros F. rewrite Forall_forall in F. induction 1 as [|k v rest out segs I NE MX R IH|c rest out segs NK R IH]; intros V; [constructor| |].
  - apply valid_str_app in V. apply valid_str_app. split; [exact (F _ I)|apply IH; tauto].
  - inversion V as [|? ? V1 V2]; subst. constructor; [exact V1|exact (IH V2)].
Qed.
Theorem mapping_again m f text out offs diffs : mapping_keys_ok m -> Forall (fun kv => valid_str (snd kv)) m -> keys_apart m -> mapping_new m = Ok f -> valid_str text ->
  mapping_apply f text = Some (Ok (out, offs, diffs)) -> mapping_apply f out = Some (Ok (out, [], [])).
Proof.
  intros K VV AP NF V H. destruct (mapping_filter_spec m text K V) as (f' & NF' & _ & out' & o & d & segs & E & R). rewrite NF in NF'. injection NF' as <-.
  rewrite H in E. injection E as <- <- <-. apply (mapping_free m f); auto; [exact (replaced_valid _ _ _ _ VV R V)|].
  apply (replaced_free m text out segs); auto. intros k v I. destruct K as (_ & _ & FK & _). rewrite Forall_forall in FK. exact (proj1 (FK _ I)).
Qed.
