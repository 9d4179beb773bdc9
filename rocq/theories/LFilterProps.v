(** The character filter lemmas in the form in which the property file states them. *)
From Coq Require Import String.
From Coq Require Import List NArith ZArith Bool Lia ZifyBool ZifyNat ZifyN.
From Verif Require Import MBase MUtf8 MText MCodec MDict MCharDef MUnk MLattice MTokenizer MDetails MBuild MCharFilter MAnalyzer
  STok SBuild SCharDef SCharFilter SAnalyzer LBase LUtf8 LCharDef LOffset LMapping LCharFilter LKana LAnalyzer XSample.
Import ListNotations.
Local Open Scope string_scope.
Local Open Scope list_scope.

Definition mapping_keys_okb (m : list (str * str)) : bool :=
  negb (is_nil m) &&
  forallb (fun '(k, _) => negb (is_nil k) && forallb valid_charb k && negb (existsb (N.eqb 0) k)) m &&
  (N.of_nat (List.length m) <? 2147483648)%N &&
  (fix distinct l := match l with [] => true | x :: r => negb (existsb (str_eqb x) r) && distinct r end) (map fst m).
Lemma mapping_keys_okb_spec m : mapping_keys_okb m = true -> mapping_keys_ok m.
Proof.
  unfold mapping_keys_okb. rewrite !andb_true_iff. intros [[[NE F] L] D]. split; [destruct m; [discriminate NE|discriminate]|]. split; [|split; [|lia]].
  - revert D. generalize (map fst m). induction l as [|x l IH]; intros D; constructor; apply andb_true_iff in D; destruct D as [D1 D2]; [|auto].
    intros I1. apply negb_true_iff in D1. assert (X : existsb (str_eqb x) l = true); [|congruence]. apply existsb_exists. exists x. split; [exact I1|apply str_eqb_refl].
  - apply Forall_forall. intros [k v] I1. rewrite forallb_forall in F. specialize (F _ I1). cbv beta iota in F. rewrite !andb_true_iff in F. destruct F as [[F1 F2] F3].
    split; [destruct k; [discriminate|discriminate]|]. split.
    + apply Forall_forall. intros c Ic. apply valid_charb_iff. rewrite forallb_forall in F2. auto.
    + intros I0. apply negb_true_iff in F3. assert (X : existsb (N.eqb 0) k = true); [|congruence]. apply existsb_exists. exists 0%N. auto.
Qed.

Lemma replaced_one m text out segs out' segs' : NoDup (map fst m) -> replaced m text out segs -> replaced m text out' segs' -> out = out' /\ segs = segs'.
Proof. intros ND R R'. eapply replaced_unique; eauto. Qed.

Lemma mapping_points_back m text f out offs diffs segs : mapping_keys_ok m -> valid_str text -> mapping_new m = Ok f ->
  mapping_apply f text = Some (Ok (out, offs, diffs)) -> replaced m text out segs -> fits_isize (blen text) -> fits_isize (blen out) ->
  in_total segs = blen text /\ out_total segs = blen out /\
  forall search, search_contract search ->
  points_back segs (fun x => correct_offset_with search (N.of_nat x) offs diffs (N.of_nat (blen out))).
Proof.
  intros K V NF AP RP S1 S2. destruct (replaced_totals _ _ _ _ RP) as (T1 & T2 & _). split; [exact T1|]. split; [exact T2|].
  intros search SC. apply source_points_back. rewrite T2. intros x Hx. eapply mapping_offsets; eauto.
Qed.

Lemma normalize_points_back graphemes form text out offs diffs :
  concat (graphemes text) = text -> Forall (fun g => g <> []) (graphemes text) ->
  normalize_apply graphemes form text = (out, offs, diffs) -> fits_isize (blen text) -> fits_isize (blen out) ->
  let segs := grapheme_segments form (graphemes text) in
  out = flat_map form (graphemes text) /\ in_total segs = blen text /\ out_total segs = blen out /\
  forall search, search_contract search ->
  points_back segs (fun x => correct_offset_with search (N.of_nat x) offs diffs (N.of_nat (blen out))).
Proof.
  intros C NE E S1 S2 segs. destruct (normalize_offsets graphemes form text out offs diffs C NE E S1 S2) as [O H].
  destruct (segments_totals form (graphemes text)) as [T1 T2]. rewrite C in T1. rewrite <- O in T2.
  split; [exact O|]. split; [exact T1|]. split; [exact T2|]. intros search SC. apply source_points_back. unfold segs. rewrite T2. intros x Hx. apply H; auto.
Qed.

Lemma regex_points_back rx r ps tail : has_dollar r = false -> let text := whole ps tail in
  rx_find_iter rx text = match_spans 0 ps -> Forall (fun '(_, m) => m <> []) ps \/ r = [] ->
  let out := with_replaced r ps tail in let segs := match_segments r ps tail in fits_isize (blen text) -> fits_isize (blen out) ->
  in_total segs = blen text /\ out_total segs = blen out /\
  exists offs diffs, regex_apply rx r text = Ok (out, offs, diffs) /\
  forall search, search_contract search ->
  points_back segs (fun x => correct_offset_with search (N.of_nat x) offs diffs (N.of_nat (blen out))).
Proof.
  intros ND text FI NE out segs S1 S2. destruct (match_segments_totals r ps tail) as [T1 T2]. split; [exact T1|]. split; [exact T2|].
  destruct (regex_offsets rx r text ps tail ND eq_refl FI NE S1 S2) as (offs & diffs & E & H). exists offs, diffs. split; [exact E|].
  intros search SC. apply source_points_back. unfold segs. rewrite T2. intros x Hx. apply H; auto.
Qed.

Lemma iteration_keeps_offsets cfg text : repeats_three_bytes (ic_kanji cfg) (ic_kana cfg) text ->
  exists out, iteration_apply cfg text = Ok (out, [], []) /\ List.length out = List.length text /\
  forall p len, correct_offset (N.of_nat (blen (firstn p out))) [] [] len = Ok (N.of_nat (blen (firstn p text))).
Proof.
  intros R. destruct (iteration_spec cfg text) as (out & E & M). exists out. split; [exact E|]. split; [exact (proj1 M)|].
  intros p len. rewrite (iteration_offsets _ _ _ _ M R p). reflexivity.
Qed.

Lemma blen_step (a : str) p c : nth_error a p = Some c -> blen (firstn (S p) a) = (blen (firstn p a) + width c)%nat.
Proof.
  revert p. induction a as [|x a IH]; intros [|p] H; try discriminate.
  - injection H as ->. cbn. lia.
  - cbn [nth_error] in H. specialize (IH p H). change (firstn (S (S p)) (x :: a)) with (x :: firstn (S p) a). change (firstn (S p) (x :: a)) with (x :: firstn p a). cbn [blen]. lia.
Qed.

Lemma iteration_exactly cfg text out : iteration_apply cfg text = Ok (out, [], []) ->
  (repeats_three_bytes (ic_kanji cfg) (ic_kana cfg) text <->
   forall p len, correct_offset (N.of_nat (blen (firstn p out))) [] [] len = Ok (N.of_nat (blen (firstn p text)))).
Proof.
  intros E. destruct (iteration_spec cfg text) as (out' & E' & M). rewrite E in E'. injection E' as <-. split.
  - intros R p len. rewrite (iteration_offsets _ _ _ _ M R p). reflexivity.
  - intros H s n p c R B NC.
    assert (B0 : forall q, blen (firstn q out) = blen (firstn q text)).
    { intros q. specialize (H q 0%N). change (Ok (N.of_nat (blen (firstn q out))) = Ok (N.of_nat (blen (firstn q text)))) in H. injection H as H. lia. }
    destruct (proj1 R p B) as (mk & f & NM & AC). destruct M as [L M]. specialize (M p mk NM). rewrite AC in M.
    destruct M as (s' & n' & c' & R' & B' & NC' & NO). destruct (mark_run_unique _ _ _ _ _ _ _ p R R' B B') as [-> ->].
    rewrite NC in NC'. injection NC' as <-. destruct (action_width _ _ _ _ c AC) as [W1 W2].
    pose proof (blen_step _ _ _ NM). pose proof (blen_step _ _ _ NO). rewrite !B0 in H1. lia.
Qed.

Lemma repeats_sample : repeats_three_bytes true true [0x6642; 0x3005; 97]%N.
Proof.
  intros s n p c (A & B & C) H E.
  assert (L : forall q, is_mark_at true true [0x6642; 0x3005; 97]%N q -> q = 1).
  { intros q (x & f & N & M). destruct q as [|[|[|[|q]]]]; cbn in N; try discriminate; [|reflexivity|]; injection N as <-; discriminate. }
  assert (p = 1) by (apply L, A; exact H). subst p.
  assert (s = 1) by (apply L, A; lia). subst s.
  assert (n = 1).
  { destruct n as [|[|n]]; [lia|reflexivity|]. assert (X : 2 = 1) by (apply L, A; lia). discriminate. }
  subst n. cbn in E. injection E as <-. reflexivity.
Qed.

Lemma iteration_short : exists cfg text out, iteration_apply cfg text = Ok (out, [], []) /\ text = [63; 0x309D]%N /\
  correct_offset (N.of_nat (blen out)) [] [] (N.of_nat (blen out)) = Ok 2%N /\ blen text = 4 /\
  forall p, blen (firstn p text) <> 2.
Proof.
  exists (IterationConfig true true), [63; 0x309D]%N, [63; 63]%N. split; [vm_compute; reflexivity|]. split; [reflexivity|].
  split; [vm_compute; reflexivity|]. split; [vm_compute; reflexivity|].
  intros [|[|[|p]]]; vm_compute; discriminate.
Qed.

Lemma voicing_laws_both pairs : pairs = voiced_hiragana \/ pairs = voiced_katakana -> forall c,
  voice pairs (voice pairs c) = voice pairs c /\ unvoice pairs (unvoice pairs c) = unvoice pairs c /\
  unvoice pairs (voice pairs c) = unvoice pairs c /\ voice pairs (unvoice pairs c) = voice pairs c /\
  width (voice pairs c) = width c /\ width (unvoice pairs c) = width c /\
  (valid_char c -> valid_char (voice pairs c) /\ valid_char (unvoice pairs c)).
Proof.
  intros P c. rewrite <- !valid_charb_iff. destruct P as [-> | ->].
  - apply (voicing_laws voiced_hiragana 0x304b). left. auto.
  - apply (voicing_laws voiced_katakana 0x30ab). right. auto.
Qed.

Definition sample_segments : list (list segment) :=
  [[(1, 1); (1, 2); (1, 1); (1, 1); (1, 1); (1, 2); (1, 1)]; [(1, 1); (2, 1); (2, 1); (1, 1); (2, 1); (1, 1)]].

Ltac key_step k v := match goal with |- replaced ?m ?text ?out _ =>
  let rest := eval vm_compute in (skipn (List.length k) text) in let o := eval vm_compute in (skipn (List.length v) out) in
  change (replaced m (k ++ rest) (v ++ o)) end.

Lemma two_filters : exists f1 f2 segss, mapping_new [(lit "q", lit "xx")] = Ok f1 /\ mapping_new [(lit "xx", lit "y")] = Ok f2 /\
  let a := Analyzer [mapping_apply f1; mapping_apply f2] (sample Normal [sample_unk]) [] in
  filtered (an_char_filters a) (lit "zqxx" ++ [10%N] ++ lit "qz") (lit "zyy" ++ [10%N] ++ lit "yz") segss /\
  boundaries segss 3 4 /\
  analyze a (lit "zqxx" ++ [10%N] ++ lit "qz") = Some (Ok
    [FToken (lit "zyy" ++ [10%N]) 0 5 0 1 (WordId u32_max true) [lit "UNK"];
     FToken (lit "yz") 5 7 1 1 (WordId u32_max true) [lit "UNK"]]).
Proof.
  eexists. eexists. exists sample_segments. split; [reflexivity|]. split; [reflexivity|]. intros a. subst a. cbn [an_char_filters].
  assert (K1 : mapping_keys_ok [(lit "q", lit "xx")]) by (apply mapping_keys_okb_spec; vm_compute; reflexivity).
  assert (K2 : mapping_keys_ok [(lit "xx", lit "y")]) by (apply mapping_keys_okb_spec; vm_compute; reflexivity).
  split; [|split].
  - apply filtered_more with (mid := lit "zxxxx" ++ [10%N] ++ lit "xxz").
    + eexists; [vm_compute; reflexivity|]. split; [vm_compute; reflexivity|]. eexists. eexists. split; [vm_compute; reflexivity|].
      intros x Hx. vm_compute in Hx. do 10 (destruct x as [|x]; [vm_compute; reflexivity|]). exfalso. lia.
    + apply filtered_more with (mid := lit "zyy" ++ [10%N] ++ lit "yz"); [|constructor].
      eexists; [vm_compute; reflexivity|]. split; [vm_compute; reflexivity|]. eexists. eexists. split; [vm_compute; reflexivity|].
      intros x Hx. vm_compute in Hx. do 7 (destruct x as [|x]; [vm_compute; reflexivity|]). exfalso. lia.
  - eapply boundaries_more with (y := 5); [|eapply boundaries_more; [|apply boundaries_none]].
    + exists [(1, 1); (1, 2); (1, 1); (1, 1)], [(1, 1); (1, 2); (1, 1)]. repeat split. lia.
    + exists [(1, 1); (2, 1); (2, 1)], [(1, 1); (2, 1); (1, 1)]. repeat split. lia.
  - vm_compute. reflexivity.
Qed.
