(** Tokenizers for which the categories are looked up often. *)
From Coq Require Import String.
From Coq Require Import List NArith ZArith Bool Lia.
From Verif Require Import MBase MUtf8 MText MCodec MDict MCharDef MUnk MLattice MTokenizer MReads STok SReads LUtf8 LScan LCand LWork LReads XSample.
Import ListNotations.
Local Open Scope string_scope.
Local Open Scope list_scope.
Local Open Scope nat_scope.

(* the sample, but unknown words are made even where dictionary words start *)
Definition eager (m : mode) : tokenizer :=
  Tokenizer (Dictionary sample_dict (ConnMatrix (i16_bytes 3) 1)
               (CharDefinitions [CategoryData true true 0] [lit "DEFAULT"] (LookupTable [0%N] [[0%nat]]))
               (UnknownDictionary [[0%N]] [sample_unk]) [] []) (Some sample_user) m.
Definition eager_meaning : adict :=
  ADict sample_sys sample_usr (fun _ => [0%nat]) (fun _ => true) (fun _ => true) (fun _ => [sample_unk]) (fun _ _ => 3%Z) 1 1.
Lemma sample_unk_fine : Forall (fun e => we_left e = 0%N /\ we_right e = 0%N /\ is_i16 (we_cost e)) [sample_unk].
Proof. repeat constructor; cbn; lia. Qed.
Lemma eager_represents m : represents (eager m) eager_meaning.
Proof.
  pose proof (sample_represents m [sample_unk] sample_unk_fine) as R. constructor.
  - exact (rep_sys _ _ R).
  - exact (rep_usr _ _ R).
  - exact (rep_cats _ _ R).
  - intros c k V [<-|[]]. exists 0%N. reflexivity.
  - exact (rep_unk _ _ R).
  - exact (rep_conn _ _ R).
  - exact (rep_sizes _ _ R).
  - exact (rep_sys_ok _ _ R).
  - exact (rep_usr_ok _ _ R).
  - exact (rep_unk_ok _ _ R).
Qed.

Local Notation a := 97%N.
Lemma blen_as n : blen (repeat a n) = n.
Proof. induction n as [|n IH]; [reflexivity|]. cbn [repeat blen]. rewrite IH. reflexivity. Qed.
Lemma valid_as n : valid_str (repeat a n).
Proof. induction n; constructor; [unfold valid_char; lia|assumption]. Qed.

Lemma unk_fold_grows A found start s cats : forall es ue, exists new, fst (fold_left (unk_step A found start s) cats (es, ue)) = es ++ new.
Proof.
  induction cats as [|[ord k] cats IH]; intros es ue; [exists []; rewrite app_nil_r; reflexivity|]. cbn [fold_left]. unfold unk_step at 2.
  destruct (unk_surface A found s ord k) as [w|]; [|apply IH]. destruct (IH (es ++ map (fun e => word_edge UNKNOWN start (w, e)) (a_unk A k)) (Some (start + blen w))) as [new ->]. rewrite <- app_assoc. eexists. reflexivity.
Qed.
Lemma as_found k : exists e, In (lit "a", e) (dict_words eager_meaning (repeat a (S k))).
Proof.
  exists (sample_entry 0 true 10). apply dict_words_in. split; [discriminate|]. split; [exists (repeat a k); reflexivity|]. right. left. reflexivity.
Qed.
Lemma as_reached m n : forall i, i <= n -> reachb (fst (fold_left (pure_step eager_meaning m (repeat a n)) (seq 0 i) ([], None))) i = true.
Proof.
  induction i as [|i IH]; intros L; [reflexivity|]. rewrite seq_S, fold_left_app. cbn [fold_left Nat.add]. specialize (IH ltac:(lia)).
  destruct (fold_left (pure_step eager_meaning m (repeat a n)) (seq 0 i) ([], None)) as [es ue]. cbn [fst] in IH. unfold pure_step. cbn [fst]. rewrite IH.
  assert (SA : suffix_at (repeat a n) i = repeat a (S (n - S i))).
  { pose proof (suffix_at_app (repeat a i) (repeat a (S (n - S i)))) as X. rewrite blen_as, <- repeat_app in X. replace (i + S (n - S i)) with n in X by lia. exact X. }
  rewrite SA. unfold pos_step. destruct (as_found (n - S i)) as [e I].
  assert (G : forall new, reachb ((es ++ map (word_edge KNOWN i) (dict_words eager_meaning (repeat a (S (n - S i))))) ++ new) (S i) = true).
  { intros new. apply reachb_app. unfold reachb. rewrite existsb_app. cbn [Nat.eqb orb]. apply orb_true_iff. right. apply existsb_exists.
    exists (word_edge KNOWN i (lit "a", e)). split; [apply in_map, I|]. cbn. apply Nat.eqb_eq. lia. }
  destruct (unk_active m ue i); [|cbn [fst]; rewrite <- (app_nil_r (es ++ _)); apply G]. cbn [repeat]. change (a :: repeat a (n - S i)) with (repeat a (S (n - S i))).
  match goal with |- context [fold_left (unk_step ?A ?f ?p ?s) ?c (?e0, ?u)] => destruct (unk_fold_grows A f p s c e0 u) as [new N] end. rewrite N. apply G.
Qed.
Lemma as_look k : look_len eager_meaning 0 0 (repeat a k) = k.
Proof. induction k as [|k IH]; [reflexivity|]. cbn [repeat look_len eager_meaning a_cats nth_error Nat.eqb]. f_equal. exact IH. Qed.
Definition len (s : str) : nat := List.length s.
Lemma over_length (s : str) : 2 * over len s = len s * S (len s).
Proof. induction s as [|c r IH]; [reflexivity|]. cbn [over]. assert (E : len (c :: r) = S (len r)) by reflexivity. rewrite E. nia. Qed.

(* every place is reached by the word a, and the rest of the text is read there *)
Lemma eager_counted p n : 0 < n -> exists l k, counted_lattice (eager (Decompose p)) (Decompose p) (repeat a n) = Ok (l, k) /\ 2 * k = n * S n.
Proof.
  intros P. unfold counted_lattice. rewrite (counted_text_looks _ _ (eager_represents (Decompose p))); [|apply valid_as|destruct n; [lia|discriminate]|left; auto].
  eexists. eexists. split; [reflexivity|].
  pose proof (looks_every eager_meaning (Decompose p) (repeat a n) len (blen (repeat a n)) [] (repeat a n) eq_refl eq_refl ([], None)) as E.
  cbn [blen Nat.add] in E. rewrite E; [|clear E|reflexivity].
  - rewrite (sum_over len) by reflexivity. rewrite over_length. unfold len. rewrite repeat_length. reflexivity.
  - intros pre' c r T. pose proof (repeat_eq_app _ _ _ _ T) as [T1 T2]. cbn [List.length repeat] in T2. injection T2 as <- T2. assert (K : exists k, r = repeat a k) by (eexists; symmetry; exact T2). clear T2. destruct K as [k ->].
    assert (LN : List.length pre' < n) by (apply (f_equal (@List.length N)) in T; rewrite repeat_length, app_length in T; cbn [List.length] in T; lia).
    rewrite <- T1, blen_as. split; [apply as_reached; lia|]. unfold pos_looks, unk_active. cbn [is_search orb].
    destruct (as_found k) as [e I]. cbn [repeat] in I. destruct (dict_words eager_meaning (a :: repeat a k)) as [|x xs] eqn:D; [destruct I|].
    change (S (look_len eager_meaning 0 0 (repeat a k) + 0) = len (a :: repeat a k)). rewrite as_look. unfold len. cbn [List.length]. rewrite repeat_length. lia.
Qed.

(* every character is in a grouping and in a non-grouping category, as the numerals among the Chinese characters *)
Definition double : tokenizer :=
  Tokenizer (Dictionary sample_dict (ConnMatrix (i16_bytes 3) 1)
               (CharDefinitions [CategoryData true true 0; CategoryData false false 2] [lit "KANJINUMERIC"; lit "KANJI"] (LookupTable [0%N] [[0%nat; 1%nat]]))
               (UnknownDictionary [[0%N]; [0%N]] [sample_unk]) [] []) None Normal.

Definition double_meaning : adict :=
  ADict sample_sys [] (fun _ => [0%nat; 1%nat]) (fun k => Nat.eqb k 0) (fun k => Nat.eqb k 0) (fun _ => [sample_unk]) (fun _ _ => 3%Z) 1 1.
Lemma double_represents : represents double double_meaning.
Proof.
  pose proof (sample_represents Normal [sample_unk] sample_unk_fine) as R. constructor.
  - exact (rep_sys _ _ R).
  - reflexivity.
  - intros c V. unfold lookup_categories, lt_eval, lt_eval_with, binary_search. cbn [double t_dictionary d_chardef cds_mapping lt_boundaries lt_values binary_search_from].
    destruct (0 =? c)%N; [reflexivity|]. destruct (c <? 0)%N eqn:E; [lia|]. reflexivity.
  - intros c k V [<-|[<-|[]]]; eexists; reflexivity.
  - intros c k V [<-|[<-|[]]]; eexists; (split; reflexivity).
  - exact (rep_conn _ _ R).
  - exact (rep_sizes _ _ R).
  - exact (rep_sys_ok _ _ R).
  - intros k e [].
  - intros c k e V _ I. apply (rep_unk_ok _ _ R c 0 e V (or_introl eq_refl) I).
Qed.

Local Notation x := 120%N.
Lemma blen_xs n : blen (repeat x n) = n.
Proof. induction n as [|n IH]; [reflexivity|]. cbn [repeat blen]. rewrite IH. reflexivity. Qed.
Lemma valid_xs n : valid_str (repeat x n).
Proof. induction n; constructor; [unfold valid_char; lia|assumption]. Qed.
Lemma xs_none r : dict_words double_meaning (x :: r) = [].
Proof.
  destruct (dict_words double_meaning (x :: r)) as [|[k e] ws] eqn:E; [reflexivity|]. exfalso. assert (I : In (k, e) (dict_words double_meaning (x :: r))) by (rewrite E; left; reflexivity).
  apply dict_words_in in I. destruct I as (NE & (q & P) & [I|I]); [destruct I|]. destruct k as [|c k]; [congruence|]. cbn [app] in P. injection P as <- P. destruct I.
Qed.
Lemma xs_look k : look_len double_meaning 0 0 (repeat x k) = k.
Proof. induction k as [|k IH]; [reflexivity|]. cbn [repeat look_len double_meaning a_cats nth_error Nat.eqb]. f_equal. exact IH. Qed.
(* every place is reached by the unknown word of the second category, which also ends there *)
Lemma xs_reached n : forall i, i <= n -> let st := fold_left (pure_step double_meaning Normal (repeat x n)) (seq 0 i) ([], None) in
  reachb (fst st) i = true /\ unk_active Normal (snd st) i = true.
Proof.
  induction i as [|i IH]; intros L; [split; reflexivity|]. cbv zeta in *. rewrite seq_S, fold_left_app. cbn [fold_left Nat.add]. specialize (IH ltac:(lia)). destruct IH as [IH1 IH2].
  destruct (fold_left (pure_step double_meaning Normal (repeat x n)) (seq 0 i) ([], None)) as [es ue]. cbn [fst snd] in IH1, IH2. unfold pure_step. cbn [fst]. rewrite IH1.
  assert (SA : suffix_at (repeat x n) i = repeat x (S (n - S i))).
  { pose proof (suffix_at_app (repeat x i) (repeat x (S (n - S i)))) as X. rewrite blen_xs, <- repeat_app in X. replace (i + S (n - S i)) with n in X by lia. exact X. }
  rewrite SA. unfold pos_step. rewrite IH2. cbn [repeat]. rewrite xs_none. cbn [map MText.is_nil negb]. rewrite app_nil_r.
  change (enumerate (a_cats double_meaning x)) with [(0, 0); (1, 1)]. cbn [fold_left]. unfold unk_step, unk_surface. cbn [double_meaning a_invoke Nat.eqb orb a_group tl negb firstn a_unk map].
  split.
  - cbn [fst]. unfold reachb. rewrite existsb_app. cbn [Nat.eqb orb]. apply orb_true_iff. right. cbn [existsb orb]. rewrite orb_false_r. cbn. apply Nat.eqb_eq. lia.
  - cbn [snd]. unfold unk_active. cbn [is_search orb]. apply Nat.leb_le. cbn. lia.
Qed.
Lemma double_counted n : 0 < n -> exists l k, counted_lattice double Normal (repeat x n) = Ok (l, k) /\ 2 * k = n * S n.
Proof.
  intros P. unfold counted_lattice. rewrite (counted_text_looks _ _ double_represents); [|apply valid_xs|destruct n; [lia|discriminate]|left; auto].
  eexists. eexists. split; [reflexivity|].
  pose proof (looks_every double_meaning Normal (repeat x n) len (blen (repeat x n)) [] (repeat x n) eq_refl eq_refl ([], None)) as E.
  cbn [blen Nat.add] in E. rewrite E; [|clear E|reflexivity].
  - rewrite (sum_over len) by reflexivity. rewrite over_length. unfold len. rewrite repeat_length. reflexivity.
  - intros pre' c r T. pose proof (repeat_eq_app _ _ _ _ T) as [T1 T2]. cbn [List.length repeat] in T2. injection T2 as <- T2. assert (K : exists k, r = repeat x k) by (eexists; symmetry; exact T2). clear T2. destruct K as [k ->].
    assert (LN : List.length pre' < n) by (apply (f_equal (@List.length N)) in T; rewrite repeat_length, app_length in T; cbn [List.length] in T; lia).
    rewrite <- T1, blen_xs. destruct (xs_reached n (List.length pre') ltac:(lia)) as [R1 R2]. cbv zeta in R1, R2. split; [exact R1|]. unfold pos_looks. rewrite R2, xs_none.
    change (S (look_len double_meaning 0 0 (repeat x k) + (0 + 0)) = len (x :: repeat x k)). rewrite xs_look. unfold len. cbn [List.length]. rewrite repeat_length. lia.
Qed.

(* the characters up to a are in one grouping category, the others in another one *)
Definition two_kinds : tokenizer :=
  Tokenizer (Dictionary sample_dict (ConnMatrix (i16_bytes 3) 1)
               (CharDefinitions [CategoryData true true 0; CategoryData true true 0] [lit "DEFAULT"; lit "OTHER"] (LookupTable [0%N; 98%N] [[0%nat]; [1%nat]]))
               (UnknownDictionary [[0%N]; [0%N]] [sample_unk]) [] []) None Normal.
