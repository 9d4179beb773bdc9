(** Which bytes load, and as what. *)
From Coq Require Import String.
From Coq Require Import List NArith ZArith Bool Lia ZifyBool ZifyNat ZifyN.
From Verif Require Import MBase MUtf8 MText MCodec MDict MCharDef MUnk MTokenizer MBincode MConfig SData SDetails SLoad LBase LUtf8 LCodec LBincode LBincode2 LDetails2.
Import ListNotations.
Local Open Scope string_scope.
Local Open Scope list_scope.
Open Scope nat_scope.

Definition reads {A} (F : format A) (dec : decoder A) : Prop :=
  forall bs x r, dec bs = Some (x, r) <-> exists used, bs = used ++ r /\ F used x.

Lemma rd_number k : reads (number k) (dec_uint k).
Proof.
  intros bs v r. unfold dec_uint, number. split.
  - destruct (Nat.ltb_spec (length bs) k) as [|L]; [discriminate|]. intros E. injection E as <- <-. exists (firstn k bs).
    split; [symmetry; apply firstn_skipn|]. split; [rewrite firstn_length; lia|symmetry; apply little_value].
  - intros (u & -> & L & ->). rewrite app_length. destruct (Nat.ltb_spec (length u + length r) k) as [|_]; [lia|]. subst k.
    rewrite firstn_app_exact, skipn_app_exact. reflexivity.
Qed.
Lemma rd_signed : reads signed dec_i16.
Proof.
  intros bs z r. unfold dec_i16. pose proof (rd_number 2 bs) as R. unfold wrap16, wrap_i. change (2 ^ 16)%Z with 65536%Z. change (2 ^ (16 - 1))%Z with 32768%Z. split.
  - destruct (dec_uint 2 bs) as [[v r']|] eqn:D; [|discriminate]. intros E. injection E as <- <-. destruct (proj1 (R v r') eq_refl) as (u & -> & N).
    exists u. split; [reflexivity|]. exists v. split; [exact N|]. pose proof (Z.mod_pos_bound (Z.of_N v + 32768) 65536 ltac:(lia)). split; [lia|].
    rewrite Zminus_mod_idemp_l. f_equal. lia.
  - intros (u & -> & v & N & B & M). rewrite (proj2 (R v r)) by (exists u; auto). f_equal. f_equal.
    rewrite <- Z.add_mod_idemp_l, <- M, Z.add_mod_idemp_l by lia. rewrite Z.mod_small by lia. lia.
Qed.
Lemma rd_flag : reads flag dec_bool.
Proof.
  intros bs b r. unfold dec_bool, flag. split.
  - destruct bs as [|[|[p|p|]] bs]; try discriminate; intros E; injection E as <- <-; eexists; split; [|reflexivity| |reflexivity]; reflexivity.
  - intros (u & -> & ->). destruct b; reflexivity.
Qed.
Lemma rd_n {A} (F : format A) dec : reads F dec -> forall n bs l r, dec_n dec n bs = Some (l, r) <-> length l = n /\ exists used, bs = used ++ r /\ sequence F used l.
Proof.
  intros R. induction n as [|n IH]; intros bs l r; cbn [dec_n].
  - split; [intros E; injection E as <- <-; split; [reflexivity|]; exists []; split; [reflexivity|constructor]|].
    intros (L & u & -> & Q). destruct l; [|discriminate L]. inversion Q. reflexivity.
  - split.
    + destruct (dec bs) as [[x r1]|] eqn:D; [|discriminate]. destruct (dec_n dec n r1) as [[xs r2]|] eqn:D2; [|discriminate]. intros E. injection E as <- <-.
      apply R in D. destruct D as (u & -> & Fu). apply IH in D2. destruct D2 as (L & u2 & -> & Q). split; [cbn; congruence|]. exists (u ++ u2).
      split; [apply app_assoc|constructor; assumption].
    + intros (L & u & -> & Q). destruct l as [|x xs]; [discriminate L|]. inversion Q as [|b x' bs' xs' Fb Q' E1 E2]; subst. injection L as L.
      rewrite <- app_assoc. rewrite (proj2 (R _ x (bs' ++ r))) by (exists b; auto). rewrite (proj2 (IH _ xs r)); [reflexivity|]. split; [exact L|]. exists bs'. auto.
Qed.
Lemma sequence_long {A} (F : format A) : (forall b x, F b x -> 1 <= length b) -> forall bs l, sequence F bs l -> length l <= length bs.
Proof. intros P bs l. induction 1 as [|b x bs l Fb S IH]; cbn; [lia|]. rewrite app_length. specialize (P _ _ Fb). lia. Qed.
Lemma rd_vector {A} (F : format A) dec : (forall b x, F b x -> 1 <= length b) -> reads F dec -> reads (vector F) (dec_vec dec).
Proof.
  intros P R bs l r. unfold dec_vec, vector. split.
  - destruct (dec_uint 8 bs) as [[n r1]|] eqn:D; [|discriminate]. destruct (N.ltb_spec (N.of_nat (length r1)) n) as [|L]; [discriminate|]. intros E.
    apply rd_number in D. destruct D as (c & -> & N). apply (rd_n F dec R) in E. destruct E as (L2 & u & -> & Q). exists (c ++ u). split; [apply app_assoc|].
    exists c, u. split; [reflexivity|]. split; [|exact Q]. rewrite L2, N2Nat.id. exact N.
  - intros (u & -> & c & m & -> & N & Q). rewrite <- app_assoc. rewrite (proj2 (rd_number 8 _ (N.of_nat (length l)) (m ++ r))) by (exists c; auto).
    pose proof (sequence_long F P _ _ Q) as L. destruct (N.ltb_spec (N.of_nat (length (m ++ r))) (N.of_nat (length l))) as [X|_]; [rewrite app_length in X; lia|].
    apply (rd_n F dec R). rewrite Nat2N.id. split; [reflexivity|]. exists m. auto.
Qed.
Lemma rd_blob : reads blob dec_bytes.
Proof.
  intros bs l r. unfold dec_bytes, dec_vec, blob. split.
  - destruct (dec_uint 8 bs) as [[n r1]|] eqn:D; [|discriminate]. destruct (N.ltb_spec (N.of_nat (length r1)) n) as [|L]; [discriminate|]. rewrite dec_bytes_n.
    destruct (Nat.ltb_spec (length r1) (N.to_nat n)) as [|L2]; [lia|]. intros E. injection E as <- <-. apply rd_number in D. destruct D as (c & -> & N).
    exists (c ++ firstn (N.to_nat n) r1). rewrite <- app_assoc, firstn_skipn. split; [reflexivity|]. exists c. split; [reflexivity|].
    unfold size. rewrite firstn_length, Nat.min_l, N2Nat.id by lia. exact N.
  - intros (u & -> & c & -> & N). unfold size in N. rewrite <- app_assoc. rewrite (proj2 (rd_number 8 _ (N.of_nat (length l)) (l ++ r))) by (exists c; auto).
    destruct (N.ltb_spec (N.of_nat (length (l ++ r))) (N.of_nat (length l))) as [X|_]; [rewrite app_length in X; lia|]. rewrite dec_bytes_n, Nat2N.id, app_length.
    destruct (Nat.ltb_spec (length l + length r) (length l)) as [X|_]; [lia|]. rewrite firstn_app_exact, skipn_app_exact. reflexivity.
Qed.
Lemma rd_text : reads text dec_string.
Proof.
  intros bs s r. unfold dec_string, text. split.
  - destruct (dec_bytes bs) as [[b r1]|] eqn:D; [|discriminate]. destruct (utf8_decode b) as [s'|] eqn:U; [|discriminate]. intros E. injection E as <- <-.
    apply rd_blob in D. destruct D as (u & -> & B). apply decode_iff in U. destruct U as (V & ->). exists u. auto.
  - intros (u & -> & V & B). rewrite (proj2 (rd_blob _ (utf8 s) r)) by (exists u; auto). rewrite (proj2 (decode_iff (utf8 s) s)) by auto. reflexivity.
Qed.
Lemma rd_pair {A B} (F : format A) da (G : format B) db : reads F da -> reads G db ->
  reads (fun bs p => exists b1 b2, bs = b1 ++ b2 /\ F b1 (fst p) /\ G b2 (snd p)) (dec_pair da db).
Proof.
  intros R1 R2 bs [x y] r. unfold dec_pair. cbn [fst snd]. split.
  - destruct (da bs) as [[x' r1]|] eqn:D1; [|discriminate]. destruct (db r1) as [[y' r2]|] eqn:D2; [|discriminate]. intros E. injection E as <- <- <-.
    apply R1 in D1. destruct D1 as (u & -> & Fu). apply R2 in D2. destruct D2 as (v & -> & Gv). exists (u ++ v). split; [apply app_assoc|]. exists u, v. auto.
  - intros (u & -> & b1 & b2 & -> & F1 & G2). rewrite <- app_assoc. rewrite (proj2 (R1 _ x (b2 ++ r))) by (exists b1; auto).
    rewrite (proj2 (R2 _ y r)) by (exists b2; auto). reflexivity.
Qed.
Lemma rd_map {A B} (f : A -> B) (g : B -> A) (F : format A) (G : format B) da : reads F da -> (forall y, f (g y) = y) -> (forall x, g (f x) = x) ->
  (forall bs y, F bs (g y) <-> G bs y) -> reads G (dec_map f da).
Proof.
  intros R FG GF E bs y r. unfold dec_map. split.
  - destruct (da bs) as [[x r']|] eqn:D; [|discriminate]. intros X. injection X as <- <-. apply R in D. destruct D as (u & -> & Fu). exists u.
    split; [reflexivity|]. apply E. rewrite GF. exact Fu.
  - intros (u & -> & Gu). apply E in Gu. rewrite (proj2 (R _ (g y) r)) by (exists u; auto). rewrite FG. reflexivity.
Qed.

Lemma rd_word : reads word_format dec_word_entry.
Proof.
  unfold dec_word_entry. eapply (rd_map _ (fun w => (wid (we_id w), (wsys (we_id w), (we_cost w, (we_left w, we_right w))))));
    [apply rd_pair; [apply (rd_number 4)|apply rd_pair; [exact rd_flag|apply rd_pair; [exact rd_signed|apply rd_pair; [apply (rd_number 2)|apply (rd_number 2)]]]]| | |].
  - intros [[i s] c l r]. reflexivity.
  - intros (i & s & c & l & r). reflexivity.
  - intros bs w. cbn [fst snd]. unfold word_format. split.
    + intros (b1 & ? & -> & H1 & b2 & ? & -> & H2 & b3 & ? & -> & H3 & b4 & b5 & -> & H4 & H5). exists b1, b2, b3, b4, b5. auto 8.
    + intros (b1 & b2 & b3 & b4 & b5 & -> & H1 & H2 & H3 & H4 & H5). do 2 eexists. split; [reflexivity|]. split; [exact H1|]. do 2 eexists. split; [reflexivity|].
      split; [exact H2|]. do 2 eexists. split; [reflexivity|]. split; [exact H3|]. do 2 eexists. split; [reflexivity|]. auto.
Qed.
Lemma number_long k b v : number k b v -> length b = k. Proof. intros H; apply H. Qed.
Lemma vector_long {A} (F : format A) b l : vector F b l -> 8 <= length b.
Proof. intros (c & m & -> & (L & _) & _). rewrite app_length. lia. Qed.
Lemma blob_long b l : blob b l -> 8 <= length b.
Proof. intros (c & -> & (L & _)). rewrite app_length. lia. Qed.
Ltac long := first [intros ? ? H; apply number_long in H; lia | intros ? ? H; apply vector_long in H; lia].
Lemma rd_unknown : reads unknown_format dec_unknown.
Proof.
  unfold dec_unknown. eapply (rd_map _ (fun d => (ud_references d, ud_costs d))); [apply rd_pair; [apply rd_vector; [|apply rd_vector; [|apply (rd_number 4)]]|apply rd_vector; [|exact rd_word]]| | |].
  - long.
  - long.
  - intros b w (b1 & b2 & b3 & b4 & b5 & -> & (L & _) & _). rewrite app_length. lia.
  - intros []. reflexivity.
  - intros (r & c). reflexivity.
  - intros bs d. reflexivity.
Qed.
Lemma rd_category : reads category_format dec_category.
Proof.
  unfold dec_category. eapply (rd_map _ (fun c => (cd_invoke c, (cd_group c, cd_length c)))); [apply rd_pair; [exact rd_flag|apply rd_pair; [exact rd_flag|apply (rd_number 4)]]| | |].
  - intros []. reflexivity.
  - intros (i & g & l). reflexivity.
  - intros bs c. cbn [fst snd]. unfold category_format. split.
    + intros (b1 & ? & -> & H1 & b2 & b3 & -> & H2 & H3). exists b1, b2, b3. auto.
    + intros (b1 & b2 & b3 & -> & H1 & H2 & H3). do 2 eexists. split; [reflexivity|]. split; [exact H1|]. do 2 eexists. split; [reflexivity|]. auto.
Qed.
Lemma rd_index : reads index (dec_map N.to_nat (dec_uint 8)).
Proof. eapply (rd_map N.to_nat N.of_nat); [apply (rd_number 8)|apply Nat2N.id|apply N2Nat.id|]. intros; reflexivity. Qed.
Lemma rd_chardef : reads chardef_format dec_chardef.
Proof.
  unfold dec_chardef. eapply (rd_map _ (fun d => (cds_definitions d, (cds_names d, (lt_boundaries (cds_mapping d), lt_values (cds_mapping d))))));
    [apply rd_pair; [apply rd_vector; [|exact rd_category]|apply rd_pair; [apply rd_vector; [|exact rd_text]|apply rd_pair; [apply rd_vector; [|apply (rd_number 4)]|apply rd_vector; [|apply rd_vector; [|exact rd_index]]]]]| | |].
  - intros b c (b1 & b2 & b3 & -> & F & _). rewrite F. cbn. lia.
  - intros b s (_ & B). apply blob_long in B. lia.
  - long.
  - long.
  - intros b i H. apply number_long in H. lia.
  - intros [d n []]. reflexivity.
  - intros (d & n & b & v). reflexivity.
  - intros bs d. cbn [fst snd]. unfold chardef_format. split.
    + intros (b1 & ? & -> & H1 & b2 & ? & -> & H2 & b3 & b4 & -> & H3 & H4). exists b1, b2, b3, b4. auto 8.
    + intros (b1 & b2 & b3 & b4 & -> & H1 & H2 & H3 & H4). do 2 eexists. split; [reflexivity|]. split; [exact H1|]. do 2 eexists. split; [reflexivity|].
      split; [exact H2|]. do 2 eexists. split; [reflexivity|]. auto.
Qed.
Lemma rd_user : reads user_format dec_user.
Proof.
  unfold dec_user. eapply (rd_map _ (fun u => (uf_da u, (uf_vals u, (uf_system u, (uf_words_idx u, uf_words u))))));
    [apply rd_pair; [exact rd_blob|apply rd_pair; [exact rd_blob|apply rd_pair; [exact rd_flag|apply rd_pair; [exact rd_blob|exact rd_blob]]]]| | |].
  - intros []. reflexivity.
  - intros (d & v & s & i & w). reflexivity.
  - intros bs w. cbn [fst snd]. unfold user_format. split.
    + intros (b1 & ? & -> & H1 & b2 & ? & -> & H2 & b3 & ? & -> & H3 & b4 & b5 & -> & H4 & H5). exists b1, b2, b3, b4, b5. auto 8.
    + intros (b1 & b2 & b3 & b4 & b5 & -> & H1 & H2 & H3 & H4 & H5). do 2 eexists. split; [reflexivity|]. split; [exact H1|]. do 2 eexists. split; [reflexivity|].
      split; [exact H2|]. do 2 eexists. split; [reflexivity|]. split; [exact H3|]. do 2 eexists. split; [reflexivity|]. auto.
Qed.
Lemma rd_method : reads method dec_algorithm.
Proof.
  intros bs a r. unfold dec_algorithm, method. split.
  - destruct (dec_uint 4 bs) as [[v r']|] eqn:D; [|discriminate]. apply rd_number in D. destruct D as (u & -> & N).
    destruct v as [|[[p|p|]|[p|p|]|]]; try discriminate; intros E; injection E as <- <-; exists u; auto.
  - intros (u & -> & N). destruct a; (rewrite (proj2 (rd_number 4 _ _ r)) by (exists u; split; [reflexivity|exact N]); reflexivity).
Qed.
Lemma rd_compressed : reads compressed_format dec_compressed.
Proof.
  unfold dec_compressed. eapply (rd_map _ (fun c => (cz_algorithm c, cz_data c))); [apply rd_pair; [exact rd_method|exact rd_blob]| | |].
  - intros []. reflexivity.
  - intros (a & d). reflexivity.
  - intros bs d. reflexivity.
Qed.

(** ** What loads *)

Lemma starts_iff {A} (F : format A) dec : reads F dec -> forall bs x, (exists r, dec bs = Some (x, r)) <-> starts F bs x.
Proof.
  intros R bs x. unfold starts. split; [intros (r & D); apply R in D; destruct D as (u & E & Fu); exists u, r; auto|].
  intros (u & r & -> & Fu). exists r. apply R. exists u. auto.
Qed.
(* what is cut off does not start with any value *)
Lemma cut_off {A} (F : format A) dec : reads F dec -> forall a b x, F (a ++ b) x -> b <> [] -> forall y, ~ starts F a y.
Proof.
  intros R a b x Fx NB y (u & r & -> & Fy). assert (D1 : dec ((u ++ r) ++ b) = Some (x, [])) by (apply R; exists ((u ++ r) ++ b); rewrite app_nil_r; auto).
  assert (D2 : dec ((u ++ r) ++ b) = Some (y, r ++ b)) by (apply R; exists u; rewrite <- app_assoc; auto). rewrite D1 in D2. injection D2 as _ E. symmetry in E. apply app_eq_nil in E. tauto.
Qed.
Definition loads {A} (F : format A) (load : list N -> res A) : Prop :=
  (forall bs x, load bs = Ok x <-> starts F bs x) /\ (forall bs, load bs = Err EDeserialize <-> forall x, ~ starts F bs x) /\ forall bs, load bs <> Panic.
Lemma loads_of {A} (F : format A) dec : reads F dec -> loads F (fun bs => match dec bs with Some (d, _) => Ok d | None => Err EDeserialize end).
Proof.
  intros R. pose proof (starts_iff F dec R) as S. split; [|split].
  - intros bs x. rewrite <- S. destruct (dec bs) as [[y r]|]; split; intros H; try discriminate H; try (destruct H as (r' & H)); try discriminate H; [injection H as <-; eauto|injection H as <- <-; reflexivity].
  - intros bs. split.
    + intros E x X. apply S in X. destruct X as (r & X). rewrite X in E. discriminate E.
    + intros H. destruct (dec bs) as [[y r]|] eqn:D; [|reflexivity]. exfalso. apply (H y). apply S. eauto.
  - intros bs. destruct (dec bs) as [[y r]|]; discriminate.
Qed.
Lemma unknown_loads : loads unknown_format load_unknown. Proof. exact (loads_of _ _ rd_unknown). Qed.
Lemma chardef_loads : loads chardef_format load_chardef. Proof. exact (loads_of _ _ rd_chardef). Qed.
Lemma user_loads : loads user_format load_user. Proof. exact (loads_of _ _ rd_user). Qed.
Lemma matrix_loads : (forall bs m, cm_load bs = Ok m <-> matrix_format bs m) /\ (forall bs, cm_load bs = Panic <-> length bs < 4) /\ forall bs k, cm_load bs <> Err k.
Proof.
  assert (K : forall bs, length bs < 4 -> cm_load bs = Panic).
  { intros bs L. unfold cm_load, slice. destruct (Nat.leb_spec 4 (length bs)); [lia|]. rewrite andb_false_r. reflexivity. }
  assert (X : forall a b c, length a = 2 -> length b = 2 -> cm_load (a ++ b ++ c) = Ok (ConnMatrix c (wrap_u 32 (wrap16 (Z.of_N (le_value b)))))).
  { intros a b c La Lb. destruct a as [|a1 [|a2 [|]]]; try discriminate La. destruct b as [|b1 [|b2 [|]]]; try discriminate Lb.
    unfold cm_load, slice, slice_from, read_i16, read_u. cbn [app length skipn firstn]. cbn. reflexivity. }
  assert (M : forall bs : list N, 4 <= length bs -> exists a b c, bs = a ++ b ++ c /\ length a = 2 /\ length b = 2).
  { intros bs L. exists (firstn 2 bs), (firstn 2 (skipn 2 bs)), (skipn 2 (skipn 2 bs)). rewrite !firstn_skipn, !firstn_length, skipn_length. repeat split; lia. }
  assert (SG : forall b, length b = 2 -> forall z, signed b z <-> z = wrap16 (Z.of_N (le_value b))).
  { intros b Lb z. pose proof (rd_signed b z []) as R. unfold dec_i16, dec_uint in R. rewrite Lb in R. change (Nat.ltb 2 2) with false in R.
    rewrite <- Lb, firstn_all, skipn_all in R. split.
    - intros S. destruct R as (_ & R). specialize (R (ex_intro _ b (conj (eq_sym (app_nil_r b)) S))). congruence.
    - intros ->. destruct R as (R & _). destruct (R eq_refl) as (u & E & S). rewrite app_nil_r in E. subst. exact S. }
  split; [|split].
  - intros bs m. split.
    + intros E. destruct (Nat.lt_ge_cases (length bs) 4) as [L|L]; [rewrite (K bs L) in E; discriminate|]. destruct (M bs L) as (a & b & c & -> & La & Lb).
      rewrite (X a b c La Lb) in E. injection E as <-. exists a, b, (wrap16 (Z.of_N (le_value b))). cbn [cm_data cm_backward]. split; [reflexivity|]. split; [exact La|].
      split; [apply SG; auto|]. unfold wrap_u. change (2 ^ 32)%Z with 4294967296%Z. rewrite Z2N.id; [reflexivity|]. apply Z.mod_pos_bound. lia.
    + intros (a & b & z & -> & La & S & B). assert (Lb : length b = 2) by (destruct S as (v & (L & _) & _); exact L). rewrite (X a b _ La Lb). apply (SG b Lb) in S. subst z.
      f_equal. destruct m as [c w]. cbn [cm_data cm_backward] in *. f_equal. unfold wrap_u. change (2 ^ 32)%Z with 4294967296%Z. rewrite <- B. apply N2Z.id.
  - intros bs. split; [|apply K]. intros E. destruct (Nat.lt_ge_cases (length bs) 4) as [L|L]; [exact L|]. destruct (M bs L) as (a & b & c & -> & La & Lb).
    rewrite (X a b c La Lb) in E. discriminate.
  - intros bs k E. destruct (Nat.lt_ge_cases (length bs) 4) as [L|L]; [rewrite (K bs L) in E; discriminate|]. destruct (M bs L) as (a & b & c & -> & La & Lb).
    rewrite (X a b c La Lb) in E. discriminate.
Qed.

(* the seven files *)
Lemma read_ok e p b : read_file e p = Ok b <-> e_read e p = Some b.
Proof. unfold read_file, ok_or. destruct (e_read e p); split; intros H; congruence. Qed.
Lemma dictionary_loads e dir d : load_dictionary e dir = Ok d <->
  exists da vals matrix chardef unk, e_read e (join_path dir (lit "dict.da")) = Some da /\ e_read e (join_path dir (lit "dict.vals")) = Some vals /\
    e_read e (join_path dir (lit "matrix.mtx")) = Some matrix /\ e_read e (join_path dir (lit "char_def.bin")) = Some chardef /\
    e_read e (join_path dir (lit "unk.bin")) = Some unk /\ e_read e (join_path dir (lit "dict.wordsidx")) = Some (d_words_idx d) /\
    e_read e (join_path dir (lit "dict.words")) = Some (d_words d) /\
    d_dict d = PrefixDict (e_da e da) vals true /\ matrix_format matrix (d_matrix d) /\ starts chardef_format chardef (d_chardef d) /\ starts unknown_format unk (d_unknown d).
Proof.
  unfold load_dictionary. split.
  - intros H. repeat (apply bind_ok in H; destruct H as (? & ? & H)). injection H as <-. cbn [d_words_idx d_words d_dict d_matrix d_chardef d_unknown].
    repeat match goal with H : read_file _ _ = Ok _ |- _ => apply read_ok in H end.
    do 5 eexists. repeat (split; [eassumption||reflexivity|]). split; [apply matrix_loads; assumption|]. split; [apply (proj1 chardef_loads); assumption|apply (proj1 unknown_loads); assumption].
  - intros (da & vals & matrix & chardef & unk & H1 & H2 & H3 & H4 & H5 & H6 & H7 & E & M & C & U). apply read_ok in H1, H2, H3, H4, H5, H6, H7.
    apply matrix_loads in M. apply (proj1 chardef_loads) in C. apply (proj1 unknown_loads) in U.
    rewrite H1; cbn [bind]. rewrite H2; cbn [bind]. rewrite H3; cbn [bind]. rewrite M; cbn [bind]. rewrite H4; cbn [bind]. rewrite C; cbn [bind]. rewrite H5; cbn [bind].
    rewrite U; cbn [bind]. rewrite H6; cbn [bind]. rewrite H7; cbn [bind]. f_equal. rewrite <- E. destruct d; reflexivity.
Qed.
Lemma dictionary_panics e dir : load_dictionary e dir = Panic <->
  exists da vals matrix, e_read e (join_path dir (lit "dict.da")) = Some da /\ e_read e (join_path dir (lit "dict.vals")) = Some vals /\
    e_read e (join_path dir (lit "matrix.mtx")) = Some matrix /\ length matrix < 4.
Proof.
  assert (RP : forall p, read_file e p <> Panic) by (intros p; unfold read_file, ok_or; destruct (e_read e p); discriminate).
  assert (BP : forall A B (r : res A) (k : A -> res B), bind r k = Panic <-> r = Panic \/ exists x, r = Ok x /\ k x = Panic).
  { intros A B r k. destruct r; cbn [bind]; split; intros H; auto; try (destruct H as [H|(y & H & K)]; try discriminate; congruence); [right; eauto|discriminate]. }
  unfold load_dictionary. split.
  - intros H.
    repeat (lazymatch type of H with bind _ _ = Panic => idtac end; apply BP in H; destruct H as [H|(? & ? & H)]; [try (destruct (RP _ H))|]); try discriminate H.
    + apply matrix_loads in H. repeat match goal with H : read_file _ _ = Ok _ |- _ => apply read_ok in H end. do 3 eexists. eauto.
    + destruct chardef_loads as (_ & _ & P). destruct (P _ H).
    + destruct unknown_loads as (_ & _ & P). destruct (P _ H).
  - intros (da & vals & matrix & H1 & H2 & H3 & L). apply read_ok in H1, H2, H3. rewrite H1; cbn [bind]. rewrite H2; cbn [bind]. rewrite H3; cbn [bind].
    rewrite (proj2 (proj1 (proj2 matrix_loads) matrix) L). reflexivity.
Qed.
Lemma user_file_loads e path d : load_user_dictionary_from_bin e path = Ok d <->
  exists bytes u, e_read e path = Some bytes /\ starts user_format bytes u /\ u_dict d = PrefixDict (e_da e (uf_da u)) (uf_vals u) (uf_system u) /\
    u_words_idx d = uf_words_idx u /\ u_words d = uf_words u.
Proof.
  unfold load_user_dictionary_from_bin. split.
  - intros H. apply bind_ok in H. destruct H as (bytes & R & H). apply bind_ok in H. destruct H as (u & L & H). injection H as <-. apply read_ok in R. apply (proj1 user_loads) in L.
    exists bytes, u. cbn. auto.
  - intros (bytes & u & R & L & E1 & E2 & E3). apply read_ok in R. apply (proj1 user_loads) in L. rewrite R; cbn [bind]. rewrite L; cbn [bind]. f_equal. destruct d. cbn in *. congruence.
Qed.
Lemma embedded_loads k bytes data : embedded_data k true bytes = Ok data <->
  exists a z, starts compressed_format bytes (CompressedData a z) /\ match a with Raw => data = z | _ => k_decode k a z = Some data end.
Proof.
  unfold embedded_data. pose proof (starts_iff _ _ rd_compressed bytes) as S. split.
  - destruct (dec_compressed bytes) as [[[a z] r]|] eqn:D; [|discriminate]. intros H. exists a, z. split; [apply S; eauto|]. unfold decompress in H. cbn [cz_algorithm cz_data] in H.
    destruct a; try (destruct (k_decode _ _ _); [|discriminate]); congruence.
  - intros (a & z & X & H). apply S in X. destruct X as (r & ->). unfold decompress. cbn [cz_algorithm cz_data]. destruct a; rewrite H; reflexivity.
Qed.

(* the builder writes these formats *)
Lemma written_format {A} (F : format A) dec enc P : reads F dec -> round_trip enc dec P -> forall x, P x -> F (enc x) x.
Proof.
  intros R RT x Px. pose proof (RT x [] Px) as D. apply R in D. destruct D as (u & E & Fu). rewrite !app_nil_r in E. rewrite E. exact Fu.
Qed.

(* an enlarged, shortened or foreign word list is not noticed when it is loaded *)
Lemma words_unchecked e e' dir d : load_dictionary e dir = Ok d ->
  (forall name, In name [lit "matrix.mtx"; lit "char_def.bin"; lit "unk.bin"] -> e_read e' (join_path dir name) = e_read e (join_path dir name)) ->
  (forall name, In name [lit "dict.da"; lit "dict.vals"; lit "dict.wordsidx"; lit "dict.words"] -> e_read e' (join_path dir name) <> None) ->
  exists d', load_dictionary e' dir = Ok d' /\ d_matrix d' = d_matrix d /\ d_chardef d' = d_chardef d /\ d_unknown d' = d_unknown d.
Proof.
  intros H S P. apply dictionary_loads in H. destruct H as (da & vals & matrix & chardef & unk & H1 & H2 & H3 & H4 & H5 & H6 & H7 & E & M & C & U).
  assert (G : forall name, In name [lit "dict.da"; lit "dict.vals"; lit "dict.wordsidx"; lit "dict.words"] -> exists b, e_read e' (join_path dir name) = Some b).
  { intros name I. specialize (P name I). destruct (e_read e' (join_path dir name)) as [b|]; [eauto|contradiction]. }
  destruct (G (lit "dict.da") ltac:(cbn [In]; auto)) as (da' & G1). destruct (G (lit "dict.vals") ltac:(cbn [In]; auto)) as (vals' & G2).
  destruct (G (lit "dict.wordsidx") ltac:(cbn [In]; auto)) as (idx' & G3). destruct (G (lit "dict.words") ltac:(cbn [In]; auto)) as (words' & G4).
  rewrite <- (S (lit "matrix.mtx")) in H3 by (cbn [In]; auto). rewrite <- (S (lit "char_def.bin")) in H4 by (cbn [In]; auto).
  rewrite <- (S (lit "unk.bin")) in H5 by (cbn [In]; auto).
  exists (Dictionary (PrefixDict (e_da e' da') vals' true) (d_matrix d) (d_chardef d) (d_unknown d) idx' words'). split; [|auto].
  apply dictionary_loads. exists da', vals', matrix, chardef, unk. cbn [d_words_idx d_words d_dict d_matrix d_chardef d_unknown]. auto 12.
Qed.
Lemma embedded_no_error k f bytes x : embedded_data k f bytes <> Err x.
Proof. unfold embedded_data. destruct f; [|discriminate]. destruct (dec_compressed bytes) as [[c r]|]; [|discriminate]. destruct (decompress k c); discriminate. Qed.
Lemma saved_back {A} (enc : A -> list N) dec P : only_saved enc dec P ->
  forall bs x, Forall is_byte bs -> match dec bs with Some (d, _) => Ok d | None => Err EDeserialize end = Ok x -> P x /\ exists rest, bs = enc x ++ rest.
Proof.
  intros O bs x F H. destruct (dec bs) as [[y r]|] eqn:D; [|discriminate]. injection H as <-. destruct (O _ _ _ F D) as (Py & E & _). eauto.
Qed.
Lemma cut_fails {A} (F : format A) load : loads F load -> (forall a b x, F (a ++ b) x -> b <> [] -> forall y, ~ starts F a y) ->
  forall a b x, F (a ++ b) x -> b <> [] -> load a = Err EDeserialize.
Proof. intros (_ & E & _) C a b x X NB. apply E. exact (C a b x X NB). Qed.
Definition unknown_cut := cut_fails _ _ unknown_loads (cut_off _ _ rd_unknown).
Definition chardef_cut := cut_fails _ _ chardef_loads (cut_off _ _ rd_chardef).
Definition user_cut := cut_fails _ _ user_loads (cut_off _ _ rd_user).
Definition unknown_written := written_format _ _ _ _ rd_unknown rt_unknown.
Definition chardef_written := written_format _ _ _ _ rd_chardef rt_chardef.
Definition user_written := written_format _ _ _ _ rd_user rt_user.
Definition unknown_back := saved_back _ _ _ os_unknown.
Definition chardef_back := saved_back _ _ _ os_chardef.
Definition user_back := saved_back _ _ _ os_user.

(* what compress_write writes *)
Lemma written_outcome k a buffer : compress_write k false buffer a = Ok buffer /\
  match (match a with Raw => Some buffer | _ => k_encode k a buffer end) with
  | None => compress_write k true buffer a = Err ECompress
  | Some z => Forall is_byte z -> short z -> exists bytes, compress_write k true buffer a = Ok bytes /\ compressed_format bytes (CompressedData a z)
  end.
Proof.
  split; [reflexivity|]. unfold compress_write, compress.
  destruct a; try (destruct (k_encode k _ buffer) as [z|]; [|reflexivity]); intros B S; eexists; (split; [reflexivity|]);
    apply (written_format compressed_format dec_compressed enc_compressed _ rd_compressed rt_compressed); cbn; auto.
Qed.
