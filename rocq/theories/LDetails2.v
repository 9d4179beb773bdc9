(** The details stored in any words files. *)
From Coq Require Import List NArith ZArith Bool Lia ZifyBool ZifyNat ZifyN.
From Verif Require Import MBase MUtf8 MText MCodec MDict MBincode MTokenizer MDetails SBuild SDetails LBase LUtf8 LCodec LBuild LCli LFault.
Import ListNotations.
Local Open Scope list_scope.

Lemma little_value bs : little bs = le_value bs.
Proof. induction bs as [|b bs IH]; [reflexivity|]. cbn [little le_value]. rewrite IH. reflexivity. Qed.

Lemma bytes_at_iff bs p part : bytes_at bs p part <-> (p + size part <= size bs)%N /\ part = firstn (length part) (skipn (N.to_nat p) bs).
Proof.
  unfold bytes_at, size. split.
  - intros (a & c & -> & L). rewrite !app_length. split; [lia|]. rewrite <- L, Nat2N.id, skipn_app, skipn_all, Nat.sub_diag. cbn [skipn app].
    rewrite firstn_app, firstn_all, Nat.sub_diag. cbn [firstn]. symmetry. apply app_nil_r.
  - intros (L & E). exists (firstn (N.to_nat p) bs), (skipn (length part) (skipn (N.to_nat p) bs)). split.
    + rewrite E at 1. rewrite firstn_skipn, firstn_skipn. reflexivity.
    + rewrite firstn_length. lia.
Qed.
Lemma number_at_iff k bs p v : number_at k bs p v <-> (p + N.of_nat k <= size bs)%N /\ v = le_value (firstn k (skipn (N.to_nat p) bs)).
Proof.
  unfold number_at. split.
  - intros (part & A & L & ->). apply bytes_at_iff in A. destruct A as (A & E). unfold size in *. rewrite L in *. split; [lia|]. rewrite little_value. congruence.
  - intros (A & ->). exists (firstn k (skipn (N.to_nat p) bs)). unfold size in *. assert (L : length (firstn k (skipn (N.to_nat p) bs)) = k) by (rewrite firstn_length, skipn_length; lia).
    split; [|split; [exact L|symmetry; apply little_value]]. apply bytes_at_iff. unfold size. rewrite L. split; [lia|reflexivity].
Qed.
Lemma number_at_fun k bs p v v' : number_at k bs p v -> number_at k bs p v' -> v = v'.
Proof. intros A B. apply number_at_iff in A, B. destruct A, B. congruence. Qed.
Lemma bytes_at_fun bs p x y : bytes_at bs p x -> bytes_at bs p y -> length x = length y -> x = y.
Proof. intros A B L. apply bytes_at_iff in A, B. destruct A, B. congruence. Qed.

Lemma decode_fields bytes ds : decode_all (split_zero bytes) = Some ds <-> fields_in bytes ds.
Proof.
  split.
  - intros H. unfold split_zero in H. change (split_by (N.eqb 0) bytes) with (split_char 0%N bytes) in H.
    pose proof (join_split 0%N bytes) as J. pose proof (split_parts_none 0%N bytes) as F. assert (NE : split_char 0%N bytes <> []) by apply split_by_some.
    remember (split_char 0%N bytes) as ps eqn:E. clear E.
    assert (X : Forall2 (fun p s => valid_str s /\ p = utf8 s) ps ds).
    { clear J NE F. revert ds H. induction ps as [|p ps IH]; intros ds H; cbn [decode_all] in H; [injection H as <-; constructor|].
      destruct (utf8_decode p) as [s|] eqn:D; [|discriminate H]. destruct (decode_all ps) as [ss|] eqn:R; [|discriminate H]. injection H as <-.
      constructor; [apply decode_iff, D|apply IH; reflexivity]. }
    split; [intros ->; apply NE; inversion X; reflexivity|]. split.
    + clear J NE H. induction X as [|p s ps ds (V & ->) X IH]; [constructor|]. inversion F as [|? ? F1 F2]; subst. constructor; [|exact (IH F2)]. split; [exact V|].
      intros I. apply F1. apply in_flat_map. exists 0%N. split; [exact I|left; reflexivity].
    + rewrite <- J. clear J F H. induction X as [|p s ps ds (V & ->) X IH]; [reflexivity|]. destruct X as [|p' s' ps ds (V' & ->) X]; [reflexivity|].
      change (join [0%N] (utf8 s :: utf8 s' :: ps)) with (utf8 s ++ [0%N] ++ join [0%N] (utf8 s' :: ps)). change (join [0%N] (s :: s' :: ds)) with (s ++ [0%N] ++ join [0%N] (s' :: ds)).
      rewrite !utf8_app. f_equal. change (utf8 [0%N]) with [0%N]. f_equal. apply IH. discriminate.
  - intros (NE & F & ->). apply details_round_trip; [exact NE| |]; revert F; apply Forall_impl; intros s (V & N); assumption.
Qed.

(** ** The system's words *)

Section SYSTEM.
Variables (d : dictionary) (id : N).
Let idx := d_words_idx d.
Let words := d_words d.

Inductive system_case : Prop :=
| sc_past : (size idx <= 4 * id)%N -> word_details d id = Ok None -> system_case
| sc_index : index_cut idx id -> word_details d id = Panic -> system_case
| sc_start i : number_at 4 idx (4 * id) i -> (size words < i + 4)%N -> word_details d id = Panic -> system_case
| sc_end i n : number_at 4 idx (4 * id) i -> number_at 4 words i n -> (size words < i + 4 + n)%N -> word_details d id = Panic -> system_case
| sc_found bytes : record_at idx words id bytes -> word_details d id = Ok (decode_all (split_zero bytes)) -> system_case.

Lemma system_split : system_case.
Proof.
  unfold word_details. fold idx words. destruct (N.leb_spec (N.of_nat (length idx)) (4 * id)) as [L|L].
  { apply sc_past; [exact L|]. unfold word_details. fold idx. destruct (N.leb_spec (N.of_nat (length idx)) (4 * id)); [reflexivity|lia]. }
  assert (W : word_details d id = do i <- read_index idx id; let i := N.to_nat i in do data <- slice_from words i; do n <- read_u 4 data;
    do bytes <- slice words (i + 4) (i + 4 + N.to_nat n); Ok (decode_all (split_zero bytes))).
  { unfold word_details. fold idx words. destruct (N.leb_spec (N.of_nat (length idx)) (4 * id)); [lia|reflexivity]. }
  unfold read_index, slice_from in W. replace (4 * N.to_nat id) with (N.to_nat (4 * id)) in W by lia.
  destruct (Nat.leb_spec (N.to_nat (4 * id)) (length idx)) as [L1|L1]; [|lia]. cbn [bind] in W. unfold slice in W at 1. change (Nat.leb 0 4) with true in W. cbn [andb skipn] in W. rewrite skipn_length in W.
  destruct (Nat.leb_spec 4 (length idx - N.to_nat (4 * id))) as [L2|L2]; cbn [bind] in W.
  2:{ apply sc_index; [unfold index_cut, size; lia|exact W]. }
  unfold read_u in W at 1. rewrite firstn_length, skipn_length in W. destruct (Nat.ltb_spec (Nat.min (4 - 0) (length idx - N.to_nat (4 * id))) 4) as [L3|_]; [lia|]. cbn [bind] in W.
  rewrite firstn_firstn in W. change (Nat.min 4 (4 - 0)) with 4 in W. remember (le_value (firstn 4 (skipn (N.to_nat (4 * id)) idx))) as i eqn:Ei. cbv zeta in W.
  assert (NI : number_at 4 idx (4 * id) i) by (apply number_at_iff; split; [unfold size; lia|exact Ei]).
  destruct (Nat.leb_spec (N.to_nat i) (length words)) as [L4|L4]; cbn [bind] in W.
  2:{ apply (sc_start i); [exact NI|unfold size; lia|exact W]. }
  unfold read_u in W. rewrite skipn_length in W. destruct (Nat.ltb_spec (length words - N.to_nat i) 4) as [L5|L5]; cbn [bind] in W.
  { apply (sc_start i); [exact NI|unfold size; lia|exact W]. }
  remember (le_value (firstn 4 (skipn (N.to_nat i) words))) as n eqn:En. assert (NN : number_at 4 words i n) by (apply number_at_iff; split; [unfold size; lia|exact En]).
  unfold slice in W. destruct (Nat.leb_spec (N.to_nat i + 4) (N.to_nat i + 4 + N.to_nat n)) as [_|X]; [|lia].
  destruct (Nat.leb_spec (N.to_nat i + 4 + N.to_nat n) (length words)) as [L6|L6]; cbn [andb bind] in W.
  2:{ apply (sc_end i n); [exact NI|exact NN|unfold size; lia|exact W]. }
  replace (N.to_nat i + 4 + N.to_nat n - (N.to_nat i + 4)) with (N.to_nat n) in W by lia.
  remember (firstn (N.to_nat n) (skipn (N.to_nat i + 4) words)) as bytes eqn:Eb.
  assert (LB : length bytes = N.to_nat n) by (rewrite Eb, firstn_length, skipn_length; lia).
  apply (sc_found bytes); [|exact W]. exists i. split; [exact NI|]. split.
  - replace (size bytes) with n by (unfold size; lia). exact NN.
  - apply bytes_at_iff. unfold size. rewrite LB. split; [lia|]. replace (N.to_nat (i + 4)) with (N.to_nat i + 4) by lia. exact Eb.
Qed.

Lemma record_fun x y : record_at idx words id x -> record_at idx words id y -> x = y.
Proof.
  intros (i & A & B & C) (j & A' & B' & C'). pose proof (number_at_fun _ _ _ _ _ A A') as E. subst j. pose proof (number_at_fun _ _ _ _ _ B B') as E.
  apply (bytes_at_fun _ _ _ _ C C'). unfold size in E. lia.
Qed.
Lemma record_excludes x : record_at idx words id x -> ~ (size idx <= 4 * id)%N /\ ~ index_cut idx id /\ ~ record_cut idx words id.
Proof.
  intros (i & A & B & C). pose proof (proj1 (number_at_iff _ _ _ _) A) as (A1 & _). pose proof (proj1 (bytes_at_iff _ _ _) C) as (C1 & _). unfold index_cut. split; [lia|]. split; [lia|].
  intros (j & A' & X). pose proof (number_at_fun _ _ _ _ _ A A') as E. subst j. destruct X as [X|(n & N & X)]; [lia|].
  pose proof (number_at_fun _ _ _ _ _ B N). lia.
Qed.

Theorem system_some ds : word_details d id = Ok (Some ds) <-> exists bytes, record_at idx words id bytes /\ fields_in bytes ds.
Proof.
  split.
  - intros H. destruct system_split as [L W|L W|i A B W|i n A B C W|bytes R W]; rewrite H in W; try discriminate W. injection W as W. exists bytes. split; [exact R|]. apply decode_fields. auto.
  - intros (bytes & R & F). destruct (record_excludes _ R) as (E1 & E2 & E3).
    destruct system_split as [L W|L W|i A B W|i n A B C W|b' R' W]; [contradiction|contradiction|destruct E3; exists i; auto|destruct E3; exists i; split; [exact A|right; eauto]|].
    rewrite W, (record_fun _ _ R' R). f_equal. apply decode_fields, F.
Qed.
Theorem system_none : word_details d id = Ok None <-> (size idx <= 4 * id)%N \/ exists bytes, record_at idx words id bytes /\ ~ exists ds, fields_in bytes ds.
Proof.
  split.
  - intros H. destruct system_split as [L W|L W|i A B W|i n A B C W|bytes R W]; rewrite H in W; try discriminate W; [left; exact L|]. right. exists bytes. split; [exact R|].
    intros (ds & F). apply decode_fields in F. congruence.
  - intros [L|(bytes & R & F)].
    + unfold word_details. fold idx. destruct (N.leb_spec (N.of_nat (length idx)) (4 * id)) as [_|X]; [reflexivity|unfold size in L; lia].
    + destruct (record_excludes _ R) as (E1 & E2 & E3).
      destruct system_split as [L W|L W|i A B W|i n A B C W|b' R' W]; [contradiction|contradiction|destruct E3; exists i; auto|destruct E3; exists i; split; [exact A|right; eauto]|].
      rewrite W, (record_fun _ _ R' R). destruct (decode_all (split_zero bytes)) as [ds|] eqn:D; [|reflexivity]. destruct F. exists ds. apply decode_fields, D.
Qed.
Theorem system_panics : word_details d id = Panic <-> index_cut idx id \/ record_cut idx words id.
Proof.
  split.
  - intros H. destruct system_split as [L W|L W|i A B W|i n A B C W|bytes R W]; rewrite H in W; try discriminate W; [left; exact L|right; exists i; auto|right; exists i; split; [exact A|right; eauto]].
  - intros H. destruct system_split as [L W|L W|i A B W|i n A B C W|bytes R W]; try exact W.
    + exfalso. destruct H as [H|(i & A & _)]; [unfold index_cut in H; lia|]. apply number_at_iff in A. destruct A as (A & _). lia.
    + exfalso. destruct (record_excludes _ R) as (E1 & E2 & E3). tauto.
Qed.
Theorem system_no_error k : word_details d id <> Err k.
Proof. intros H. destruct system_split as [L W|L W|i A B W|i n A B C W|bytes R W]; rewrite H in W; discriminate W. Qed.
End SYSTEM.

(** ** The user's words *)

Lemma dec_bytes_n n : forall bs, dec_n dec_byte n bs = if Nat.ltb (length bs) n then None else Some (firstn n bs, skipn n bs).
Proof.
  induction n as [|n IH]; intros bs; cbn [dec_n]; [destruct bs; reflexivity|]. unfold dec_byte, dec_uint at 1. destruct bs as [|b bs]; [reflexivity|].
  change (length (b :: bs)) with (S (length bs)). change (Nat.ltb (S (length bs)) 1) with false. cbn [firstn skipn le_value]. rewrite (IH bs : dec_n (dec_uint 1) n bs = _).
  change (Nat.ltb (S (length bs)) (S n)) with (Nat.ltb (length bs) n). destruct (Nat.ltb (length bs) n); [reflexivity|]. rewrite N.mul_0_r, N.add_0_r. reflexivity.
Qed.
Lemma dec_string_iff bs s r : dec_string bs = Some (s, r) <->
  exists len, bs = len ++ utf8 s ++ r /\ length len = 8 /\ little len = size (utf8 s) /\ valid_str s.
Proof.
  unfold dec_string, dec_bytes, dec_vec, dec_uint. split.
  - destruct (Nat.ltb_spec (length bs) 8) as [|L]; [discriminate|]. rewrite skipn_length. destruct (N.ltb_spec (N.of_nat (length bs - 8)) (le_value (firstn 8 bs))) as [|L2]; [discriminate|].
    rewrite dec_bytes_n. rewrite skipn_length. destruct (Nat.ltb_spec (length bs - 8) (N.to_nat (le_value (firstn 8 bs)))) as [|L3]; [discriminate|].
    destruct (utf8_decode _) as [s'|] eqn:D; [|discriminate]. intros H. injection H as -> <-. apply decode_iff in D. destruct D as (V & D).
    exists (firstn 8 bs). rewrite <- D, !firstn_skipn. split; [reflexivity|]. split; [rewrite firstn_length; lia|]. split; [|exact V].
    rewrite little_value. unfold size. rewrite firstn_length, skipn_length. lia.
  - intros (len & -> & L & E & V). rewrite little_value in E. unfold size in E. rewrite !app_length.
    destruct (Nat.ltb_spec (length len + (length (utf8 s) + length r)) 8) as [|_]; [lia|].
    assert (F : firstn 8 (len ++ utf8 s ++ r) = len) by (rewrite <- L, firstn_app, firstn_all, Nat.sub_diag; cbn [firstn]; apply app_nil_r).
    assert (K : skipn 8 (len ++ utf8 s ++ r) = utf8 s ++ r) by (rewrite <- L, skipn_app, skipn_all, Nat.sub_diag; reflexivity).
    rewrite F, K, E, app_length. destruct (N.ltb_spec (N.of_nat (length (utf8 s) + length r)) (N.of_nat (length (utf8 s)))) as [|_]; [lia|].
    rewrite Nat2N.id, dec_bytes_n, app_length. destruct (Nat.ltb_spec (length (utf8 s) + length r) (length (utf8 s))) as [|_]; [lia|].
    rewrite firstn_app, firstn_all, Nat.sub_diag, skipn_app, skipn_all, Nat.sub_diag. cbn [firstn skipn app]. rewrite app_nil_r, decode_encode by exact V. reflexivity.
Qed.
Lemma dec_strings n : forall bs ds r, dec_n dec_string n bs = Some (ds, r) <-> length ds = n /\ strings_in bs ds r.
Proof.
  induction n as [|n IH]; intros bs ds r; cbn [dec_n].
  - split; [intros H; injection H as <- <-; split; [reflexivity|constructor]|]. intros (L & H). destruct ds; [|discriminate L]. inversion H; reflexivity.
  - split.
    + destruct (dec_string bs) as [[s b']|] eqn:D; [|discriminate]. destruct (dec_n dec_string n b') as [[ss r']|] eqn:E; [|discriminate]. intros H. injection H as <- <-.
      apply dec_string_iff in D. destruct D as (len & -> & L & Q & V). apply IH in E. destruct E as (E1 & E2). split; [cbn; congruence|]. constructor; assumption.
    + intros (L & H). inversion H as [|len s b' ds' rest L8 Q V H']; subst; [discriminate L|]. injection L as L.
      assert (D : dec_string (len ++ utf8 s ++ b') = Some (s, b')) by (apply dec_string_iff; exists len; auto). rewrite D.
      assert (E : dec_n dec_string n b' = Some (ds', r)) by (apply IH; auto). rewrite E. reflexivity.
Qed.
Lemma strings_long bs ds r : strings_in bs ds r -> length ds <= length bs.
Proof. induction 1 as [|len s bs ds rest L Q V H IH]; [cbn; lia|]. cbn [length]. rewrite !app_length. lia. Qed.
Lemma dec_list_iff bs ds : (exists r, dec_vec dec_string bs = Some (ds, r)) <-> list_in bs ds.
Proof.
  unfold dec_vec, dec_uint. split.
  - intros (r & H). destruct (Nat.ltb_spec (length bs) 8) as [|L]; [discriminate|]. destruct (N.ltb_spec (N.of_nat (length (skipn 8 bs))) (le_value (firstn 8 bs))) as [|L2]; [discriminate|].
    apply dec_strings in H. destruct H as (E & H). exists (firstn 8 bs), (skipn 8 bs), r. rewrite firstn_skipn. split; [reflexivity|]. split; [rewrite firstn_length; lia|].
    split; [rewrite little_value; lia|exact H].
  - intros (count & more & r & -> & L & E & H). exists r. rewrite little_value in E. rewrite app_length. destruct (Nat.ltb_spec (length count + length more) 8) as [|_]; [lia|].
    assert (F : firstn 8 (count ++ more) = count) by (rewrite <- L, firstn_app, firstn_all, Nat.sub_diag; cbn [firstn]; apply app_nil_r).
    assert (K : skipn 8 (count ++ more) = more) by (rewrite <- L, skipn_app, skipn_all, Nat.sub_diag; reflexivity).
    rewrite F, K, E. pose proof (strings_long _ _ _ H). destruct (N.ltb_spec (N.of_nat (length more)) (N.of_nat (length ds))) as [|_]; [lia|].
    apply dec_strings. split; [lia|exact H].
Qed.

Section USER.
Variables (u : user_dictionary) (id : N).
Let idx := u_words_idx u.
Let words := u_words u.

Definition shown (tail : list N) : option (list str) := match dec_vec dec_string tail with Some (details, _) => Some details | None => None end.
Lemma shown_some tail ds : shown tail = Some ds <-> list_in tail ds.
Proof.
  rewrite <- dec_list_iff. unfold shown. split.
  - destruct (dec_vec dec_string tail) as [[x r]|]; [|discriminate]. intros H. injection H as ->. eauto.
  - intros (r & ->). reflexivity.
Qed.
Lemma tail_at_iff bs p tail : tail_at bs p tail <-> (p <= size bs)%N /\ tail = skipn (N.to_nat p) bs.
Proof.
  unfold tail_at, size. split.
  - intros (a & -> & L). rewrite app_length. split; [lia|]. rewrite <- L, Nat2N.id, skipn_app, skipn_all, Nat.sub_diag. reflexivity.
  - intros (L & ->). exists (firstn (N.to_nat p) bs). rewrite firstn_skipn. split; [reflexivity|]. rewrite firstn_length. lia.
Qed.

Inductive user_case : Prop :=
| uc_past : (size idx <= 4 * id)%N -> user_word_details u id = Ok None -> user_case
| uc_index : index_cut idx id -> user_word_details u id = Panic -> user_case
| uc_start i : number_at 4 idx (4 * id) i -> (size words < i)%N -> user_word_details u id = Panic -> user_case
| uc_found i tail : number_at 4 idx (4 * id) i -> tail_at words i tail -> user_word_details u id = Ok (shown tail) -> user_case.
Lemma user_split : user_case.
Proof.
  destruct (N.leb_spec (N.of_nat (length idx)) (4 * id)) as [L|L].
  { apply uc_past; [exact L|]. unfold user_word_details. fold idx. destruct (N.leb_spec (N.of_nat (length idx)) (4 * id)); [reflexivity|lia]. }
  assert (W : user_word_details u id = do i <- read_index idx id; do data <- slice_from words (N.to_nat i); Ok (shown data)).
  { unfold user_word_details. fold idx words. destruct (N.leb_spec (N.of_nat (length idx)) (4 * id)); [lia|reflexivity]. }
  unfold read_index, slice_from in W. replace (4 * N.to_nat id) with (N.to_nat (4 * id)) in W by lia.
  destruct (Nat.leb_spec (N.to_nat (4 * id)) (length idx)) as [L1|L1]; [|lia]. cbn [bind] in W. unfold slice in W at 1. change (Nat.leb 0 4) with true in W. cbn [andb skipn] in W. rewrite skipn_length in W.
  destruct (Nat.leb_spec 4 (length idx - N.to_nat (4 * id))) as [L2|L2]; cbn [bind] in W.
  2:{ apply uc_index; [unfold index_cut, size; lia|exact W]. }
  unfold read_u in W at 1. rewrite firstn_length, skipn_length in W. destruct (Nat.ltb_spec (Nat.min (4 - 0) (length idx - N.to_nat (4 * id))) 4) as [L3|_]; [lia|]. cbn [bind] in W.
  rewrite firstn_firstn in W. change (Nat.min 4 (4 - 0)) with 4 in W. remember (le_value (firstn 4 (skipn (N.to_nat (4 * id)) idx))) as i eqn:Ei.
  assert (NI : number_at 4 idx (4 * id) i) by (apply number_at_iff; split; [unfold size; lia|exact Ei]).
  destruct (Nat.leb_spec (N.to_nat i) (length words)) as [L4|L4]; cbn [bind] in W.
  - apply (uc_found i (skipn (N.to_nat i) words)); [exact NI| |exact W]. apply tail_at_iff. split; [unfold size; lia|reflexivity].
  - apply (uc_start i); [exact NI|unfold size; lia|exact W].
Qed.
Lemma entry_excludes i : number_at 4 idx (4 * id) i -> ~ (size idx <= 4 * id)%N /\ ~ index_cut idx id.
Proof. intros A. apply number_at_iff in A. unfold index_cut. lia. Qed.
Lemma user_found i tail : number_at 4 idx (4 * id) i -> tail_at words i tail -> user_word_details u id = Ok (shown tail).
Proof.
  intros A T. destruct (entry_excludes _ A). destruct user_split as [L W|L W|j B L W|j tail' B T' W]; try contradiction.
  - exfalso. rewrite <- (number_at_fun _ _ _ _ _ A B) in L. apply tail_at_iff in T. lia.
  - rewrite W. rewrite <- (number_at_fun _ _ _ _ _ A B) in T'. apply tail_at_iff in T, T'. destruct T, T'. congruence.
Qed.
Theorem user_some ds : user_word_details u id = Ok (Some ds) <-> exists i tail, number_at 4 idx (4 * id) i /\ tail_at words i tail /\ list_in tail ds.
Proof.
  split.
  - intros H. destruct user_split as [L W|L W|i A L W|i tail A T W]; rewrite H in W; try discriminate W. injection W as W. exists i, tail. split; [exact A|]. split; [exact T|]. apply shown_some. auto.
  - intros (i & tail & A & T & F). rewrite (user_found _ _ A T). f_equal. apply shown_some, F.
Qed.
Theorem user_none : user_word_details u id = Ok None <-> (size idx <= 4 * id)%N \/ exists i tail, number_at 4 idx (4 * id) i /\ tail_at words i tail /\ ~ exists ds, list_in tail ds.
Proof.
  split.
  - intros H. destruct user_split as [L W|L W|i A L W|i tail A T W]; rewrite H in W; try discriminate W; [left; exact L|]. right. exists i, tail. split; [exact A|]. split; [exact T|].
    intros (ds & F). apply shown_some in F. congruence.
  - intros [L|(i & tail & A & T & F)].
    + unfold user_word_details. fold idx. destruct (N.leb_spec (N.of_nat (length idx)) (4 * id)) as [_|X]; [reflexivity|unfold size in L; lia].
    + rewrite (user_found _ _ A T). destruct (shown tail) as [ds|] eqn:S; [|reflexivity]. destruct F. exists ds. apply shown_some, S.
Qed.
Theorem user_panics : user_word_details u id = Panic <-> index_cut idx id \/ exists i, number_at 4 idx (4 * id) i /\ (size words < i)%N.
Proof.
  split.
  - intros H. destruct user_split as [L W|L W|i A L W|i tail A T W]; rewrite H in W; try discriminate W; [left; exact L|right; eauto].
  - intros H. destruct user_split as [L W|L W|i A L W|i tail A T W]; try exact W; exfalso.
    + destruct H as [H|(i & A & _)]; [unfold index_cut in H; lia|]. apply number_at_iff in A. lia.
    + destruct (entry_excludes _ A) as (E1 & E2). destruct H as [H|(j & B & L)]; [contradiction|]. rewrite <- (number_at_fun _ _ _ _ _ A B) in L. apply tail_at_iff in T. lia.
Qed.
Theorem user_no_error k : user_word_details u id <> Err k.
Proof. intros H. destruct user_split as [L W|L W|i A L W|i tail A T W]; rewrite H in W; discriminate W. Qed.
End USER.

Lemma details_no_error d u w cache k : get_details d u w cache <> Err k.
Proof.
  unfold get_details. destruct cache; [discriminate|]. destruct (is_unknown w); [discriminate|].
  destruct (is_system w); [|destruct u as [u|]; [|discriminate]].
  - destruct (word_details d (wid w)) eqn:E; cbn [bind]; try discriminate. exfalso. exact (system_no_error _ _ _ E).
  - destruct (user_word_details u (wid w)) eqn:E; cbn [bind]; try discriminate. exfalso. exact (user_no_error _ _ _ E).
Qed.
Lemma details_panic d u w cache : get_details d u w cache = Panic <-> cache = None /\ is_unknown w = false /\
  (is_system w = true /\ word_details d (wid w) = Panic \/ is_system w = false /\ exists u', u = Some u' /\ user_word_details u' (wid w) = Panic).
Proof.
  unfold get_details. split.
  - destruct cache; [discriminate|]. destruct (is_unknown w); [discriminate|]. intros H. split; [reflexivity|]. split; [reflexivity|].
    destruct (is_system w); [left|right]; (split; [reflexivity|]).
    + destruct (word_details d (wid w)); cbn [bind] in H; congruence.
    + destruct u as [u|]; [|discriminate H]. exists u. split; [reflexivity|]. destruct (user_word_details u (wid w)); cbn [bind] in H; congruence.
  - intros (-> & -> & [(-> & ->)|(-> & u' & -> & ->)]); reflexivity.
Qed.
