(** The builders of the five dictionary kinds. *)
From Coq Require Import String.
From Coq Require Import List NArith ZArith Bool Lia ZifyBool ZifyNat ZifyN Permutation.
From Verif Require Import MBase MUtf8 MText MCodec MDict MCharDef MUnk MBincode MTokenizer MDetails MBuild STok SBuild LBase LUtf8 LCodec LDict LBuild SData LBincode LSysDict LUserDict.
Import ListNotations.
Local Open Scope list_scope.

Lemma kind_simple_details k s pos reading :
  exists ds, user_row_details (kind_user_options k) [s; pos; reading] = Some ds /\
    nth_error ds 0 = Some pos /\ nth_error ds (reading_index k) = Some reading /\
    (k = IPADIC \/ k = IPADICNEologd -> nth_error ds 6 = Some s) /\
    List.length ds = full_fields k - 4 /\
    (forall i d, nth_error ds i = Some d -> d = pos \/ d = reading \/ d = s \/ d = [42%N]).
Proof.
  destruct k; eexists; (split; [reflexivity|]); repeat split; cbn; auto; try (intros [H|H]; congruence);
    intros i d E; repeat (destruct i as [|i]; [cbn in E; injection E as <-; unfold star; auto|]); destruct i; discriminate.
Qed.

Lemma kind_fields k : detailed_fields k = full_fields k.
Proof. destruct k; reflexivity. Qed.
Lemma kind_numbers k s pos reading : user_numbers (kind_user_options k) [s; pos; reading] = Some ((-10000)%Z, 0%N, 0%N).
Proof. reflexivity. Qed.
Lemma kind_own_numbers k s l r c (ds : list str) a b x : parse_u16 l = Some a -> parse_u16 r = Some b -> parse_i16 c = Some x ->
  user_numbers (kind_user_options k) (s :: l :: r :: c :: ds) = Some (x, a, b).
Proof. intros H1 H2 H3. unfold user_numbers. cbn [List.length kind_user_options uo_simple_fields Nat.eqb]. rewrite H1, H2, H3. reflexivity. Qed.
Lemma kind_short_details k r : List.length r <> 3 -> List.length r < full_fields k -> user_row_details (kind_user_options k) r = None.
Proof.
  intros H1 H2. rewrite <- kind_fields in H2. unfold user_row_details, kind_user_options. cbn [uo_simple_fields uo_handler uo_detailed_fields].
  destruct (Nat.eqb_spec (List.length r) 3); [congruence|]. destruct (Nat.leb_spec (detailed_fields k) (List.length r)); [lia|reflexivity].
Qed.

Lemma kind_detailed_details k r : List.length r <> 3 -> full_fields k <= List.length r ->
  user_row_details (kind_user_options k) r = Some (skipn 4 r).
Proof.
  intros H1 H2. rewrite <- kind_fields in H2. unfold user_row_details, kind_user_options. cbn [uo_simple_fields uo_handler uo_detailed_fields].
  destruct (Nat.eqb_spec (List.length r) 3); [congruence|]. destruct (Nat.leb_spec (detailed_fields k) (List.length r)); [reflexivity|lia].
Qed.

Lemma kind_no_panic k rows : Forall (fun r : row => List.length r = 3 \/ 4 <= List.length r) rows ->
  Forall (long_enough (kind_user_options k)) rows /\ Forall (fun r => user_details (kind_user_options k) r <> Panic) rows.
Proof.
  intros F. split; (eapply Forall_impl; [|exact F]); intros r H.
  - split; [|exact H]. intros ->. cbn in H. lia.
  - unfold user_details, is_simple. cbn [kind_user_options uo_simple_fields uo_handler uo_detailed_fields].
    destruct (Nat.eqb_spec (List.length r) 3) as [E|E].
    + destruct r as [|a [|b [|c [|]]]]; try discriminate. destruct k; discriminate.
    + destruct (Nat.leb (detailed_fields k) (List.length r)); discriminate.
Qed.

Lemma kind_build_outcome k rows :
  Forall (fun r : row => List.length r = 3 \/ 4 <= List.length r) rows ->
  (Forall (row_acceptable (kind_user_options k)) rows -> exists d, build_user (kind_user_options k) rows = Ok d) /\
  (Exists (fun r => user_numbers (kind_user_options k) r = None) rows -> build_user (kind_user_options k) rows = Err EParse) /\
  (Exists (fun r => ~ row_acceptable (kind_user_options k) r) rows -> exists e, build_user (kind_user_options k) rows = Err e).
Proof. intros F. destruct (kind_no_panic k rows F). apply user_build_outcome; assumption. Qed.

(* rows with one or two fields *)
Lemma short_row_panics k s r : List.length r <= 1 -> build_user (kind_user_options k) [s :: r] = Panic.
Proof. destruct r as [|x [|]]; cbn [List.length]; intros H; try lia; destruct k; reflexivity. Qed.
