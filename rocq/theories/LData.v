(** Saved dictionaries, compression, and the details of a token. *)
From Coq Require Import String.
From Coq Require Import List NArith ZArith Bool Lia ZifyBool ZifyNat ZifyN.
From Verif Require Import MBase MUtf8 MText MCodec MDict MCharDef MUnk MBincode MTokenizer MDetails SData LBase LUtf8 LCodec LBincode.
Import ListNotations.
Local Open Scope list_scope.

Lemma unknown_reload d rest : unknown_in_range d -> dec_unknown (enc_unknown d ++ rest) = Some (d, rest) /\ load_unknown (enc_unknown d) = Ok d.
Proof.
  intros H. split; [apply rt_unknown; exact H|]. unfold load_unknown. rewrite <- (app_nil_r (enc_unknown d)), rt_unknown by exact H. reflexivity.
Qed.

Lemma chardef_reload d rest : chardef_in_range d -> dec_chardef (enc_chardef d ++ rest) = Some (d, rest) /\ load_chardef (enc_chardef d) = Ok d.
Proof.
  intros H. split; [apply rt_chardef; exact H|]. unfold load_chardef. rewrite <- (app_nil_r (enc_chardef d)), rt_chardef by exact H. reflexivity.
Qed.

Lemma user_reload d rest : user_in_range d -> dec_user (enc_user d ++ rest) = Some (d, rest) /\ load_user (enc_user d) = Ok d.
Proof.
  intros H. split; [apply rt_user; exact H|]. unfold load_user. rewrite <- (app_nil_r (enc_user d)), rt_user by exact H. reflexivity.
Qed.

Lemma raw_stored k data : compress k data Raw = Some (CompressedData Raw data) /\ decompress k (CompressedData Raw data) = Some data.
Proof. split; reflexivity. Qed.

Lemma details_of_unknown d u w : is_unknown w = true -> get_details d u w None = Ok (Some [lit "UNK"], Some [lit "UNK"]).
Proof. intros H. unfold get_details. rewrite H. reflexivity. Qed.

Lemma details_of_system d u w : is_unknown w = false -> is_system w = true ->
  get_details d u w None = do r <- word_details d (wid w); Ok (r, r).
Proof. intros H1 H2. unfold get_details. rewrite H1, H2. reflexivity. Qed.

Lemma details_of_user d u w : is_unknown w = false -> is_system w = false ->
  get_details d (Some u) w None = do r <- user_word_details u (wid w); Ok (r, r).
Proof. intros H1 H2. unfold get_details. rewrite H1, H2. reflexivity. Qed.

(* any number of further calls *)
Lemma details_again d u w cache r cache' : get_details d u w cache = Ok (r, cache') ->
  get_details d u w cache' = Ok (r, cache') /\ (forall v, cache = Some v -> r = Some v).
Proof.
  unfold get_details. destruct cache as [v|].
  - intros X. injection X as <- <-. split; [reflexivity|congruence].
  - destruct (is_unknown w).
    + intros X. injection X as <- <-. split; [reflexivity|discriminate].
    + intros H. apply bind_ok in H. destruct H as (r' & H & E). injection E as <- <-. split; [|discriminate].
      destruct r' as [v|]; [reflexivity|]. rewrite H. reflexivity.
Qed.

Lemma details_set d u w cache v : get_details d u w (set_details (Some v) cache) = Ok (Some v, Some v).
Proof. reflexivity. Qed.
