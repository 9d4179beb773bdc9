(** Property C88: the details stored in any words files. *)
From Coq Require Import String.
From Coq Require Import List NArith ZArith Bool Lia ZifyBool ZifyNat ZifyN.
From Verif Require Import MBase MUtf8 MText MCodec MDict MCharDef MUnk MLattice MBincode MTokenizer MDetails SDetails LDetails2 XSample.
Import ListNotations.
Local Open Scope string_scope.
Local Open Scope list_scope.

Theorem C88_system_found : forall d id ds, word_details d id = Ok (Some ds) <->
  exists bytes, record_at (d_words_idx d) (d_words d) id bytes /\ fields_in bytes ds.
Proof. exact system_some. Qed.
Print Assumptions C88_system_found.
Theorem C88_system_none : forall d id, word_details d id = Ok None <-> (size (d_words_idx d) <= 4 * id)%N \/
  exists bytes, record_at (d_words_idx d) (d_words d) id bytes /\ ~ exists ds, fields_in bytes ds.
Proof. exact system_none. Qed.
Print Assumptions C88_system_none.
Theorem C88_system_panics : forall d id, word_details d id = Panic <-> index_cut (d_words_idx d) id \/ record_cut (d_words_idx d) (d_words d) id.
Proof. exact system_panics. Qed.
Print Assumptions C88_system_panics.

Theorem C88_user_found : forall u id ds, user_word_details u id = Ok (Some ds) <->
  exists i tail, number_at 4 (u_words_idx u) (4 * id) i /\ tail_at (u_words u) i tail /\ list_in tail ds.
Proof. exact user_some. Qed.
Print Assumptions C88_user_found.
Theorem C88_user_none : forall u id, user_word_details u id = Ok None <-> (size (u_words_idx u) <= 4 * id)%N \/
  exists i tail, number_at 4 (u_words_idx u) (4 * id) i /\ tail_at (u_words u) i tail /\ ~ exists ds, list_in tail ds.
Proof. exact user_none. Qed.
Print Assumptions C88_user_none.
Theorem C88_user_panics : forall u id, user_word_details u id = Panic <-> index_cut (u_words_idx u) id \/
  exists i, number_at 4 (u_words_idx u) (4 * id) i /\ (size (u_words u) < i)%N.
Proof. exact user_panics. Qed.
Print Assumptions C88_user_panics.

(* asking a token for its details *)
Theorem C88_no_error : forall d u w cache k, get_details d u w cache <> Err k.
Proof. exact details_no_error. Qed.
Print Assumptions C88_no_error.
Theorem C88_token_panics : forall d u w cache, get_details d u w cache = Panic <-> cache = None /\ is_unknown w = false /\
  (is_system w = true /\ word_details d (wid w) = Panic \/ is_system w = false /\ exists u', u = Some u' /\ user_word_details u' (wid w) = Panic).
Proof. exact details_panic. Qed.
Print Assumptions C88_token_panics.

(* two records, a and b / c and an invalid one; then an index entry that points outside and one of two bytes *)
Definition odd_words : dictionary :=
  Dictionary (PrefixDict [] [] true) (ConnMatrix [] 0) sample_chars (UnknownDictionary [] []) ([0; 0; 0; 0] ++ [7; 0; 0; 0] ++ [13; 0; 0; 0] ++ [200; 0; 0; 0] ++ [0; 0])%N
    ([3; 0; 0; 0; 97; 0; 98] ++ [2; 0; 0; 0; 255; 0] ++ [9; 0; 0; 0])%N.
Definition odd_user : user_dictionary :=
  UserDictionary (PrefixDict [] [] true) ([0; 0; 0; 0] ++ [1; 0; 0; 0] ++ [40; 0; 0; 0])%N ([1; 0; 0; 0; 0; 0; 0; 0] ++ [1; 0; 0; 0; 0; 0; 0; 0; 97] ++ [5])%N.
Example C88_ex :
  word_details odd_words 0 = Ok (Some [lit "a"; lit "b"]) /\ word_details odd_words 1 = Ok None /\ word_details odd_words 2 = Panic /\
  word_details odd_words 3 = Panic /\ word_details odd_words 4 = Panic /\ word_details odd_words 5 = Ok None /\
  user_word_details odd_user 0 = Ok (Some [lit "a"]) /\ user_word_details odd_user 1 = Ok None /\ user_word_details odd_user 2 = Panic /\
  index_cut (d_words_idx odd_words) 4 /\ record_cut (d_words_idx odd_words) (d_words odd_words) 3 /\
  (exists bytes, record_at (d_words_idx odd_words) (d_words odd_words) 0 bytes /\ fields_in bytes [lit "a"; lit "b"]) /\
  (exists bytes, record_at (d_words_idx odd_words) (d_words odd_words) 1 bytes /\ ~ exists ds, fields_in bytes ds).
Proof.
  do 9 (split; [vm_compute; reflexivity|]). split; [unfold index_cut; vm_compute; auto|].
  split; [destruct (proj1 (system_panics odd_words 3) ltac:(vm_compute; reflexivity)) as [X|X]; [exfalso; unfold index_cut in X; vm_compute in X; destruct X; discriminate|exact X]|].
  split; [apply (system_some odd_words 0); vm_compute; reflexivity|].
  destruct (proj1 (system_none odd_words 1) ltac:(vm_compute; reflexivity)) as [X|X]; [exfalso; vm_compute in X; apply X; reflexivity|exact X].
Qed.
