(** C98: positions and edge numbers of 32 bits. *)
From Coq Require Import String.
From Coq Require Import List NArith ZArith Bool Lia.
From Verif Require Import MBase MUtf8 MText MCodec MDict MCharDef MUnk MLattice MTokenizer MLattice32 STok SWork SCast LUtf8 LTok LCast XSample XCast.
Import ListNotations.
Local Open Scope list_scope.

(** C98: with 32-bit positions and edge numbers the tokens are the same if every sentence fits. *)
Theorem C98_same : forall t A, represents t A -> forall text ss, valid_str text -> sentences text ss -> Forall (fits_u32 A) ss ->
  tokenize32 t text = tokenize t text.
Proof. exact same_tokens. Qed.
Print Assumptions C98_same.

(** C98: how long a sentence may be, for a dictionary with words of at most n characters, e entries for a word, c categories for
    a character and u unknown-word entries for a category. *)
Theorem C98_length : forall A n e c u s, dict_size A n e c u ->
  (Z.of_nat (4 * List.length s) < 4294967296 /\ Z.of_nat ((2 * n * e + c * u) * List.length s) + 2 <= 4294967296)%Z -> fits_u32 A s.
Proof. exact long_enough. Qed.
Print Assumptions C98_length.

(** C98: a sentence of 2^32 bytes can get lost. *)
Theorem C98_limit : exists t A text, represents t A /\ valid_str text /\ covered A text /\ sentences text [text] /\ Z.of_nat (blen text) = 4294967296%Z /\
  (exists ts, tokenize t text = Some (Ok ts) /\ tiles text ts) /\ tokenize32 t text = Some (Ok []).
Proof. exact four_gib_lost. Qed.
Print Assumptions C98_limit.

(** C98: whatever the dictionary and the text, positions and edge numbers are kept in 32 bits. *)
Theorem C98_fields : forall l dict user cd ud text m l', set_text32 l dict user cd ud text m = Ok l' -> fields_fit l'.
Proof. exact always_fit. Qed.
Print Assumptions C98_fields.

Example C98_ex : let t := sample (Decompose default_penalty) [sample_unk] in let A := sample_meaning [sample_unk] in let text := lit "ab" ++ [10%N] ++ lit "abc" in
  represents t A /\ dict_size A 2 2 1 1 /\ sentences text [lit "ab" ++ [10%N]; lit "abc"] /\ Forall (fits_u32 A) [lit "ab" ++ [10%N]; lit "abc"] /\
  tokenize32 t text = Some (Ok
    [Token (lit "ab") 0 2 0 1 (WordId 1 true); Token [10%N] 2 3 1 1 (WordId u32_max true);
     Token (lit "a") 3 4 2 1 (WordId 0 true); Token (lit "bc") 4 6 3 1 (WordId 0 false)]) /\
  (exists l, set_text32 default_lattice sample_dict None sample_chars (d_unknown (t_dictionary t)) (lit "abc") Normal = Ok l /\ List.length (edges l) = 6) /\
  u32 4 = 4 /\ u32 four_gib = 0.
Proof.
  cbv zeta. split; [exact (sample_represents _ _ sample_unk_ok)|]. split; [exact sample_size|]. split; [exact (split_sentences (lit "ab" ++ [10%N] ++ lit "abc"))|].
  split; [repeat constructor; vm_compute; congruence|]. split; [vm_compute; reflexivity|]. split; [eexists; split; vm_compute; reflexivity|]. split; [reflexivity|exact four_gib_zero].
Qed.
