(** Property C79: the search does not grow faster than the text. *)
From Coq Require Import String.
From Coq Require Import List NArith ZArith Bool Lia.
From Verif Require Import MBase MUtf8 MText MCodec MDict MCharDef MUnk MLattice MTokenizer STok SWork LUtf8 LWork XSample.
Import ListNotations.
Local Open Scope string_scope.
Local Open Scope list_scope.

Theorem C79_edges : forall t A m s l, represents t A -> valid_str s -> s <> [] -> sentence_lattice t m s = Ok l ->
  List.length (word_edges l) <= words_in A s /\
  forall K, 1 <= K -> (forall pre r, s = pre ++ r -> words_at A r <= K) ->
    List.length (word_edges l) <= K * List.length s /\ comparisons l <= K * (K * List.length s + 1).
Proof. exact edges_bounded. Qed.
Print Assumptions C79_edges.
Theorem C79_linear : forall t A m s l n e c u, represents t A -> dict_size A n e c u -> valid_str s -> s <> [] -> sentence_lattice t m s = Ok l ->
  let K := 2 * n * e + c * u + 1 in List.length (word_edges l) <= K * List.length s /\ comparisons l <= K * (K * List.length s + 1).
Proof. exact linear_work. Qed.
Print Assumptions C79_linear.
Theorem C79_tokens : forall t A text ts, represents t A -> valid_str text -> covered A text -> tokenize t text = Some (Ok ts) ->
  List.length ts <= List.length text.
Proof. exact few_tokens. Qed.
Print Assumptions C79_tokens.

Example C79_ex : dict_size (sample_meaning [sample_unk]) 2 2 1 1 /\
  (* a, ab twice and an unknown word at 0, bc and an unknown word at 1, an unknown word at 2; of the unknown words only the last
     is made, as dictionary words start at 0 and 1 *)
  words_in (sample_meaning [sample_unk]) (lit "abc") = 7 /\
  exists l, sentence_lattice (sample Normal [sample_unk]) Normal (lit "abc") = Ok l /\ List.length (word_edges l) = 5 /\ comparisons l = 8.
Proof.
  split; [|split].
  - constructor; try (intros; cbn; lia).
    + intros k. cbn [sample_meaning a_sys sample_sys entries_of]. repeat match goal with |- context [str_eqb ?a k] => destruct (str_eqb a k) eqn:?; [apply str_eqb_spec in Heqb; subst k; cbn; split; [lia|intros _; lia]|clear Heqb] end. cbn. split; [lia|congruence].
    + intros k. cbn [sample_meaning a_usr sample_usr entries_of]. repeat match goal with |- context [str_eqb ?a k] => destruct (str_eqb a k) eqn:?; [apply str_eqb_spec in Heqb; subst k; cbn; split; [lia|intros _; lia]|clear Heqb] end. cbn. split; [lia|congruence].
  - vm_compute. reflexivity.
  - eexists. split; [vm_compute; reflexivity|]. split; vm_compute; reflexivity.
Qed.
