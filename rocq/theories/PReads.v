(** Property C108: how often the categories of a character are looked up. *)
From Coq Require Import String.
From Coq Require Import List NArith ZArith Bool Lia.
From Verif Require Import MBase MUtf8 MText MCodec MDict MCharDef MUnk MLattice MTokenizer MReads STok SReads LUtf8 LReads XSample XReads.
Import ListNotations.
Local Open Scope string_scope.
Local Open Scope list_scope.
Local Open Scope nat_scope.

(* counting changes nothing *)
Theorem C108_same : forall t m s, (do '(l, _) <- counted_lattice t m s; Ok l) = sentence_lattice t m s.
Proof. intros t m s. apply forget_text. Qed.
Print Assumptions C108_same.

(* n + C n (n - 1) / 2 at most, with C categories for a character *)
Theorem C108_any : forall t A m C s l k, represents t A -> valid_str s -> s <> [] -> (forall c, In c s -> List.length (a_cats A c) <= C) ->
  counted_lattice t m s = Ok (l, k) -> let n := List.length s in 2 * k + C * n <= 2 * n + C * (n * n).
Proof. exact counted_any. Qed.
Print Assumptions C108_any.

(* in normal mode, with one category for a character, two for each character at most *)
Theorem C108_normal : forall t A s l k, represents t A -> valid_str s -> s <> [] -> (forall c, In c s -> List.length (a_cats A c) <= 1) ->
  counted_lattice t Normal s = Ok (l, k) -> k <= 2 * List.length s.
Proof. intros t A s l k R V NE H. apply (counted_normal t A Normal s l k R V NE eq_refl H). Qed.
Print Assumptions C108_normal.

(* in decompose mode they grow with the square of the length, and C108_any cannot be improved *)
Theorem C108_decompose_refuted : exists A, (forall p, represents (eager (Decompose p)) A) /\ (forall c, List.length (a_cats A c) = 1) /\
  (forall p n, 0 < n -> exists l k, counted_lattice (eager (Decompose p)) (Decompose p) (repeat 97%N n) = Ok (l, k) /\ 2 * k = n * S n) /\
  forall p K, exists s l k, valid_str s /\ counted_lattice (eager (Decompose p)) (Decompose p) s = Ok (l, k) /\ K * List.length s < k.
Proof.
  exists eager_meaning. split; [intros p; apply eager_represents|]. split; [reflexivity|]. split; [exact eager_counted|].
  intros p K. destruct (eager_counted p (2 * K + 1) ltac:(lia)) as (l & k & E & H). exists (repeat 97%N (2 * K + 1)), l, k. split; [apply valid_as|]. split; [exact E|]. rewrite repeat_length. nia.
Qed.
Print Assumptions C108_decompose_refuted.

(* the same tokenizer in normal mode reads the text once *)
Example C108_ex : exists l k, counted_lattice (eager Normal) Normal (lit "aaaaaa") = Ok (l, k) /\ k = 6 /\
  exists l' k', counted_lattice (eager (Decompose huge)) (Decompose huge) (lit "aaaaaa") = Ok (l', k') /\ k' = 21.
Proof. eexists. eexists. split; [vm_compute; reflexivity|]. split; [reflexivity|]. eexists. eexists. split; [vm_compute; reflexivity|reflexivity]. Qed.
(* one category for a character is needed in C108_normal: a shorter unknown word of a later category makes the next place be tried
   again, and the square comes back *)
Theorem C108_two_categories_refuted : exists A, represents double A /\ (forall c, List.length (a_cats A c) = 2) /\
  (forall n, 0 < n -> exists l k, counted_lattice double Normal (repeat 120%N n) = Ok (l, k) /\ 2 * k = n * S n) /\
  forall K, exists s l k, valid_str s /\ counted_lattice double Normal s = Ok (l, k) /\ K * List.length s < k.
Proof.
  exists double_meaning. split; [apply double_represents|]. split; [reflexivity|]. split; [exact double_counted|].
  intros K. destruct (double_counted (2 * K + 1) ltac:(lia)) as (l & k & E & H). exists (repeat 120%N (2 * K + 1)), l, k. split; [apply valid_xs|]. split; [exact E|]. rewrite repeat_length. nia.
Qed.
Print Assumptions C108_two_categories_refuted.
Example C108_categories_matter : exists l k, counted_lattice double Normal (lit "xxxxxx") = Ok (l, k) /\ k = 21 /\ 2 * 6 < k.
Proof. eexists. eexists. split; [vm_compute; reflexivity|]. split; [reflexivity|lia]. Qed.
(* with one category the bound is nearly attained: at each character its own category and that of the next one are looked up, but
   for the last one *)
Example C108_normal_ex : exists l k, counted_lattice two_kinds Normal (lit "acacac") = Ok (l, k) /\ k = 2 * 6 - 1 /\
  exists l' k', counted_lattice two_kinds Normal (lit "aacc") = Ok (l', k') /\ k' = 5.
Proof. eexists. eexists. split; [vm_compute; reflexivity|]. split; [reflexivity|]. eexists. eexists. split; [vm_compute; reflexivity|reflexivity]. Qed.
