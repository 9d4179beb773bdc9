(** A text of 2^32 bytes, evaluated symbolically. *)
From Coq Require Import String.
From Coq Require Import List NArith ZArith Bool Lia ZifyBool ZifyNat ZifyN.
From Verif Require Import MBase MUtf8 MText MCodec MDict MCharDef MUnk MLattice MTokenizer MLattice32 STok SWork SCast LBase LUtf8 LScan LLat LTok LWork LCast XSample.
Import ListNotations.
Local Open Scope list_scope.
Local Open Scope nat_scope.

Definition xs (n : nat) : str := repeat 120%N n.
Lemma xs_blen n : blen (xs n) = n.
Proof. induction n as [|n IH]; [reflexivity|]. cbn [xs repeat blen]. fold (xs n). rewrite IH. reflexivity. Qed.
Lemma xs_valid n : valid_str (xs n).
Proof. apply Forall_forall. intros c I. apply repeat_spec in I. subst c. unfold valid_char. lia. Qed.
Lemma xs_sentence n : 0 < n -> sentences (xs n) [xs n].
Proof.
  intros H. apply sent_open. split; [destruct n; [lia|discriminate]|]. apply Forall_forall. intros c I. apply repeat_spec in I. subst c. cbn. intuition discriminate.
Qed.
Lemma xs_no_words n : prefix_words sample_sys (xs n) = [] /\ prefix_words sample_usr (xs n) = [].
Proof.
  assert (G : forall tbl, (forall k, entries_of tbl (120%N :: k) = []) -> forall is, Forall (fun i => 1 <= i) is ->
    flat_map (fun i => map (pair (firstn i (xs n))) (entries_of tbl (firstn i (xs n)))) is = [] \/ n = 0).
  { intros tbl T is F. destruct n as [|n]; [right; reflexivity|left]. induction F as [|i is I _ IH]; [reflexivity|]. cbn [flat_map]. rewrite IH.
    destruct i as [|i]; [lia|]. cbn [xs repeat firstn]. rewrite T. reflexivity. }
  assert (F : Forall (fun i => 1 <= i) (seq 1 (List.length (xs n)))) by (apply Forall_forall; intros i I; apply in_seq in I; lia).
  split.
  - destruct (G sample_sys (fun k => eq_refl) _ F) as [E|E]; [exact E|subst n; reflexivity].
  - destruct (G sample_usr (fun k => eq_refl) _ F) as [E|E]; [exact E|subst n; reflexivity].
Qed.
Lemma xs_group n : group_len sample_chars 0 0 (xs n) = Ok n.
Proof. induction n as [|n IH]; [reflexivity|]. cbn [xs repeat]. fold (xs n). cbn [group_len]. rewrite IH. reflexivity. Qed.

(* the edge over the whole text starts and ends at 0 *)
Definition whole : edge := Edge UNKNOWN sample_unk i32_max None 0 0 false.
Definition around (n : nat) (e : edge) : lattice :=
  Lattice n [default_edge; default_edge; e] ([2] :: repeat [] (n - 1) ++ [[1]]) ([0; 2] :: repeat [] n).

Lemma upd_last {X} (x y : X) n : upd (repeat x (S n)) n y = repeat x n ++ [y].
Proof. induction n as [|n IH]; [reflexivity|]. cbn [repeat upd app]. f_equal. exact IH. Qed.
Lemma nth_repeat {X} (x : X) n : forall i, i < n -> nth_error (repeat x n) i = Some x.
Proof. induction n as [|n IH]; intros [|i] H; cbn [repeat nth_error]; try lia; [reflexivity|]. apply IH. lia. Qed.

Lemma push_last n (x : edge_id) : push_at (repeat [] (S n)) n x = Ok (repeat [] n ++ [[x]]).
Proof. unfold push_at, idx. rewrite nth_repeat by lia. cbn [bind app]. rewrite upd_last. reflexivity. Qed.
Lemma push_first n (x : edge_id) : push_at (repeat [] (S n)) 0 x = Ok ([x] :: repeat [] n).
Proof. reflexivity. Qed.
Lemma idle dict user cd ud text m l ue : forall is, Forall (fun i => nth_error (ends_at l) i = Some []) is ->
  foldM (set_text_step32 dict user cd ud text m) is (l, ue) = Ok (l, ue).
Proof.
  induction 1 as [|i is H _ IH]; [reflexivity|]. cbn [foldM]. unfold set_text_step32 at 1. unfold idx. rewrite H. cbn [bind]. exact IH.
Qed.

Section Lost.
Variable k : nat.
Hypothesis k_zero : u32 (S k) = 0.
Let t := sample Normal [sample_unk].
Let d := t_dictionary t.

Lemma no_edges n st : add_dict_edges32 sample_dict 0 (xs n) st = Ok st /\ add_dict_edges32 (u_dict sample_user) 0 (xs n) st = Ok st.
Proof.
  pose proof (sample_represents Normal _ sample_unk_ok) as R. pose proof (rep_sys _ _ R (xs n) (xs_valid n)) as S. pose proof (rep_usr _ _ R) as U.
  cbn [sample t_user] in U. specialize (U (xs n) (xs_valid n)). cbn [sample t_dictionary d_dict] in S. destruct (xs_no_words n) as [W1 W2].
  cbn [sample_meaning a_sys a_usr] in S, U. rewrite W1 in S. rewrite W2 in U. unfold add_dict_edges32. rewrite S, U. split; reflexivity.
Qed.

Lemma lost_unknown l ue : process_unknown_word32 sample_chars (d_unknown d) 0 0 ue 0 (xs (S k)) false l
  = do l' <- add_edge_in_lattice32 l whole; Ok (l', Some (S k)).
Proof.
  unfold process_unknown_word32. change (lookup_definition sample_chars 0) with (Ok (CategoryData false true 0)). cbn [bind cd_invoke negb orb cd_group].
  change (tl (xs (S k))) with (xs k). rewrite xs_group. cbn [bind]. change (Nat.ltb 0 (S k)) with true. cbv iota zeta.
  assert (FX : firstn (S k) (xs (S k)) = xs (S k)) by (apply firstn_all2; unfold xs; rewrite repeat_length; lia).
  rewrite FX, xs_blen. change (ud_lookup_word_ids (d_unknown d) 0) with (Ok [0%N]). cbn [bind foldM]. change (ud_word_entry (d_unknown d) 0%N) with (Ok sample_unk). cbn [bind].
  change (0 + S k) with (S k). rewrite k_zero, (u32_small 0) by (cbn; unfold max32; lia). change (is_kanji_only (xs (S k))) with false. fold whole.
  destruct (add_edge_in_lattice32 l whole); reflexivity.
Qed.

Lemma lost_text : set_text32 default_lattice sample_dict (Some (u_dict sample_user)) sample_chars (d_unknown d) (xs (S k)) Normal = Ok (around (S k) whole).
Proof.
  unfold set_text32. rewrite xs_blen, (set_capacity_reusable _ _ default_reusable) by lia. change (Nat.max (capacity default_lattice) (S k)) with (S k).
  cbv zeta. unfold add_edge32. cbn [edges app List.length capacity starts_at ends_at]. rewrite !u32_small by (cbn; unfold max32; lia). change (negb (Nat.eqb 1 1)) with false. cbv iota.
  rewrite push_first, push_last. cbn [bind]. change (seq 0 (S k)) with (0 :: seq 1 k). cbn [foldM].
  assert (ST : set_text_step32 sample_dict (Some (u_dict sample_user)) sample_chars (d_unknown d) (xs (S k)) Normal
    (Lattice (S k) [default_edge; default_edge] (repeat [] (S k) ++ [[1]]) ([0] :: repeat [] (S k)), None) 0 = Ok (around (S k) whole, Some (S k))).
  { unfold set_text_step32. cbn [ends_at]. unfold idx at 1. cbn [nth_error bind]. replace (str_from (xs (S k)) 0) with (@Ok str (xs (S k))) by (symmetry; apply (str_from_app [] (xs (S k)))). cbn [bind].
    rewrite (proj2 (no_edges _ _)). cbn [bind]. rewrite (proj1 (no_edges _ _)). cbn [bind]. change (is_search Normal || true)%bool with true. cbv iota.
    change (xs (S k)) with (120%N :: xs k) at 1. cbv iota. change (lookup_categories sample_chars 120%N) with (@Ok (list category_id) [0]). cbn [bind].
    change (enumerate [0]) with [(0, 0)]. cbn [foldM]. rewrite lost_unknown.
    replace (add_edge_in_lattice32 (Lattice (S k) [default_edge; default_edge] (repeat [] (S k) ++ [[1]]) ([0] :: repeat [] (S k))) whole) with (@Ok lattice (around (S k) whole)); [reflexivity|].
    unfold add_edge_in_lattice32, add_edge32. cbn [edges List.length app starts_at ends_at capacity whole e_start e_stop]. rewrite (u32_small 2) by (cbn; unfold max32; lia).
    unfold around. replace (S k - 1) with k by lia. reflexivity. }
  match goal with |- context [set_text_step32 ?a ?b ?c ?x ?e ?f ?g ?h] => replace (set_text_step32 a b c x e f g h) with (@Ok (lattice * option nat) (around (S k) whole, Some (S k))) by (symmetry; exact ST) end.
  cbn [bind]. rewrite idle; [reflexivity|]. apply Forall_forall. intros i I. apply in_seq in I. cbn [around ends_at]. destruct i as [|i]; [lia|]. cbn [nth_error]. apply nth_repeat. lia.
Qed.

(* the best left neighbour of that edge is the edge itself: its cost i32::MAX + 3 wraps *)
Definition looped : edge := Edge UNKNOWN sample_unk (wrap32 (100 + wrap32 (2147483647 + 3))) (Some 2) 0 0 false.
Lemma lost_costs : calculate_path_costs32 (ConnMatrix (i16_bytes 3) 1) Normal (around (S k) whole) = Ok (around (S k) looped).
Proof.
  unfold calculate_path_costs32. cbn [around starts_at List.length capacity ends_at edges]. cbn [seq foldM]. unfold idx at 1 2. cbn [nth_error bind foldM].
  replace (path_cost_step32 (ConnMatrix (i16_bytes 3) 1) Normal [0; 2] [default_edge; default_edge; whole] 2) with (@Ok (list edge) [default_edge; default_edge; looped]) by (vm_compute; reflexivity).
  cbn [bind]. match goal with |- context [foldM ?f ?l ?x] => replace (foldM f l x) with (@Ok (list edge) x) end; [reflexivity|].
  replace (S k - 1) with k by lia. rewrite app_length, repeat_length. cbn [List.length].
  assert (G : forall is, Forall (fun i => 1 <= i <= S k) is -> foldM (fun es i => do lefts <- idx ([0; 2] :: repeat [] (S k)) i; do rights <- idx ([2] :: repeat [] k ++ [[1]]) i;
     foldM (path_cost_step32 (ConnMatrix (i16_bytes 3) 1) Normal lefts) rights es) is [default_edge; default_edge; looped] = Ok [default_edge; default_edge; looped]).
  { induction 1 as [|i is I _ IH]; [reflexivity|]. cbn [foldM]. destruct i as [|i]; [lia|]. unfold idx at 1. cbn [nth_error]. 
    change ([] :: repeat [] k) with (repeat (@nil edge_id) (S k)). rewrite nth_repeat by lia. cbn [bind]. unfold idx at 1. cbn [nth_error].
    destruct (Nat.eq_dec i k) as [->|NE].
    - rewrite nth_error_app2 by (rewrite repeat_length; lia). rewrite repeat_length, Nat.sub_diag. cbn [nth_error bind foldM].
      replace (path_cost_step32 (ConnMatrix (i16_bytes 3) 1) Normal [] [default_edge; default_edge; looped] 1) with (@Ok (list edge) [default_edge; default_edge; looped]) by (vm_compute; reflexivity).
      cbn [bind]. exact IH.
    - rewrite nth_error_app1 by (rewrite repeat_length; lia). rewrite nth_repeat by lia. cbn [bind foldM]. exact IH. }
  symmetry. apply G. apply Forall_forall. intros i I. apply in_seq in I. lia.
Qed.
Lemma lost_tokens : tokenize32 t (xs (S k)) = Some (Ok []).
Proof.
  unfold tokenize32. rewrite (sentences_unique _ _ (xs_sentence (S k) ltac:(lia))). cbn [tokenize_sentences32]. unfold tokenize_sentence32.
  match goal with |- context [set_text32 ?a ?b ?c ?e ?f ?g ?h] => change (set_text32 a b c e f g h) with (set_text32 default_lattice sample_dict (Some (u_dict sample_user)) sample_chars (d_unknown d) (xs (S k)) Normal) end.
  rewrite lost_text. match goal with |- context [calculate_path_costs32 ?a ?b ?c] => change (calculate_path_costs32 a b c) with (calculate_path_costs32 (ConnMatrix (i16_bytes 3) 1) Normal (around (S k) whole)) end.
  rewrite lost_costs. reflexivity.
Qed.
End Lost.

Definition four_gib : nat := N.to_nat 4294967296.
Lemma four_gib_zero : u32 four_gib = 0.
Proof. unfold u32, four_gib, wrap_u. rewrite N_nat_Z. reflexivity. Qed.
Theorem four_gib_lost : exists t A text, represents t A /\ valid_str text /\ covered A text /\ sentences text [text] /\ Z.of_nat (blen text) = 4294967296%Z /\
  (exists ts, tokenize t text = Some (Ok ts) /\ tiles text ts) /\ tokenize32 t text = Some (Ok []).
Proof.
  assert (P : 0 < four_gib) by (unfold four_gib; lia).
  exists (sample Normal [sample_unk]), (sample_meaning [sample_unk]), (xs four_gib).
  pose proof (sample_represents Normal _ sample_unk_ok) as R. assert (C : covered (sample_meaning [sample_unk]) (xs four_gib)) by (apply sample_covered; discriminate).
  split; [exact R|]. split; [apply xs_valid|]. split; [exact C|]. split; [apply xs_sentence, P|]. split; [rewrite xs_blen; unfold four_gib; rewrite N_nat_Z; reflexivity|].
  split; [apply (tokenize_tiles _ _ R); [apply xs_valid|exact C]|]. pose proof four_gib_zero as Z. destruct four_gib as [|k]; [lia|]. apply lost_tokens, Z.
Qed.

Lemma sample_size : dict_size (sample_meaning [sample_unk]) 2 2 1 1.
Proof.
  constructor; try (intros; cbn; lia).
  - intros k. cbn [sample_meaning a_sys sample_sys entries_of]. repeat match goal with |- context [str_eqb ?a k] => destruct (str_eqb a k) eqn:?; [apply str_eqb_spec in Heqb; subst k; cbn; split; [lia|intros _; lia]|clear Heqb] end. cbn. split; [lia|congruence].
  - intros k. cbn [sample_meaning a_usr sample_usr entries_of]. repeat match goal with |- context [str_eqb ?a k] => destruct (str_eqb a k) eqn:?; [apply str_eqb_spec in Heqb; subst k; cbn; split; [lia|intros _; lia]|clear Heqb] end. cbn. split; [lia|congruence].
Qed.
