(** C95: where a sentence falls apart, the tokens of its parts do not depend on each other. *)
From Coq Require Import String.
From Coq Require Import List NArith ZArith Bool Lia.
From Verif Require Import MBase MUtf8 MText MCodec MDict MCharDef MUnk MLattice MTokenizer STok SLocal LBase LUtf8 LTok LLocal XSample.
Import ListNotations.
Local Open Scope string_scope.
Local Open Scope list_scope.

(* the tokens before the place are those of the text before it, whatever follows *)
Theorem C95_before : forall t A u v f ts tu, represents t A -> distinct_entries A -> divides A u v -> leaves A u v f ->
  valid_str (u ++ v) -> sentence (u ++ v) -> sentence u -> fits_i32 (t_mode t) (u ++ v) ->
  tokenize t (u ++ v) = Some (Ok ts) -> ts <> [] -> tokenize t u = Some (Ok tu) ->
  end_of tu = blen u /\ exists tv, ts = tu ++ tv.
Proof. intros t A u v f ts tu R D. exact (tokens_before t A R D u v f ts tu). Qed.
Print Assumptions C95_before.

(* the tokens after the place depend on the text before it through the right id only *)
Theorem C95_after : forall t A u u' v f ts ts', represents t A -> distinct_entries A -> divides A u v -> divides A u' v -> leaves A u v f -> leaves A u' v f ->
  valid_str (u ++ v) -> valid_str (u' ++ v) -> sentence (u ++ v) -> sentence (u' ++ v) ->
  fits_i32 (t_mode t) (u ++ v) -> fits_i32 (t_mode t) (u' ++ v) ->
  tokenize t (u ++ v) = Some (Ok ts) -> ts <> [] -> tokenize t (u' ++ v) = Some (Ok ts') -> ts' <> [] ->
  exists a a' b, ts = a ++ map (shift_token (blen u) (length a)) b /\ ts' = a' ++ map (shift_token (blen u') (length a')) b /\
    tiles u a /\ tiles u' a' /\ tiles v b.
Proof. intros t A u u' v f ts ts' R D. exact (tokens_after t A R D u u' v f ts ts'). Qed.
Print Assumptions C95_after.

(* with right id 0 the tokens are those of the two parts *)
Theorem C95_apart : forall t A u v ts tu tv, represents t A -> distinct_entries A -> divides A u v -> leaves A u v 0 ->
  valid_str (u ++ v) -> sentence (u ++ v) -> u <> [] -> v <> [] -> fits_i32 (t_mode t) (u ++ v) ->
  tokenize t (u ++ v) = Some (Ok ts) -> tokenize t u = Some (Ok tu) -> tokenize t v = Some (Ok tv) ->
  (tu = [] \/ tv = [] -> ts = []) /\ (tu <> [] -> tv <> [] -> ts = tu ++ map (shift_token (blen u) (length tu)) tv).
Proof. intros t A u v ts tu tv R D. exact (tokens_apart t A R D u v ts tu tv). Qed.
Print Assumptions C95_apart.

(* the words of the example *)
Lemma ex_starts r w e : dict_word (sample_meaning [sample_unk]) r w e -> w = lit "a" \/ w = lit "ab" \/ w = lit "bc".
Proof.
  intros (_ & _ & I). cbn [sample_meaning a_usr a_sys sample_usr sample_sys entries_of] in I.
  destruct (str_eqb (lit "bc") w) eqn:E1; [apply str_eqb_spec in E1; auto|]. destruct (str_eqb (lit "a") w) eqn:E2; [apply str_eqb_spec in E2; auto|].
  destruct (str_eqb (lit "ab") w) eqn:E3; [apply str_eqb_spec in E3; auto|]. destruct I as [[]|[]].
Qed.
Lemma ex_divides n v : (forall r, v <> lit "b" ++ r) -> divides (sample_meaning [sample_unk]) (repeat 97%N n) v.
Proof.
  intros NV pre r w E N [(e & H)|(ord & H)].
  - assert (R : r = repeat 97%N (List.length r)) by (pose proof (f_equal (skipn (List.length pre)) E) as S; rewrite skipn_app, skipn_all, Nat.sub_diag in S; cbn [skipn app] in S;
      rewrite <- S; clear; generalize (List.length pre); induction n as [|n IH]; intros [|i]; cbn [repeat skipn List.length]; try reflexivity; [rewrite repeat_length; reflexivity|apply IH]).
    remember (List.length r) as i eqn:X. clear X. destruct i as [|i]; [cbn [repeat] in R; contradiction (N R)|]. pose proof H as (_ & (rest & P) & _). apply ex_starts in H. subst r. cbn [repeat app] in P. destruct H as [->|[->| ->]].
    + exists (repeat 97%N i). reflexivity.
    + exfalso. destruct i as [|i]; cbn [repeat app] in P; [|discriminate P]. apply (NV rest). injection P as P. exact P.
    + discriminate P.
  - exfalso. destruct H as (c & r0 & cat & _ & _ & [H|H] & _); [discriminate H|].
    assert (I : In 97%N r \/ r = []) by (destruct r as [|d r]; [auto|left]; assert (J : In d (repeat 97%N n)) by (rewrite E; apply in_app_iff; right; left; reflexivity); apply repeat_spec in J; subst d; left; reflexivity).
    destruct r as [|d r]; [congruence|]. assert (J : In d (repeat 97%N n)) by (rewrite E; apply in_app_iff; right; left; reflexivity). apply repeat_spec in J. subst d.
    apply (H (lit "a") (sample_entry 0 true 10)). split; [discriminate|]. split; [exists (r ++ v); reflexivity|right; left; reflexivity].
Qed.
Lemma ex_leaves u v : leaves (sample_meaning [sample_unk]) u v 0.
Proof.
  split; [reflexivity|]. intros pre w e _ [(_ & _ & I)|(c & r & ord & k & _ & _ & _ & _ & [<-|[]])]; [|reflexivity].
  cbn [sample_meaning a_usr a_sys sample_usr sample_sys entries_of] in I.
  destruct I as [I|I]; repeat (destruct (str_eqb _ w); [cbn [In] in I; repeat (destruct I as [<-|I]; [reflexivity|]); destruct I|]); destruct I.
Qed.
Definition ex_t : tokenizer := sample Normal [sample_unk].
Definition ex_v : list token := [Token (lit "a") 0 1 0 1 (WordId 0 true); Token (lit "bc") 1 3 1 1 (WordId 0 false)].
Example C95_ex : represents ex_t (sample_meaning [sample_unk]) /\ distinct_entries (sample_meaning [sample_unk]) /\
  divides (sample_meaning [sample_unk]) (lit "a") (lit "abc") /\ divides (sample_meaning [sample_unk]) (lit "aa") (lit "abc") /\
  leaves (sample_meaning [sample_unk]) (lit "a") (lit "abc") 0 /\ leaves (sample_meaning [sample_unk]) (lit "aa") (lit "abc") 0 /\
  sentence (lit "aabc") /\ sentence (lit "aaabc") /\ sentence (lit "a") /\ fits_i32 (t_mode ex_t) (lit "aaabc") /\
  tokenize ex_t (lit "abc") = Some (Ok ex_v) /\
  tokenize ex_t (lit "a") = Some (Ok [Token (lit "a") 0 1 0 1 (WordId 0 true)]) /\
  tokenize ex_t (lit "aabc") = Some (Ok (Token (lit "a") 0 1 0 1 (WordId 0 true) :: map (shift_token 1 1) ex_v)) /\
  ~ divides (sample_meaning [sample_unk]) (lit "a") (lit "bc").
Proof.
  assert (O : forall s, s <> [] -> forallb (fun c => negb (existsb (N.eqb c) [0x3002; 0x3001; 10; 9]%N)) s = true -> sentence s).
  { intros s NS H. right. split; [exact NS|]. rewrite forallb_forall in H. apply Forall_forall. intros c I D. specialize (H c I). apply negb_true_iff in H.
    assert (X : existsb (N.eqb c) [0x3002; 0x3001; 10; 9]%N = true) by (apply existsb_exists; exists c; split; [exact D|apply N.eqb_refl]). congruence. }
  split; [apply sample_represents, sample_unk_ok|]. split; [apply sample_distinct; reflexivity|].
  split; [apply (ex_divides 1); discriminate|]. split; [apply (ex_divides 2); discriminate|]. do 2 (split; [apply ex_leaves|]).
  do 3 (split; [apply O; [discriminate|vm_compute; reflexivity]|]). split; [unfold fits_i32; vm_compute; reflexivity|].
  do 3 (split; [vm_compute; reflexivity|]). intros D. destruct (D [] (lit "a") (lit "ab") eq_refl ltac:(discriminate)) as (rest & E); [|discriminate E].
  left. exists (sample_entry 1 true 5). split; [discriminate|]. split; [exists (lit "c"); reflexivity|right; left; reflexivity].
Qed.
