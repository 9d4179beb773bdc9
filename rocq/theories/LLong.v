(** Costs of long sentences: a family of dictionaries whose exact costs leave the range of i32. *)
From Coq Require Import List NArith ZArith Bool Lia ZifyBool ZifyNat ZifyN String.
From Verif Require Import MBase MUtf8 MText MCodec MDict MCharDef MUnk MLattice MTokenizer STok LBase LUtf8 LDict LSeg LTok.
Import ListNotations.
Local Open Scope string_scope.
Local Open Scope list_scope.

(* no dictionary words, one category that neither invokes nor groups, one unknown entry, a one-by-one matrix *)
Definition dear_unk : word_entry := WordEntry (WordId u32_max true) 32767 0 0.
Definition dear : tokenizer :=
  Tokenizer (Dictionary (PrefixDict [] [] true) (ConnMatrix (i16_bytes 32767) 1)
               (CharDefinitions [CategoryData false false 0] [lit "DEFAULT"] (LookupTable [0%N] [[0%nat]]))
               (UnknownDictionary [[0%N]] [dear_unk]) [] []) None Normal.
Definition dear_meaning : adict :=
  ADict [] [] (fun _ => [0%nat]) (fun _ => false) (fun _ => false) (fun _ => [dear_unk]) (fun _ _ => 32767%Z) 1 1.

Lemma dear_represents : represents dear dear_meaning.
Proof.
  constructor.
  - apply dict_means_table. constructor.
  - reflexivity.
  - intros c V. unfold lookup_categories, lt_eval, lt_eval_with, binary_search.
    cbn [dear t_dictionary d_chardef cds_mapping lt_boundaries lt_values binary_search_from].
    destruct (0 =? c)%N; [reflexivity|]. destruct (c <? 0)%N eqn:E; [lia|]. reflexivity.
  - intros c k V [<-|[]]. exists 0%N. reflexivity.
  - intros c k V [<-|[]]. eexists. split; reflexivity.
  - intros f b F B. cbn [dear_meaning a_fsize a_bsize] in *. assert (f = 0%N) by lia. assert (b = 0%N) by lia. subst.
    split; [reflexivity|]. cbn. unfold is_i16. lia.
  - cbn. lia.
  - intros k e [].
  - intros k e [].
  - intros c k e V [<-|[]] [<-|[]]. unfold entry_ok. cbn. unfold is_i16. lia.
Qed.

Lemma dear_covered s : covered dear_meaning s.
Proof. intros c I. cbn. split; discriminate. Qed.

Lemma dear_cost pre s ws f : seg (fun _ => candidate dear_meaning) pre s ws ->
  cost_from dear_meaning Normal f ws = (65534 * Z.of_nat (List.length s) + 32767)%Z.
Proof.
  intros H. revert f. induction H as [pre|pre k e rest ws KN C H IH]; intros f; [reflexivity|].
  destruct C as [(_ & _ & [[]|[]])|(c & r & ord & cat & E & HC & _ & (c' & run & rest' & E1 & E2 & RN) & I)].
  cbn [dear_meaning a_group] in RN. subst run. cbn [app] in *. subst k.
  assert (X : e = dear_unk).
  { cbn in I. destruct I as [<-|[]]; reflexivity. }
  subst e. cbn [cost_from]. rewrite IH. rewrite app_length. cbn [List.length dear_meaning a_conn dear_unk we_cost surface_penalty].
  lia.
Qed.

Lemma repeat_valid n : valid_str (repeat 97%N n).
Proof. apply Forall_forall. intros c I. apply repeat_spec in I. subst. left. lia. Qed.

(* the exact cost of every segmentation is out of the range of i32, the computed cost is in it *)
Lemma long_sentence_wraps : exists t A s l1 l2 eos,
  represents t A /\ valid_str s /\ covered A s /\ s <> [] /\
  sentence_lattice t (t_mode t) s = Ok l1 /\
  calculate_path_costs (d_matrix (t_dictionary t)) (t_mode t) l1 = Ok l2 /\
  nth_error (edges l2) 1 = Some eos /\ is_i32 (e_path_cost eos) /\
  forall ws, segmentation A s ws -> ~ is_i32 (seg_cost A (t_mode t) ws) /\ seg_cost A (t_mode t) ws <> e_path_cost eos.
Proof.
  set (n := Z.to_nat 40000). assert (HN : Z.of_nat n = 40000%Z) by (unfold n; apply Z2Nat.id; lia). clearbody n.
  set (s := repeat 97%N n).
  assert (NE : s <> []). { intros E. apply (f_equal (@List.length _)) in E. unfold s in E. rewrite repeat_length in E. cbn in E. lia. }
  destruct (sentence_costs dear dear_meaning dear_represents s (repeat_valid n) NE (dear_covered s))
    as (l1 & l2 & eos & wl & E1 & E2 & E3 & E4 & _).
  exists dear, dear_meaning, s, l1, l2, eos. split; [exact dear_represents|]. split; [apply repeat_valid|].
  split; [apply dear_covered|]. split; [exact NE|]. split; [exact E1|]. split; [exact E2|]. split; [exact E3|]. split; [exact E4|].
  intros ws H. assert (C : seg_cost dear_meaning (t_mode dear) ws = (65534 * Z.of_nat (List.length s) + 32767)%Z)
    by (unfold seg_cost; eapply dear_cost; exact H).
  unfold s in C. rewrite repeat_length, HN in C.
  assert (B : ~ is_i32 (seg_cost dear_meaning (t_mode dear) ws)) by (rewrite C; unfold is_i32; lia).
  split; [exact B|]. intros X. apply B. rewrite X. exact E4.
Qed.

Lemma fits_normal s : (Z.of_nat (List.length s) <= 32000)%Z -> fits_i32 Normal s.
Proof. unfold fits_i32. cbn [penalty_max kanji_penalty other_penalty default_penalty]. lia. Qed.
Lemma fits_default s : (Z.of_nat (List.length s) <= 30000)%Z -> fits_i32 (Decompose default_penalty) s.
Proof. unfold fits_i32. pose proof (blen_chars s). change (penalty_max (Decompose default_penalty)) with 3000%Z. lia. Qed.
Lemma blen_repeat c n : blen (repeat c n) = width c * n.
Proof. induction n as [|n IH]; cbn [repeat blen]; [lia|]. rewrite IH. lia. Qed.
