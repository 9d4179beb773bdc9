(** A small concrete tokenizer, used in the examples. *)
From Coq Require Import List NArith ZArith Bool Lia ZifyBool ZifyNat ZifyN String.
From Verif Require Import MBase MUtf8 MText MCodec MDict MCharDef MUnk MLattice MTokenizer STok LBase LUtf8 LDict.
Import ListNotations.
Local Open Scope string_scope.
Local Open Scope list_scope.

Definition sample_entry (id : N) (sys : bool) (cost : Z) : word_entry := WordEntry (WordId id sys) cost 0 0.

(* system words a, ab; user word bc; every character is in one grouping category with one unknown entry *)
Definition sample_sys : list (str * list word_entry) :=
  [(lit "a", [sample_entry 0 true 10]); (lit "ab", [sample_entry 1 true 5; sample_entry 2 true 7])].
Definition sample_usr : list (str * list word_entry) := [(lit "bc", [sample_entry 0 false (-10)])].
Definition sample_unk : word_entry := WordEntry (WordId u32_max true) 100 0 0.

Definition sample_dict : prefix_dict :=
  PrefixDict [(utf8 (lit "a"), 1%N); (utf8 (lit "ab"), 34%N)]
    (flat_map we_serialize [sample_entry 0 true 10; sample_entry 1 true 5; sample_entry 2 true 7]) true.
Definition sample_user : user_dictionary :=
  UserDictionary (PrefixDict [(utf8 (lit "bc"), 1%N)] (we_serialize (sample_entry 0 false (-10))) false) [] [].

Definition sample_chars : char_definitions :=
  CharDefinitions [CategoryData false true 0] [lit "DEFAULT"] (LookupTable [0%N] [[0%nat]]).

Definition sample (m : mode) (unk : list word_entry) : tokenizer :=
  Tokenizer (Dictionary sample_dict (ConnMatrix (i16_bytes 3) 1) sample_chars
               (UnknownDictionary [map N.of_nat (seq 0 (List.length unk))] unk) [] [])
            (Some sample_user) m.

Definition sample_meaning (unk : list word_entry) : adict :=
  ADict sample_sys sample_usr (fun _ => [0%nat]) (fun _ => false) (fun _ => true) (fun _ => unk) (fun _ _ => 3%Z) 1 1.

Lemma sample_entries_ok tbl unk : (tbl = sample_sys \/ tbl = sample_usr) -> table_ok (sample_meaning unk) tbl.
Proof.
  intros H k e I. assert (X : we_left e = 0%N /\ we_right e = 0%N /\ is_i16 (we_cost e)).
  { destruct H as [-> | ->]; unfold sample_sys, sample_usr in I; cbn [entries_of] in I;
      repeat (destruct (str_eqb _ k); [cbn [In] in I; repeat (destruct I as [<-|I]; [cbn; unfold is_i16; lia|]); destruct I|]); destruct I. }
  destruct X as (X1 & X2 & X3). unfold entry_ok. cbn. rewrite X1, X2. repeat split; try lia; apply X3.
Qed.

Lemma sample_represents m unk :
  Forall (fun e => we_left e = 0%N /\ we_right e = 0%N /\ is_i16 (we_cost e)) unk ->
  represents (sample m unk) (sample_meaning unk).
Proof.
  intros U. constructor.
  - apply dict_means_table. unfold da_of. cbn [sample t_dictionary d_dict sample_dict pd_da sample_meaning a_sys sample_sys].
    repeat constructor; try (cbn; unfold valid_char; lia).
  - cbn [sample t_user]. apply dict_means_table. unfold da_of.
    repeat constructor; try (cbn; unfold valid_char; lia).
  - intros c V. unfold lookup_categories, lt_eval, lt_eval_with, binary_search. cbn [sample t_dictionary d_chardef sample_chars cds_mapping lt_boundaries lt_values binary_search_from].
    destruct (0 =? c)%N; [reflexivity|]. destruct (c <? 0)%N eqn:E; [lia|]. reflexivity.
  - intros c k V [<-|[]]. exists 0%N. reflexivity.
  - intros c k V [<-|[]]. eexists. split; [reflexivity|].
    cbn [sample t_dictionary d_unknown sample_meaning a_unk]. rewrite mapM_map.
    clear U. induction unk as [|e unk IH] using rev_ind; [reflexivity|].
    rewrite app_length. cbn [List.length]. rewrite seq_app, mapM_app. cbn [Nat.add].
    assert (E1 : mapM (fun x => ud_word_entry (UnknownDictionary [map N.of_nat (seq 0 (List.length unk + 1))] (unk ++ [e])) (N.of_nat x)) (seq 0 (List.length unk))
               = mapM (fun x => ud_word_entry (UnknownDictionary [map N.of_nat (seq 0 (List.length unk))] unk) (N.of_nat x)) (seq 0 (List.length unk))).
    { apply mapM_ext_in. intros x I. apply in_seq in I. unfold ud_word_entry, idx. cbn [ud_costs].
      rewrite nth_error_app1 by lia. reflexivity. }
    rewrite <- seq_app. rewrite E1, IH. cbn [bind seq mapM]. unfold ud_word_entry, idx. cbn [ud_costs].
    rewrite nth_error_app2 by lia. replace (N.to_nat (N.of_nat (List.length unk)) - List.length unk)%nat with 0%nat by lia. reflexivity.
  - intros f b F B. cbn [sample_meaning a_fsize a_bsize] in *. assert (f = 0%N) by lia. assert (b = 0%N) by lia. subst.
    split; [reflexivity|]. cbn. unfold is_i16. lia.
  - cbn. lia.
  - apply sample_entries_ok. auto.
  - apply sample_entries_ok. auto.
  - intros c k e V [<-|[]] I. cbn in I. rewrite Forall_forall in U. apply U in I. destruct I as (X1 & X2 & X3). unfold entry_ok. cbn. rewrite X1, X2. repeat split; try lia; apply X3.
Qed.

Lemma sample_covered unk text : unk <> [] -> covered (sample_meaning unk) text.
Proof. intros N c I. cbn. split; [discriminate|]. intros k _. exact N. Qed.

Lemma sample_distinct e : wid (we_id e) = u32_max -> distinct_entries (sample_meaning [e]).
Proof.
  intros U. constructor.
  - intros k. cbn [sample_meaning a_usr a_sys sample_usr sample_sys entries_of].
    destruct (str_eqb (lit "bc") k) eqn:E1, (str_eqb (lit "a") k) eqn:E2, (str_eqb (lit "ab") k) eqn:E3; cbn [app];
      repeat constructor; cbn; intuition discriminate.
  - intros k. repeat constructor. intros [].
  - intros c k k' e' [<-|[]] [<-|[]] _ _. reflexivity.
  - intros k cat e' I [<-|[]]. apply in_app_iff in I as [I|I]; cbn [sample_meaning a_usr a_sys sample_usr sample_sys entries_of] in I;
      repeat (destruct (str_eqb _ k); [cbn [In] in I; repeat (destruct I as [<-|I]; [discriminate U|]); destruct I|]); destruct I.
  - intros c. repeat constructor. intros [].
Qed.

Lemma ascii_valid (s : string) : valid_str (lit s).
Proof.
  induction s as [|a s IH]; constructor; [|exact IH]. unfold valid_char.
  pose proof (Ascii.N_ascii_bounded a). lia.
Qed.

(** A tokenizer in decompose mode with a very large configured penalty (still an i32). *)
Definition huge : penalty := Penalty 1 1073741824 1 1073741824.
Definition huge_short : str := [0x3042]%N.
Definition huge_long : str := [0x3042; 0x3042; 0x3042]%N.
Definition huge_tok : tokenizer :=
  Tokenizer (Dictionary
     (PrefixDict [(utf8 huge_short, 1%N); (utf8 huge_long, 33%N)]
        (we_serialize (sample_entry 0 true 0) ++ we_serialize (sample_entry 1 true 0)) true)
     (ConnMatrix (i16_bytes 0) 1) sample_chars (UnknownDictionary [[0%N]] [sample_unk]) [] []) None (Decompose huge).
Definition huge_meaning : adict :=
  ADict [(huge_short, [sample_entry 0 true 0]); (huge_long, [sample_entry 1 true 0])] []
    (fun _ => [0%nat]) (fun _ => false) (fun _ => true) (fun _ => [sample_unk]) (fun _ _ => 0%Z) 1 1.

Lemma huge_represents : represents huge_tok huge_meaning.
Proof.
  constructor.
  - apply dict_means_table. unfold da_of. repeat constructor; try (cbn; unfold valid_char; lia).
  - reflexivity.
  - intros c V. unfold lookup_categories, lt_eval, lt_eval_with, binary_search.
    cbn [huge_tok t_dictionary d_chardef sample_chars cds_mapping lt_boundaries lt_values binary_search_from].
    destruct (0 =? c)%N; [reflexivity|]. destruct (c <? 0)%N eqn:E; [lia|]. reflexivity.
  - intros c k V [<-|[]]. exists 0%N. reflexivity.
  - intros c k V [<-|[]]. eexists. split; reflexivity.
  - intros f b F B. cbn [huge_meaning a_fsize a_bsize] in *. assert (f = 0%N) by lia. assert (b = 0%N) by lia. subst.
    split; [reflexivity|]. cbn. unfold is_i16. lia.
  - cbn. lia.
  - intros k e I. cbn [huge_meaning a_sys entries_of] in I.
    destruct (str_eqb _ k); [|destruct (str_eqb _ k); [|destruct I]]; destruct I as [<-|[]]; unfold entry_ok; cbn; unfold is_i16; lia.
  - intros k e [].
  - intros c k e V [<-|[]] [<-|[]]. unfold entry_ok. cbn. unfold is_i16. lia.
Qed.

Lemma huge_covered text : covered huge_meaning text.
Proof. intros c I. cbn. split; discriminate. Qed.

(* the answer is the one long word although three short words cost less *)
Lemma huge_not_best : exists t A text ts ws ws',
  represents t A /\ valid_str text /\ covered A text /\ sentences text [text] /\
  tokenize t text = Some (Ok ts) /\ tokens_of_words ts ws /\ segmentation A text ws /\
  dict_segmentation A text ws' /\ (seg_cost A (t_mode t) ws' < seg_cost A (t_mode t) ws)%Z.
Proof.
  exists huge_tok, huge_meaning, huge_long, [Token huge_long 0 9 0 1 (WordId 1 true)],
    [(huge_long, sample_entry 1 true 0)],
    [(huge_short, sample_entry 0 true 0); (huge_short, sample_entry 0 true 0); (huge_short, sample_entry 0 true 0)].
  split; [apply huge_represents|]. split; [repeat constructor; lia|]. split; [apply huge_covered|].
  split. { constructor. split; [discriminate|]. repeat constructor; cbn; intros H; repeat (destruct H as [H|H]; [discriminate|]); destruct H. }
  split; [vm_compute; reflexivity|]. split; [reflexivity|].
  assert (D : forall k r e, In (k, [e]) (a_sys huge_meaning) -> dict_word huge_meaning (k ++ r) k e).
  { intros k r e I. destruct I as [I|[I|[]]]; injection I as <- <-; (split; [discriminate|]); (split; [eexists; reflexivity|]);
      right; left; reflexivity. }
  split. { change huge_long with (huge_long ++ []). constructor; [discriminate|left; apply D; right; left; reflexivity|constructor]. }
  split. { change huge_long with (huge_short ++ huge_short ++ huge_short ++ []).
    repeat (constructor; [discriminate|apply D; left; reflexivity|]). constructor. }
  vm_compute. reflexivity.
Qed.

Lemma sample_marked : marked (sample_meaning [sample_unk]).
Proof.
  constructor.
  - intros k e I. cbn [sample_meaning a_sys sample_sys entries_of] in I.
    destruct (str_eqb _ k); [|destruct (str_eqb _ k); [|destruct I]]; cbn [In] in I;
      repeat (destruct I as [<-|I]; [cbn; split; [reflexivity|discriminate]|]); destruct I.
  - intros k e I. cbn [sample_meaning a_usr sample_usr entries_of] in I.
    destruct (str_eqb _ k); [|destruct I]; cbn [In] in I;
      repeat (destruct I as [<-|I]; [cbn; split; [reflexivity|discriminate]|]); destruct I.
  - intros k e [<-|[]]. reflexivity.
Qed.

Lemma sample_unk_ok : Forall (fun e => we_left e = 0%N /\ we_right e = 0%N /\ is_i16 (we_cost e)) [sample_unk].
Proof. repeat constructor; cbn; unfold is_i16; lia. Qed.
