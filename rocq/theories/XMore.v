(** A tokenizer with and without a user dictionary, for the examples in PMore.v. *)
From Coq Require Import List NArith ZArith Bool Lia ZifyBool ZifyNat ZifyN String.
From Verif Require Import MBase MUtf8 MText MCodec MDict MCharDef MUnk MLattice MTokenizer STok SMore LBase LUtf8 LDict LLong XSample.
Import ListNotations.
Local Open Scope string_scope.
Local Open Scope list_scope.

(* the system word abc, the user word ab, every character in one grouping category *)
Definition small_dict : prefix_dict := PrefixDict [(utf8 (lit "abc"), 1%N)] (we_serialize (sample_entry 0 true 1)) true.
Definition small_user : user_dictionary :=
  UserDictionary (PrefixDict [(utf8 (lit "ab"), 1%N)] (we_serialize (sample_entry 0 false 1000)) false) [] [].
Definition small (u : bool) (m : mode) : tokenizer :=
  Tokenizer (Dictionary small_dict (ConnMatrix (i16_bytes 3) 1) sample_chars (UnknownDictionary [[0%N]] [sample_unk]) [] [])
            (if u then Some small_user else None) m.
Definition small_usr (u : bool) : list (str * list word_entry) := if u then [(lit "ab", [sample_entry 0 false 1000])] else [].
Definition small_meaning (u : bool) : adict :=
  ADict [(lit "abc", [sample_entry 0 true 1])] (small_usr u) (fun _ => [0%nat]) (fun _ => false) (fun _ => true) (fun _ => [sample_unk]) (fun _ _ => 3%Z) 1 1.

Lemma small_represents u m : represents (small u m) (small_meaning u).
Proof.
  constructor.
  - apply dict_means_table. unfold da_of. repeat constructor; try (cbn; unfold valid_char; lia).
  - destruct u; [|reflexivity]. cbn [small t_user small_meaning a_usr small_usr]. apply dict_means_table. unfold da_of. repeat constructor; try (cbn; unfold valid_char; lia).
  - intros c V. unfold lookup_categories, lt_eval, lt_eval_with, binary_search.
    cbn [small t_dictionary d_chardef sample_chars cds_mapping lt_boundaries lt_values binary_search_from].
    destruct (0 =? c)%N; [reflexivity|]. destruct (c <? 0)%N eqn:E; [lia|]. reflexivity.
  - intros c k V [<-|[]]. exists 0%N. reflexivity.
  - intros c k V [<-|[]]. eexists. split; reflexivity.
  - intros f b F B. cbn [small_meaning a_fsize a_bsize] in *. assert (f = 0%N) by lia. assert (b = 0%N) by lia. subst.
    split; [reflexivity|]. cbn. unfold is_i16. lia.
  - cbn. lia.
  - intros k e I. cbn [small_meaning a_sys entries_of] in I. destruct (str_eqb _ k); [|destruct I]; destruct I as [<-|[]]; unfold entry_ok; cbn; unfold is_i16; lia.
  - intros k e I. destruct u; cbn [small_meaning a_usr small_usr entries_of] in I; [|destruct I].
    destruct (str_eqb _ k); [|destruct I]; destruct I as [<-|[]]; unfold entry_ok; cbn; unfold is_i16; lia.
  - intros c k e V [<-|[]] [<-|[]]. unfold entry_ok. cbn. unfold is_i16. lia.
Qed.

Lemma small_more : more_words (small_meaning false) (small_meaning true).
Proof. split; try reflexivity. intros k e [[]|H]. right. exact H. Qed.

Lemma small_covered u text : covered (small_meaning u) text.
Proof. intros c _. split; [discriminate|]. intros k _. discriminate. Qed.

(* a text that has no user word where it has no system word *)
Lemma small_starts : no_new_starts (small_meaning false) (small_meaning true) (lit "abcd").
Proof.
  intros pre c r E N. left. intros k e (K & (rest & D) & H).
  destruct H as [H|H]; cbn [small_meaning a_usr a_sys small_usr entries_of] in H; [destruct (str_eqb (lit "ab") k) eqn:Q|destruct (str_eqb (lit "abc") k) eqn:Q]; try (destruct H; fail);
    apply str_eqb_spec in Q; subst k; destruct H as [<-|[]].
  - change (c :: r = 97%N :: 98%N :: rest) in D. injection D as -> ->. change (97%N :: 98%N :: 99%N :: 100%N :: [] = pre ++ 97%N :: 98%N :: rest) in E.
    destruct pre as [|x0 [|x1 [|x2 [|x3 pre]]]]; cbn [app] in E; try discriminate E; [|destruct pre; discriminate E].
    injection E as <-. apply (N (lit "abc") (sample_entry 0 true 1)). split; [discriminate|]. split; [exists (lit "d"); reflexivity|]. right. left. reflexivity.
  - apply (N (lit "abc") (sample_entry 0 true 1)). split; [discriminate|]. split; [exists rest; exact D|]. right. left. reflexivity.
Qed.

Lemma small_no u s : (forall r, s <> lit "ab" ++ r) -> no_dict_word (small_meaning u) s.
Proof.
  intros N k e (K & (rest & D) & H).
  destruct H as [H|H]; [destruct u|]; cbn [small_meaning a_usr a_sys small_usr entries_of] in H;
    [destruct (str_eqb (lit "ab") k) eqn:Q| |destruct (str_eqb (lit "abc") k) eqn:Q]; try (destruct H; fail);
    apply str_eqb_spec in Q; subst k.
  - exact (N rest D).
  - exact (N (99%N :: rest) D).
Qed.
Lemma small_no_abd : no_dict_word (small_meaning false) (lit "abd").
Proof.
  intros k e (K & (rest & D) & H). destruct H as [[]|H]. cbn [small_meaning a_sys entries_of] in H. destruct (str_eqb (lit "abc") k) eqn:Q; [|destruct H].
  apply str_eqb_spec in Q. subst k. discriminate D.
Qed.
Lemma small_unknown u s : s <> [] -> no_dict_word (small_meaning u) s -> unknown_word (small_meaning u) s s sample_unk.
Proof.
  intros N D. destruct s as [|c r]; [congruence|]. exists c, r, 0%nat, 0%nat. split; [reflexivity|]. split; [reflexivity|]. split; [right; exact D|].
  split; [|left; reflexivity]. exists c, r, []. rewrite app_nil_r. split; [reflexivity|]. split; [reflexivity|]. cbn [small_meaning a_group].
  split; [apply Forall_forall; reflexivity|]. discriminate.
Qed.
Lemma small_sys u r : dict_word (small_meaning u) (lit "abc" ++ r) (lit "abc") (sample_entry 0 true 1).
Proof. split; [discriminate|]. split; [exists r; reflexivity|]. right. left. reflexivity. Qed.
Lemma small_usr_word r : dict_word (small_meaning true) (lit "ab" ++ r) (lit "ab") (sample_entry 0 false 1000).
Proof. split; [discriminate|]. split; [exists r; reflexivity|]. left. left. reflexivity. Qed.

Lemma small_open : sentences (lit "abd") [lit "abd"] /\ sentences (lit "abcd") [lit "abcd"].
Proof. split; constructor; (split; [discriminate|]); repeat constructor; cbn; intros H; repeat (destruct H as [H|H]; [discriminate|]); destruct H. Qed.

Definition abd_with : list word := [(lit "ab", sample_entry 0 false 1000); (lit "d", sample_unk)].
Definition abcd_with : list word := [(lit "ab", sample_entry 0 false 1000); (lit "cd", sample_unk)].
Definition abcd_without : list word := [(lit "abc", sample_entry 0 true 1); (lit "d", sample_unk)].

Lemma abd_with_seg : segmentation (small_meaning true) (lit "abd") abd_with.
Proof.
  change (lit "abd") with (lit "ab" ++ lit "d" ++ []). constructor; [discriminate|left; apply small_usr_word|].
  constructor; [discriminate| |constructor]. right. apply small_unknown; [discriminate|]. apply small_no. discriminate.
Qed.
Lemma abd_without_seg : segmentation (small_meaning false) (lit "abd") [(lit "abd", sample_unk)].
Proof.
  change (lit "abd") with (lit "abd" ++ []) at 1. constructor; [discriminate| |constructor]. right. apply small_unknown; [discriminate|]. exact small_no_abd.
Qed.
Lemma abcd_with_seg : segmentation (small_meaning true) (lit "abcd") abcd_with.
Proof.
  change (lit "abcd") with (lit "ab" ++ lit "cd" ++ []). constructor; [discriminate|left; apply small_usr_word|].
  constructor; [discriminate| |constructor]. right. apply small_unknown; [discriminate|]. apply small_no. discriminate.
Qed.
Lemma abcd_without_seg u : segmentation (small_meaning u) (lit "abcd") abcd_without.
Proof.
  change (lit "abcd") with (lit "abc" ++ lit "d" ++ []). constructor; [discriminate|left; apply small_sys|].
  constructor; [discriminate| |constructor]. right. apply small_unknown; [discriminate|]. apply small_no. discriminate.
Qed.

(* in either mode: a user word where unknown words were found before *)
Lemma abd_dearer : forall m, m = Normal \/ m = Decompose default_penalty -> exists d u A A' text ts ts' ws ws',
  represents (Tokenizer d None m) A /\ represents (Tokenizer d (Some u) m) A' /\ more_words A A' /\ valid_str text /\ covered A text /\ covered A' text /\
  sentences text [text] /\ fits_i32 m text /\
  tokenize (Tokenizer d None m) text = Some (Ok ts) /\ tokens_of_words ts ws /\ segmentation A text ws /\
  tokenize (Tokenizer d (Some u) m) text = Some (Ok ts') /\ tokens_of_words ts' ws' /\ segmentation A' text ws' /\
  (seg_cost A m ws < seg_cost A' m ws')%Z.
Proof.
  intros m H.
  exists (t_dictionary (small false m)), small_user, (small_meaning false), (small_meaning true), (lit "abd"), [Token (lit "abd") 0 3 0 1 (WordId u32_max true)],
    [Token (lit "ab") 0 2 0 1 (WordId 0 false); Token (lit "d") 2 3 1 1 (WordId u32_max true)], [(lit "abd", sample_unk)], abd_with.
  split; [exact (small_represents false m)|]. split; [exact (small_represents true m)|]. split; [exact small_more|]. split; [apply ascii_valid|].
  do 2 (split; [apply small_covered|]). split; [apply small_open|]. split; [destruct H as [-> | ->]; [apply fits_normal|apply fits_default]; vm_compute; discriminate|].
  split; [destruct H as [-> | ->]; vm_compute; reflexivity|]. split; [reflexivity|]. split; [exact abd_without_seg|].
  split; [destruct H as [-> | ->]; vm_compute; reflexivity|]. split; [reflexivity|]. split; [exact abd_with_seg|]. destruct H as [-> | ->]; vm_compute; reflexivity.
Qed.

(* in normal mode: the user word leads the search to a position whose unknown words switch off the rest of the text *)
Lemma abcd_dearer : exists d u A A' text ts ts' ws ws',
  represents (Tokenizer d None Normal) A /\ represents (Tokenizer d (Some u) Normal) A' /\ more_words A A' /\ valid_str text /\ covered A text /\ covered A' text /\
  sentences text [text] /\ fits_i32 Normal text /\ no_new_starts A A' text /\
  tokenize (Tokenizer d None Normal) text = Some (Ok ts) /\ tokens_of_words ts ws /\ segmentation A text ws /\
  tokenize (Tokenizer d (Some u) Normal) text = Some (Ok ts') /\ tokens_of_words ts' ws' /\ segmentation A' text ws' /\
  segmentation A' text ws /\ (seg_cost A Normal ws < seg_cost A' Normal ws')%Z.
Proof.
  exists (t_dictionary (small false Normal)), small_user, (small_meaning false), (small_meaning true), (lit "abcd"),
    [Token (lit "abc") 0 3 0 1 (WordId 0 true); Token (lit "d") 3 4 1 1 (WordId u32_max true)],
    [Token (lit "ab") 0 2 0 1 (WordId 0 false); Token (lit "cd") 2 4 1 1 (WordId u32_max true)], abcd_without, abcd_with.
  split; [exact (small_represents false Normal)|]. split; [exact (small_represents true Normal)|]. split; [exact small_more|]. split; [apply ascii_valid|].
  do 2 (split; [apply small_covered|]). split; [apply small_open|]. split; [apply fits_normal; vm_compute; discriminate|].
  split; [exact small_starts|]. split; [vm_compute; reflexivity|]. split; [reflexivity|]. split; [apply abcd_without_seg|].
  split; [vm_compute; reflexivity|]. split; [reflexivity|]. split; [exact abcd_with_seg|]. split; [apply abcd_without_seg|]. vm_compute. reflexivity.
Qed.
