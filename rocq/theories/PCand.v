(** Property theorems that complete C06, C08, C09, C39 and C42. *)
From Coq Require Import String.
From Coq Require Import List NArith ZArith Bool.
From Verif Require Import MBase MUtf8 MText MCodec MDict MCharDef MUnk MLattice MTokenizer MConfig MDetails STok SCand SConfig
  LUtf8 LScan LCodec LTok LCand LConfig LCli LData XSample XConfig.
Import ListNotations.
Local Open Scope string_scope.
Local Open Scope list_scope.

(** C06: a text is tokenized sentence by sentence *)
Theorem C06_sentences : forall t A, represents t A -> forall text ss, valid_str text -> sentences text ss ->
  exists tss, Forall2 (fun s ts => tokenize t s = Some (Ok ts)) ss tss /\ tokenize t text = Some (Ok (placed tss)).
Proof. exact by_sentence. Qed.
Print Assumptions C06_sentences.
Example C06_sentences_ex : sentences (lit "ab" ++ [10%N] ++ lit "abc") [lit "ab" ++ [10%N]; lit "abc"] /\
  exists ts1 ts2, tokenize (sample (Decompose default_penalty) [sample_unk]) (lit "ab" ++ [10%N]) = Some (Ok ts1) /\
    tokenize (sample (Decompose default_penalty) [sample_unk]) (lit "abc") = Some (Ok ts2) /\
    tokenize (sample (Decompose default_penalty) [sample_unk]) (lit "ab" ++ [10%N] ++ lit "abc") = Some (Ok (placed [ts1; ts2])) /\
    List.length ts1 = 2 /\ ts2 <> [].
Proof.
  split.
  - change (lit "ab" ++ [10%N] ++ lit "abc") with ((lit "ab" ++ [10%N]) ++ lit "abc"). constructor.
    + exists (lit "ab"), 10%N. split; [reflexivity|]. split; [right; right; left; reflexivity|].
      repeat constructor; intros H; repeat (destruct H as [H|H]; [discriminate|]); exact H.
    + constructor. split; [discriminate|]. repeat constructor; intros H; repeat (destruct H as [H|H]; [discriminate|]); exact H.
  - eexists. eexists. split; [vm_compute; reflexivity|]. split; [vm_compute; reflexivity|]. split; [vm_compute; reflexivity|].
    split; [reflexivity|discriminate].
Qed.

(** C08: the details of the unknown tokens of a text *)
Theorem C08_unknown_details : forall t text ts tok, tokenize t text = Some (Ok ts) -> In tok ts -> is_unknown (tk_word tok) = true ->
  get_details (t_dictionary t) (t_user t) (tk_word tok) None = Ok (Some [lit "UNK"], Some [lit "UNK"]).
Proof. intros t text ts tok _ _. exact (details_of_unknown _ _ _). Qed.
Print Assumptions C08_unknown_details.
Example C08_unknown_details_ex : exists ts tok, tokenize (sample Normal [sample_unk]) (lit "x") = Some (Ok ts) /\ In tok ts /\
  is_unknown (tk_word tok) = true.
Proof. eexists. eexists. split; [vm_compute; reflexivity|]. split; [left; reflexivity|reflexivity]. Qed.

(** C09: all words of the lattice that start at a place, in their order: at a place that a word reaches, each user entry and
    each system entry of each dictionary word once, shorter words first, and then for each category by rank one
    unknown word for each of its entries; the unknown words are left out only in normal mode strictly inside an unknown
    word span.  At other places there is nothing. *)
Theorem C09_exactly : forall t A, represents t A -> forall m s, valid_str s -> forall l pre c r,
  sentence_lattice t m s = Ok l -> s = pre ++ c :: r ->
  (reached l (blen pre) ->
   exists blocks known unknown, starting_at l (blen pre) = known ++ unknown /\ unknown_blocks A c r blocks /\
     Forall2 (edge_for KNOWN pre) (prefix_words (a_usr A) (c :: r) ++ prefix_words (a_sys A) (c :: r)) known /\
     (Forall2 (edge_for UNKNOWN pre) (concat blocks) unknown \/ m = Normal /\ under_unknown A s pre /\ unknown = [])) /\
  (~ reached l (blen pre) -> starting_at l (blen pre) = []).
Proof. exact candidates_exactly. Qed.
Print Assumptions C09_exactly.
(* three entries for a and ab at the start, the user word bc after a, the unknown word cx after ab; x alone is inside of it *)
Example C09_exactly_ex : exists l, sentence_lattice (sample Normal [sample_unk]) Normal (lit "abcx") = Ok l /\ reached l 3 /\
  map (fun p => map (fun ed => (e_type ed, e_stop ed)) (starting_at l p)) (seq 0 4) =
  [[(KNOWN, 1); (KNOWN, 2); (KNOWN, 2)]; [(KNOWN, 3)]; [(UNKNOWN, 4)]; []].
Proof.
  eexists. split; [vm_compute; reflexivity|]. split.
  - right. apply Exists_exists. vm_compute. repeat first [apply Exists_cons_hd; reflexivity | apply Exists_cons_tl].
  - vm_compute. reflexivity.
Qed.

(** C39: without a kind, the dictionary is the one at the path *)
Theorem C39_dictionary_path : forall e p, load_dictionary_from_config e (DictionaryConfig None (Some p)) = load_dictionary e p.
Proof. reflexivity. Qed.
Print Assumptions C39_dictionary_path.
Example C39_dictionary_path_ex : load_dictionary_from_config sample_env (DictionaryConfig None (Some (lit "nowhere"))) = Err EIo.
Proof. reflexivity. Qed.

(** C42: as JSON text is never empty, a flag without a colon is an error *)
Theorem C42_no_colon_error : forall e flag, e_parse e [] = None -> ~ In 58%N flag -> parse_cli_flag e flag = Err EContent.
Proof. intros e flag P N. rewrite (parse_cli_flag_no_colon e flag N), P. reflexivity. Qed.
Print Assumptions C42_no_colon_error.
Example C42_no_colon_error_ex : e_parse sample_env [] = None /\ ~ In 58%N (lit "lowercase").
Proof. split; [reflexivity|]. cbn. intros H. repeat (destruct H as [H|H]; [discriminate|]). exact H. Qed.
