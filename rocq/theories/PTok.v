(** Property theorems about tokenization: C01 - C12, C44, C45, C64, C65. *)
From Coq Require Import String.
From Coq Require Import List NArith ZArith Bool.
From Verif Require Import MBase MUtf8 MText MCodec MDict MCharDef MUnk MLattice MTokenizer STok
  LUtf8 LScan LCodec LCon LExact LTok LEdge LLong LProv XSample.
Import ListNotations.
Local Open Scope string_scope.
Local Open Scope list_scope.

(** C01: in both modes the tokens tile the text. *)
Theorem C01_tokens_tile : forall t A, represents t A -> forall text, valid_str text -> covered A text ->
  exists ts, tokenize t text = Some (Ok ts) /\ tiles text ts.
Proof. exact tokenize_tiles. Qed.
Print Assumptions C01_tokens_tile.
Example C01_ex : represents (sample Normal [sample_unk]) (sample_meaning [sample_unk]) /\ valid_str (lit "xabcab") /\
  covered (sample_meaning [sample_unk]) (lit "xabcab") /\
  tokenize (sample Normal [sample_unk]) (lit "xabcab") = Some (Ok
    [Token (lit "xabcab") 0 6 0 1 (WordId u32_max true)]) /\
  tokenize (sample (Decompose default_penalty) [sample_unk]) (lit "ab" ++ [10%N] ++ lit "abc") = Some (Ok
    [Token (lit "ab") 0 2 0 1 (WordId 1 true); Token [10%N] 2 3 1 1 (WordId u32_max true);
     Token (lit "a") 3 4 2 1 (WordId 0 true); Token (lit "bc") 4 6 3 1 (WordId 0 false)]).
Proof.
  split; [exact (sample_represents Normal _ sample_unk_ok)|]. split; [exact (ascii_valid _)|].
  split; [apply sample_covered; discriminate|]. split; vm_compute; reflexivity.
Qed.

(** C01: the offsets are offsets in the UTF-8 encoding of the text. *)
Theorem C01_offsets_are_bytes : forall t A, represents t A -> forall text, valid_str text -> covered A text ->
  exists ts, tokenize t text = Some (Ok ts) /\ concat (map (fun tok => utf8 (tk_text tok)) ts) = utf8 text /\
    forall tok, In tok ts -> tk_start tok < tk_end tok /\ tk_end tok <= List.length (utf8 text) /\
      firstn (tk_end tok - tk_start tok) (skipn (tk_start tok) (utf8 text)) = utf8 (tk_text tok).
Proof. exact tokenize_bytes. Qed.
Print Assumptions C01_offsets_are_bytes.

(** C02 is false: with a category that unk.def does not mention, a sentence disappears and later offsets are wrong. *)
Theorem C02_uncovered_category_refuted : exists chars unk cd ud t text ts,
  char_def_of chars = Ok cd /\ parse_unk (categories cd) unk 4 = Ok ud /\
  t = Tokenizer (Dictionary (PrefixDict [] [] true) (ConnMatrix (i16_bytes 0) 1) cd ud [] []) None Normal /\
  text = lit "a" ++ [10%N] ++ lit "b" /\
  tokenize t text = Some (Ok ts) /\
  ts = [Token (lit "b") 0 1 0 1 (WordId u32_max true)] /\ ~ tiles text ts.
Proof.
  exists (lit "DEFAULT 0 1 0" ++ [10%N] ++ lit "FOO 0 1 0" ++ [10%N] ++ lit "0x0061 FOO"), (lit "DEFAULT,0,0,5").
  eexists. eexists. eexists. eexists. exists [Token (lit "b") 0 1 0 1 (WordId u32_max true)].
  split; [vm_compute; reflexivity|]. split; [vm_compute; reflexivity|]. split; [reflexivity|]. split; [reflexivity|].
  split; [vm_compute; reflexivity|]. split; [reflexivity|].
  intros (_ & _ & _ & _ & _ & rest & E & _). discriminate E.
Qed.
Print Assumptions C02_uncovered_category_refuted.

(** C02, what does hold: a text whose sentences can each be written in dictionary words is tiled; in search mode any sentence
    with a segmentation is enough. *)
Theorem C02_kept_partial : forall t A, represents t A -> forall text ss, valid_str text -> sentences text ss ->
  Forall (fun s => (exists ws, dict_segmentation A s ws) \/ (is_search (t_mode t) = true /\ exists ws, segmentation A s ws)) ss ->
  exists ts, tokenize t text = Some (Ok ts) /\ tiles text ts.
Proof. exact tokenize_kept. Qed.
Print Assumptions C02_kept_partial.
Example C02_kept_ex : represents (sample Normal []) (sample_meaning []) /\ sentences (lit "abc") [lit "abc"] /\ ~ covered (sample_meaning []) (lit "abc") /\
  dict_segmentation (sample_meaning []) (lit "abc") [(lit "a", sample_entry 0 true 10); (lit "bc", sample_entry 0 false (-10))].
Proof.
  split; [apply sample_represents; constructor|]. split; [apply (split_sentences (lit "abc"))|]. split.
  { intros H. destruct (H _ (or_introl eq_refl)) as [_ K]. apply (K 0%nat); [left; reflexivity|reflexivity]. }
  change (lit "abc") with (lit "a" ++ lit "bc" ++ []). constructor; [discriminate| |constructor; [discriminate| |constructor]].
  - split; [discriminate|]. split; [eexists; reflexivity|]. right. left. reflexivity.
  - split; [discriminate|]. split; [eexists; reflexivity|]. left. left. reflexivity.
Qed.

(** C02, exactly: the tokens tile what is left of the text when the sentences that the search cannot finish are dropped. *)
Theorem C02_found_partial : forall t A, represents t A -> forall text ss, valid_str text -> sentences text ss ->
  exists ts wss, tokenize t text = Some (Ok ts) /\ tokens_of_words ts (concat wss) /\ Forall2 (exact_answer A (t_mode t)) ss wss /\
    tiles (concat (map (fun wl => concat (map fst wl)) wss)) ts.
Proof. exact tokenize_exact. Qed.
Print Assumptions C02_found_partial.

(** C03: no panic, no error, no endless loop; no coverage needed. *)
Theorem C03_no_panic : forall t A, represents t A -> forall text, valid_str text -> exists ts, tokenize t text = Some (Ok ts).
Proof. exact tokenize_total. Qed.
Print Assumptions C03_no_panic.
Example C03_ex : represents (sample Normal []) (sample_meaning []) /\ valid_str (lit "xyz") /\
  ~ covered (sample_meaning []) (lit "xyz").
Proof.
  split; [apply sample_represents; constructor|]. split; [exact (ascii_valid _)|].
  intros H. destruct (H _ (or_introl eq_refl)) as [_ K]. apply (K 0%nat); [left; reflexivity|reflexivity].
Qed.

(** C04: sentence by sentence, the answer is a cheapest segmentation into the considered words. *)
Theorem C04_minimum_cost : forall t A, represents t A -> forall text ss, valid_str text -> covered A text -> sentences text ss ->
  Forall (fun s => fits_i32 (t_mode t) s) ss ->
  exists ts wss, tokenize t text = Some (Ok ts) /\ tokens_of_words ts (concat wss) /\
    Forall2 (best_segmentation A (t_mode t)) ss wss.
Proof. exact tokenize_best. Qed.
Print Assumptions C04_minimum_cost.
Example C04_ex : sentences (lit "ab" ++ [10%N] ++ lit "abc") [lit "ab" ++ [10%N]; lit "abc"] /\
  Forall (fun s => fits_i32 (Decompose default_penalty) s) [lit "ab" ++ [10%N]; lit "abc"].
Proof.
  split.
  - change (lit "ab" ++ [10%N] ++ lit "abc") with ((lit "ab" ++ [10%N]) ++ lit "abc"). apply sent_closed.
    + exists (lit "ab"), 10%N. split; [reflexivity|]. split; [right; right; left; reflexivity|].
      repeat constructor; cbn; intros H; repeat (destruct H as [H|H]; [discriminate|]); destruct H.
    + apply sent_open. split; [discriminate|].
      repeat constructor; cbn; intros H; repeat (destruct H as [H|H]; [discriminate|]); destruct H.
  - repeat constructor.
Qed.

(** C64: among the cheapest segmentations, the answer is the one whose last words are longest, and among entries for the same
    word the first: user entries, then system entries, then unknown ones. *)
Theorem C64_ties : forall t A, represents t A -> forall text ss, valid_str text -> covered A text -> sentences text ss ->
  Forall (fun s => fits_i32 (t_mode t) s) ss ->
  exists ts wss, tokenize t text = Some (Ok ts) /\ tokens_of_words ts (concat wss) /\
    Forall2 (first_best A (t_mode t)) ss wss.
Proof. exact tokenize_first. Qed.
Print Assumptions C64_ties.
(* a + bc and ab + c cost the same; bc is the longer last word *)
Definition tie_unk : word_entry := WordEntry (WordId u32_max true) (-5) 0 0.
Example C64_ex : let A := sample_meaning [tie_unk] in let a := sample_entry 0 true 10 in let ab := sample_entry 1 true 5 in let bc := sample_entry 0 false (-10) in
  represents (sample Normal [tie_unk]) A /\ covered A (lit "abc") /\
  segmentation A (lit "abc") [(lit "ab", ab); (lit "c", tie_unk)] /\ segmentation A (lit "abc") [(lit "a", a); (lit "bc", bc)] /\
  seg_cost A Normal [(lit "ab", ab); (lit "c", tie_unk)] = seg_cost A Normal [(lit "a", a); (lit "bc", bc)] /\
  tokenize (sample Normal [tie_unk]) (lit "abc") = Some (Ok [Token (lit "a") 0 1 0 1 (WordId 0 true); Token (lit "bc") 1 3 1 1 (WordId 0 false)]) /\
  wins_tie A [(lit "a", a); (lit "bc", bc)] [(lit "ab", ab); (lit "c", tie_unk)].
Proof.
  cbv zeta. split; [apply sample_represents; repeat constructor; cbn; discriminate|]. split; [apply sample_covered; discriminate|].
  split.
  { change (lit "abc") with (lit "ab" ++ lit "c" ++ []). constructor; [discriminate| |constructor; [discriminate| |constructor]].
    - left. split; [discriminate|]. split; [eexists; reflexivity|]. right. left. reflexivity.
    - right. exists 99%N, [], 0%nat, 0%nat. split; [reflexivity|]. split; [reflexivity|]. split.
      + right. intros k e (_ & (r & E) & I). destruct k as [|c k]; [destruct I as [I|I]; destruct I|]. cbn in E. injection E as <- E. destruct k; [|discriminate].
        destruct I as [I|I]; destruct I.
      + split; [|left; reflexivity]. exists 99%N, [], []. split; [reflexivity|]. split; [reflexivity|]. cbn. split; [constructor|discriminate]. }
  split.
  { change (lit "abc") with (lit "a" ++ lit "bc" ++ []). constructor; [discriminate| |constructor; [discriminate| |constructor]].
    - left. split; [discriminate|]. split; [eexists; reflexivity|]. right. left. reflexivity.
    - left. split; [discriminate|]. split; [eexists; reflexivity|]. left. left. reflexivity. }
  split; [reflexivity|]. split; [vm_compute; reflexivity|].
  right. exists [(lit "a", sample_entry 0 true 10)], (lit "bc"), (sample_entry 0 false (-10)), [(lit "ab", sample_entry 1 true 5)], (lit "c"), tie_unk, [].
  split; [reflexivity|]. split; [reflexivity|]. split; [discriminate|]. left. cbn. repeat constructor.
Qed.

(** C65: which words are searched is determined by the dictionary and the text, and so is the answer, covered or not. *)
Theorem C65_exact : forall t A, represents t A -> forall text ss, valid_str text -> sentences text ss ->
  exists ts wss, tokenize t text = Some (Ok ts) /\ tokens_of_words ts (concat wss) /\ Forall2 (exact_answer A (t_mode t)) ss wss.
Proof.
  intros t A R text ss V S. destruct (tokenize_exact t A R text ss V S) as (ts & wss & T & W & H & _). exists ts, wss. auto.
Qed.
Print Assumptions C65_exact.
Theorem C65_one_search : forall A m s W Act W' Act', searched A m s W Act -> searched A m s W' Act' ->
  (forall pre r k e, W pre r k e <-> W' pre r k e) /\ (forall pre, Act pre <-> Act' pre).
Proof. exact searched_unique. Qed.
Print Assumptions C65_one_search.
Theorem C65_complete : forall t A, represents t A -> forall text ss wss, valid_str text -> sentences text ss -> distinct_entries A ->
  Forall (fun s => fits_i32 (t_mode t) s) ss -> Forall2 (exact_answer A (t_mode t)) ss wss ->
  exists ts, tokenize t text = Some (Ok ts) /\ tokens_of_words ts (concat wss).
Proof. exact tokenize_complete. Qed.
Print Assumptions C65_complete.
(* the dictionary of the examples satisfies the hypotheses, and a search exists for every text *)
Example C65_ex : represents (sample Normal [sample_unk]) (sample_meaning [sample_unk]) /\ distinct_entries (sample_meaning [sample_unk]) /\
  sentences (lit "xab") [lit "xab"] /\ fits_i32 Normal (lit "xab") /\
  (exists W Act, searched (sample_meaning [sample_unk]) Normal (lit "xab") W Act) /\
  (exists wl, exact_answer (sample_meaning [sample_unk]) Normal (lit "xab") wl).
Proof.
  split; [exact (sample_represents Normal _ sample_unk_ok)|]. split; [apply sample_distinct; reflexivity|].
  split; [apply (split_sentences (lit "xab"))|]. split; [apply fits_normal; cbn; discriminate|]. split.
  { eexists. eexists. apply searched_admitted. }
  destruct (tokenize_exact (sample Normal [sample_unk]) _ (sample_represents Normal _ sample_unk_ok) (lit "xab") [lit "xab"] (ascii_valid _) (split_sentences (lit "xab")))
    as (ts & wss & _ & _ & H & _).
  inversion H; subst. eexists. eassumption.
Qed.

(** C04 without the bound of fits_i32 is false: with a large configured penalty the product wraps, and a short text gets a
    segmentation that costs more than another one made of dictionary words. *)
Theorem C04_unbounded_penalty_refuted : exists t A text ts ws ws',
  represents t A /\ valid_str text /\ covered A text /\ sentences text [text] /\
  tokenize t text = Some (Ok ts) /\ tokens_of_words ts ws /\ segmentation A text ws /\
  dict_segmentation A text ws' /\ (seg_cost A (t_mode t) ws' < seg_cost A (t_mode t) ws)%Z.
Proof. exact huge_not_best. Qed.
Print Assumptions C04_unbounded_penalty_refuted.

(** C05: below the stated length all path costs are exact i32 values; the bound holds for 32,000 bytes. *)
Theorem C05_costs_in_range : forall t A, represents t A -> forall s, valid_str s -> s <> [] -> covered A s ->
  exists l1 l2 eos wl,
    sentence_lattice t (t_mode t) s = Ok l1 /\
    calculate_path_costs (d_matrix (t_dictionary t)) (t_mode t) l1 = Ok l2 /\
    nth_error (edges l2) 1 = Some eos /\ is_i32 (e_path_cost eos) /\
    (fits_i32 (t_mode t) s ->
     Forall (fun e => (-2147483647 < e_path_cost e < 2147483647)%Z) (edges l2) /\
     best_segmentation A (t_mode t) s wl /\ e_path_cost eos = seg_cost A (t_mode t) wl /\
     exists ts, tokenize_sentence t (default_lattice, [], 0, 0) s = Some (Ok (l2, ts, blen s, List.length wl)) /\ tokens_of_words ts wl).
Proof. exact sentence_costs. Qed.
Print Assumptions C05_costs_in_range.
Theorem C05_bound_normal : forall s, (Z.of_nat (List.length s) <= 32000)%Z -> fits_i32 Normal s.
Proof. exact fits_normal. Qed.
Print Assumptions C05_bound_normal.
Theorem C05_bound_default_decompose : forall s, (Z.of_nat (List.length s) <= 30000)%Z -> fits_i32 (Decompose default_penalty) s.
Proof. exact fits_default. Qed.
Print Assumptions C05_bound_default_decompose.
Theorem C05_long_sentence_refuted : exists t A s l1 l2 eos,
  represents t A /\ valid_str s /\ covered A s /\ s <> [] /\
  sentence_lattice t (t_mode t) s = Ok l1 /\
  calculate_path_costs (d_matrix (t_dictionary t)) (t_mode t) l1 = Ok l2 /\
  nth_error (edges l2) 1 = Some eos /\ is_i32 (e_path_cost eos) /\
  forall ws, segmentation A s ws -> ~ is_i32 (seg_cost A (t_mode t) ws) /\ seg_cost A (t_mode t) ws <> e_path_cost eos.
Proof. exact long_sentence_wraps. Qed.
Print Assumptions C05_long_sentence_refuted.
Example C05_ex : fits_i32 (Decompose (Penalty 2 100000 7 (-5000))) (repeat 12354%N (Z.to_nat 12000)).
Proof.
  unfold fits_i32. rewrite blen_repeat. change (width 12354%N) with 3.
  rewrite repeat_length, Nat2Z.inj_mul, Z2Nat.id by discriminate. reflexivity.
Qed.

(** C06: the text may be cut after any delimiter; a used lattice works like a new one. *)
Theorem C06_cut_after_delimiter : forall t A, represents t A -> forall a c b, valid_str ((a ++ [c]) ++ b) -> delimiter c ->
  exists ts1 ts2, tokenize t (a ++ [c]) = Some (Ok ts1) /\ tokenize t b = Some (Ok ts2) /\
    tokenize t ((a ++ [c]) ++ b) = Some (Ok (ts1 ++ map (shift_token (end_of ts1) (List.length ts1)) ts2)).
Proof. exact tokenize_app. Qed.
Print Assumptions C06_cut_after_delimiter.
Theorem C06_used_lattice : forall t A l s toks bp p, represents t A -> used_lattice t l -> valid_str s -> s <> [] ->
  exists l1 l2 ts bp' p',
    tokenize_sentence t (default_lattice, toks, bp, p) s = Some (Ok (l1, toks ++ ts, bp', p')) /\
    tokenize_sentence t (l, toks, bp, p) s = Some (Ok (l2, toks ++ ts, bp', p')).
Proof. exact lattice_history. Qed.
Print Assumptions C06_used_lattice.
Example C06_ex : delimiter 0x3002%N /\ delimiter 9%N /\
  exists l, used_lattice (sample Normal [sample_unk]) l /\ l <> default_lattice.
Proof.
  split; [left; reflexivity|]. split; [right; right; right; left; reflexivity|].
  eexists. split.
  - eapply used_again with (s := lit "abc") (toks := []) (bp := 0%nat) (p := 0%nat);
      [apply used_fresh|exact (ascii_valid _)|discriminate|vm_compute; reflexivity].
  - discriminate.
Qed.

(** C07 *)
Theorem C07_delimiter_last : forall t A, represents t A -> forall text ts tok a c b, valid_str text ->
  tokenize t text = Some (Ok ts) -> In tok ts -> tk_text tok = a ++ c :: b -> delimiter c -> b = [].
Proof. exact token_delims. Qed.
Print Assumptions C07_delimiter_last.
Example C07_ex : exists ts tok, tokenize (sample Normal [sample_unk]) (lit "x" ++ [10%N] ++ lit "y") = Some (Ok ts) /\ In tok ts /\
  tk_text tok = lit "x" ++ 10%N :: [].
Proof. eexists. eexists. split; [vm_compute; reflexivity|]. split; [left; reflexivity|reflexivity]. Qed.

(** C08: the word id of a token tells which dictionary it is from, and that dictionary has an entry with the token's text. *)
Theorem C08_token_source : forall t A text ts tok, represents t A -> marked A -> valid_str text ->
  tokenize t text = Some (Ok ts) -> In tok ts ->
  (is_unknown (tk_word tok) = true ->
     exists e c r ord k, tk_word tok = we_id e /\ tk_text tok = c :: r /\ has_cat A ord k c /\ In e (a_unk A k)) /\
  (is_unknown (tk_word tok) = false -> wsys (tk_word tok) = true ->
     exists e, In e (entries_of (a_sys A) (tk_text tok)) /\ tk_word tok = we_id e) /\
  (is_unknown (tk_word tok) = false -> wsys (tk_word tok) = false ->
     exists e, In e (entries_of (a_usr A) (tk_text tok)) /\ tk_word tok = we_id e).
Proof. exact token_source. Qed.
Print Assumptions C08_token_source.
Example C08_ex : marked (sample_meaning [sample_unk]).
Proof. exact sample_marked. Qed.

(** C09: every word of the lattice is a dictionary word or an unknown word allowed by char.def, and all allowed ones at
    reached positions are there (in normal mode: unless an unknown word of the lattice lies strictly around the position). *)
Theorem C09_candidates_sound : forall t A, represents t A -> forall m s, valid_str s -> s <> [] -> forall l,
  sentence_lattice t m s = Ok l ->
  Forall (fun ed => exists pre k rest, s = pre ++ k ++ rest /\ edge_over ed pre k (e_entry ed) /\
     (e_type ed = KNOWN /\ dict_word A (k ++ rest) k (e_entry ed) \/
      e_type ed <> KNOWN /\ unknown_word A (k ++ rest) k (e_entry ed))) (word_edges l).
Proof. exact lattice_sound. Qed.
Print Assumptions C09_candidates_sound.
Theorem C09_unknown_complete : forall t A, represents t A -> forall m s, valid_str s -> s <> [] -> forall l pre r k e,
  sentence_lattice t m s = Ok l -> covered A s -> s = pre ++ r -> reached l (blen pre) -> unknown_word A r k e ->
  (is_search m = true \/
   forall ed, In ed (word_edges l) -> e_type ed <> KNOWN -> ~ (e_start ed < blen pre < e_stop ed)) ->
  exists ed, In ed (word_edges l) /\ e_type ed = UNKNOWN /\ edge_over ed pre k e.
Proof. exact lattice_unknown_complete. Qed.
Print Assumptions C09_unknown_complete.
Theorem C09_dictionary_complete : forall t A, represents t A -> forall m s, valid_str s -> s <> [] -> forall l pre r k e,
  sentence_lattice t m s = Ok l -> s = pre ++ r -> reached l (blen pre) -> dict_word A r k e ->
  exists ed, In ed (word_edges l) /\ e_type ed = KNOWN /\ edge_over ed pre k e.
Proof. exact lattice_dict_complete. Qed.
Print Assumptions C09_dictionary_complete.
Example C09_ex : unknown_word (sample_meaning [sample_unk]) (lit "xyz") (lit "xyz") sample_unk /\
  exists l, sentence_lattice (sample Normal [sample_unk]) Normal (lit "xyz") = Ok l /\ reached l 0.
Proof.
  split.
  - exists 120%N, (lit "yz"), 0%nat, 0%nat. split; [reflexivity|]. split; [reflexivity|]. split.
    + right. intros k e (NE & (r & E) & [I|I]).
      * cbn [sample_meaning a_usr sample_usr entries_of] in I. destruct k as [|c k]; [contradiction|].
        injection E as <- _. destruct I.
      * cbn [sample_meaning a_sys sample_sys entries_of] in I. destruct k as [|c k]; [contradiction|].
        injection E as <- _. destruct I.
    + split; [|left; reflexivity]. exists 120%N, (lit "yz"), []. split; [reflexivity|]. split; [reflexivity|].
      split; [repeat constructor|]. discriminate.
  - eexists. split; [vm_compute; reflexivity|left; reflexivity].
Qed.

(** C10 *)
Theorem C10_all_dictionary_words_compete : forall t A, represents t A -> forall text ss, valid_str text -> covered A text ->
  sentences text ss -> Forall (fun s => fits_i32 (t_mode t) s) ss ->
  exists ts wss, tokenize t text = Some (Ok ts) /\ tokens_of_words ts (concat wss) /\
    Forall2 (fun s wl => segmentation A s wl /\
      (forall wl', dict_segmentation A s wl' -> (seg_cost A (t_mode t) wl <= seg_cost A (t_mode t) wl')%Z) /\
      (is_search (t_mode t) = true ->
       forall wl', segmentation A s wl' -> (seg_cost A (t_mode t) wl <= seg_cost A (t_mode t) wl')%Z)) ss wss.
Proof. exact tokenize_dict_bound. Qed.
Print Assumptions C10_all_dictionary_words_compete.
Example C10_ex : dict_segmentation (sample_meaning [sample_unk]) (lit "abc")
  [(lit "a", sample_entry 0 true 10); (lit "bc", sample_entry 0 false (-10))].
Proof.
  change (lit "abc") with (lit "a" ++ lit "bc" ++ []). constructor; [discriminate| |constructor; [discriminate| |constructor]].
  - split; [discriminate|]. split; [eexists; reflexivity|]. right. left. reflexivity.
  - split; [discriminate|]. split; [eexists; reflexivity|]. left. left. reflexivity.
Qed.

(** C11: the decompose penalty, unless the product leaves i32. *)
Theorem C11_penalty : forall p e k,
  e_stop e = (e_start e + blen k)%nat -> e_kanji e = forallb kanji k ->
  (Z.of_nat (blen k / 3) - Z.min (Z.of_N (kanji_threshold p)) (Z.of_N (other_threshold p)) <= 2147483647)%Z ->
  is_i32 (surface_penalty (Decompose p) k) ->
  penalty_cost (Decompose p) e = surface_penalty (Decompose p) k.
Proof. exact penalty_wide. Qed.
Print Assumptions C11_penalty.
Theorem C11_lattice : forall t A, represents t A -> forall m s, valid_str s -> s <> [] -> forall l p, m = Decompose p ->
  sentence_lattice t m s = Ok l ->
  Forall (fun ed => exists pre k rest, s = pre ++ k ++ rest /\ e_start ed = blen pre /\ e_stop ed = (blen pre + blen k)%nat /\
    ((Z.of_nat (blen k / 3) - Z.min (Z.of_N (kanji_threshold p)) (Z.of_N (other_threshold p)) <= 2147483647)%Z ->
     is_i32 (surface_penalty m k) -> penalty_cost m ed = surface_penalty m k)) (word_edges l).
Proof. exact lattice_penalty. Qed.
Print Assumptions C11_lattice.
Theorem C11_normal_free : forall e, penalty_cost Normal e = 0%Z.
Proof. reflexivity. Qed.
Print Assumptions C11_normal_free.
Theorem C11_three_byte_length : forall k, Forall (fun c => (0x800 <= c < 0x10000)%N) k -> (blen k / 3 = List.length k)%nat.
Proof. exact blen_three. Qed.
Print Assumptions C11_three_byte_length.
Example C11_ex :
  surface_penalty (Decompose default_penalty) [0x6771; 0x4EAC; 0x90FD]%N = 3000%Z /\
  surface_penalty (Decompose default_penalty) [0x6771; 0x4EAC]%N = 0%Z /\
  surface_penalty (Decompose default_penalty) (repeat 0x30A2%N 9) = 3400%Z /\
  surface_penalty (Decompose default_penalty) (repeat 0x30A2%N 7) = 0%Z.
Proof. repeat split; vm_compute; reflexivity. Qed.

(** C12 *)
Theorem C12_word_entry_round_trip : forall e sys rest,
  is_u32 (wid (we_id e)) -> is_i16 (we_cost e) -> is_u16 (we_left e) -> is_u16 (we_right e) ->
  we_deserialize (we_serialize e ++ rest) sys = Ok (WordEntry (WordId (wid (we_id e)) sys) (we_cost e) (we_left e) (we_right e)).
Proof. exact we_round_trip. Qed.
Print Assumptions C12_word_entry_round_trip.
Theorem C12_serialized_length : forall e, List.length (we_serialize e) = serialized_len.
Proof. exact we_serialize_length. Qed.
Print Assumptions C12_serialized_length.
Example C12_ex : we_deserialize (we_serialize (WordEntry (WordId 70000 true) (-1) 512 65535)) true
  = Ok (WordEntry (WordId 70000 true) (-1) 512 65535).
Proof. vm_compute. reflexivity. Qed.

(** C44: in normal mode no unknown word starts strictly inside the last one made at its start; all positions outside of
    unknown words get theirs (C09_unknown_complete). *)
Theorem C44_no_unknown_inside : forall t A s l a e1 b e2, represents t A -> valid_str s -> s <> [] -> covered A s ->
  sentence_lattice t Normal s = Ok l -> word_edges l = a ++ e1 :: b -> e_type e1 <> KNOWN ->
  (forall e, In e b -> e_type e <> KNOWN -> e_start e <> e_start e1) ->
  In e2 (word_edges l) -> e_type e2 <> KNOWN -> ~ (e_start e1 < e_start e2 < e_stop e1).
Proof. exact lattice_unknown_gap. Qed.
Print Assumptions C44_no_unknown_inside.
Example C44_ex : exists l ed, sentence_lattice (sample Normal [sample_unk]) Normal (lit "xyz") = Ok l /\
  word_edges l = [] ++ ed :: [] /\ e_type ed <> KNOWN /\ e_start ed = 0%nat /\ e_stop ed = 3%nat.
Proof. eexists. eexists. split; [vm_compute; reflexivity|]. split; [reflexivity|]. split; [discriminate|]. split; reflexivity. Qed.

(** C45 *)
Theorem C45_utf8_prefix : forall k s r, valid_str k -> valid_str s -> utf8 s = utf8 k ++ r -> exists t, s = k ++ t /\ r = utf8 t.
Proof. exact utf8_prefix. Qed.
Print Assumptions C45_utf8_prefix.
(** C45: bytes are accepted as a string exactly if they are the encoding of one. *)
Theorem C45_decoding : forall bs s, utf8_decode bs = Some s <-> valid_str s /\ bs = utf8 s.
Proof. exact decode_iff. Qed.
Print Assumptions C45_decoding.
(** C45: the model's string slices, which panic inside a character, cut the encoding exactly at character boundaries. *)
Theorem C45_slices : forall s,
  (forall n p, str_to s n = Ok p <-> exists r, s = p ++ r /\ List.length (utf8 p) = n) /\
  (forall n r, str_from s n = Ok r <-> exists p, s = p ++ r /\ List.length (utf8 p) = n) /\
  (forall n, (exists p, str_to s n = Ok p) \/ str_to s n = Panic) /\
  (forall n, (exists p, str_from s n = Ok p) \/ str_from s n = Panic).
Proof. exact str_slices. Qed.
Print Assumptions C45_slices.
Example C45_slices_ex : str_to [0x61; 0x3042; 0x1F600]%N 4 = Ok [0x61; 0x3042]%N /\ str_to [0x61; 0x3042]%N 2 = Panic /\
  str_from [0x1F600; 0x61]%N 4 = Ok [0x61]%N /\ str_from [0x1F600; 0x61]%N 3 = Panic /\ str_from [0x61]%N 2 = Panic.
Proof. repeat split. Qed.
Example C45_ex : utf8 [0x3042; 0x3044]%N = utf8 [0x3042]%N ++ utf8 [0x3044]%N.
Proof. reflexivity. Qed.
