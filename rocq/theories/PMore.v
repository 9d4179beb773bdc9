(** Properties C72 and C73: more words and other modes. *)
From Coq Require Import String List NArith ZArith Bool Lia ZifyBool ZifyNat.
From Verif Require Import MBase MUtf8 MText MCodec MDict MCharDef MUnk MLattice MTokenizer STok SMore LMore LExact LLong XSample XMore.
Import ListNotations.
Local Open Scope string_scope.
Local Open Scope list_scope.

(** C72: a user dictionary never makes the result dearer.  Not so in general: a user word at a place where only unknown
    words were found makes these unknown words disappear. *)
Theorem C72_new_start_refuted : forall m, m = Normal \/ m = Decompose default_penalty -> exists d u A A' text ts ts' ws ws',
  represents (Tokenizer d None m) A /\ represents (Tokenizer d (Some u) m) A' /\ more_words A A' /\ valid_str text /\ covered A text /\ covered A' text /\
  sentences text [text] /\ fits_i32 m text /\
  tokenize (Tokenizer d None m) text = Some (Ok ts) /\ tokens_of_words ts ws /\ segmentation A text ws /\
  tokenize (Tokenizer d (Some u) m) text = Some (Ok ts') /\ tokens_of_words ts' ws' /\ segmentation A' text ws' /\
  (seg_cost A m ws < seg_cost A' m ws')%Z.
Proof. exact abd_dearer. Qed.
Print Assumptions C72_new_start_refuted.
(** In normal mode not even where every user word starts at a place with system words, because the place where the user
    word ends may have unknown words that switch off the places inside them. *)
Theorem C72_normal_refuted : exists d u A A' text ts ts' ws ws',
  represents (Tokenizer d None Normal) A /\ represents (Tokenizer d (Some u) Normal) A' /\ more_words A A' /\ valid_str text /\ covered A text /\ covered A' text /\
  sentences text [text] /\ fits_i32 Normal text /\ no_new_starts A A' text /\
  tokenize (Tokenizer d None Normal) text = Some (Ok ts) /\ tokens_of_words ts ws /\ segmentation A text ws /\
  tokenize (Tokenizer d (Some u) Normal) text = Some (Ok ts') /\ tokens_of_words ts' ws' /\ segmentation A' text ws' /\
  segmentation A' text ws /\ (seg_cost A Normal ws < seg_cost A' Normal ws')%Z.
Proof. exact abcd_dearer. Qed.
Print Assumptions C72_normal_refuted.
(** In decompose mode it holds, sentence by sentence, under that condition; and a sentence that was segmented stays segmented. *)
Theorem C72_search_partial : forall t A t' A', represents t A -> represents t' A' -> t_mode t' = t_mode t -> is_search (t_mode t) = true -> more_words A A' ->
  forall text ss, valid_str text -> sentences text ss -> Forall (no_new_starts A A') ss -> Forall (fun s => fits_i32 (t_mode t) s) ss ->
  exists ts ts' wss wss', tokenize t text = Some (Ok ts) /\ tokens_of_words ts (concat wss) /\ Forall2 (exact_answer A (t_mode t)) ss wss /\
    tokenize t' text = Some (Ok ts') /\ tokens_of_words ts' (concat wss') /\ Forall2 (exact_answer A' (t_mode t)) ss wss' /\
    forall i ws ws', nth_error wss i = Some ws -> nth_error wss' i = Some ws' -> ws <> [] -> ws' <> [] /\ (seg_cost A' (t_mode t) ws' <= seg_cost A (t_mode t) ws)%Z.
Proof. exact texts_cheaper. Qed.
Print Assumptions C72_search_partial.
(** In both modes it holds for the sentences that were made of dictionary words alone. *)
Theorem C72_known_partial : forall t A t' A', represents t A -> represents t' A' -> t_mode t' = t_mode t -> more_words A A' ->
  forall text ss, valid_str text -> sentences text ss -> Forall (fun s => fits_i32 (t_mode t) s) ss ->
  exists ts ts' wss wss', tokenize t text = Some (Ok ts) /\ tokens_of_words ts (concat wss) /\ Forall2 (exact_answer A (t_mode t)) ss wss /\
    tokenize t' text = Some (Ok ts') /\ tokens_of_words ts' (concat wss') /\ Forall2 (exact_answer A' (t_mode t)) ss wss' /\
    forall i s ws ws', nth_error ss i = Some s -> nth_error wss i = Some ws -> nth_error wss' i = Some ws' -> dict_segmentation A s ws ->
      (seg_cost A' (t_mode t) ws' <= seg_cost A (t_mode t) ws)%Z.
Proof. exact texts_known. Qed.
Print Assumptions C72_known_partial.
Example C72_ex : let m := Decompose default_penalty in
  represents (small false m) (small_meaning false) /\ represents (small true m) (small_meaning true) /\ is_search m = true /\
  more_words (small_meaning false) (small_meaning true) /\ valid_str (lit "abcd") /\ sentences (lit "abcd") [lit "abcd"] /\
  no_new_starts (small_meaning false) (small_meaning true) (lit "abcd") /\ fits_i32 m (lit "abcd") /\
  dict_segmentation (small_meaning false) (lit "abc") [(lit "abc", sample_entry 0 true 1)].
Proof.
  cbv zeta. split; [apply small_represents|]. split; [apply small_represents|]. split; [reflexivity|]. split; [exact small_more|]. split; [apply ascii_valid|].
  split; [apply small_open|]. split; [exact small_starts|]. split; [apply fits_default; vm_compute; discriminate|].
  change (lit "abc") with (lit "abc" ++ []) at 1. constructor; [discriminate|apply small_sys|constructor].
Qed.
Example C72_ex_cost : map tk_text (match tokenize (small true (Decompose default_penalty)) (lit "abcd") with Some (Ok ts) => ts | _ => [] end) = [lit "abc"; lit "d"] /\
  map tk_text (match tokenize (small true Normal) (lit "abcd") with Some (Ok ts) => ts | _ => [] end) = [lit "ab"; lit "cd"] /\
  seg_cost (small_meaning true) Normal abcd_without = 110%Z /\ seg_cost (small_meaning true) Normal abcd_with = 1109%Z.
Proof. vm_compute. auto. Qed.

(** C73: decompose mode looks at every word that normal mode looks at, so its answer is at most as dear (by its own
    measure) as the answer of normal mode, and at most as dear as that one measured without penalties if it has no long word. *)
Theorem C73_words : forall A p s W Act W' Act', searched A Normal s W Act -> searched A (Decompose p) s W' Act' ->
  forall pre r k e, W pre r k e -> W' pre r k e.
Proof. exact mode_searched. Qed.
Print Assumptions C73_words.
Theorem C73_cost : forall d u A p, represents (Tokenizer d u Normal) A -> forall text ss, valid_str text -> sentences text ss ->
  Forall (fun s => fits_i32 (Decompose p) s) ss ->
  exists ts ts' wss wss', tokenize (Tokenizer d u Normal) text = Some (Ok ts) /\ tokens_of_words ts (concat wss) /\ Forall2 (exact_answer A Normal) ss wss /\
    tokenize (Tokenizer d u (Decompose p)) text = Some (Ok ts') /\ tokens_of_words ts' (concat wss') /\ Forall2 (exact_answer A (Decompose p)) ss wss' /\
    forall i ws ws', nth_error wss i = Some ws -> nth_error wss' i = Some ws' -> ws <> [] ->
      ws' <> [] /\ (seg_cost A (Decompose p) ws' <= seg_cost A (Decompose p) ws)%Z /\
      (unpenalized (Decompose p) ws -> (seg_cost A (Decompose p) ws' <= seg_cost A Normal ws)%Z).
Proof. exact texts_modes. Qed.
Print Assumptions C73_cost.
Example C73_ex : represents (small true Normal) (small_meaning true) /\ sentences (lit "abcd") [lit "abcd"] /\ fits_i32 (Decompose default_penalty) (lit "abcd") /\
  unpenalized (Decompose default_penalty) abcd_with /\
  tokenize (small true Normal) (lit "abcd") <> tokenize (small true (Decompose default_penalty)) (lit "abcd").
Proof.
  split; [apply small_represents|]. split; [apply small_open|]. split; [apply fits_default; vm_compute; discriminate|].
  split; [repeat constructor|]. vm_compute. discriminate.
Qed.
