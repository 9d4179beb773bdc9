(** Property C94: changing costs moves the result in the direction that the change promises.  See
   /verif/properties.jsonl. *)
From Coq Require Import String List NArith ZArith Bool Lia ZifyBool ZifyNat ZifyN.
From Verif Require Import MBase MUtf8 MText MCodec MDict MCharDef MUnk MLattice MTokenizer STok SRetune LBase LUtf8 LTok LLong LRetune XSample XRetune.
Import ListNotations.
Local Open Scope string_scope.
Local Open Scope list_scope.

Theorem C94_words : forall t t' A A' text ss P d, represents t A -> represents t' A' -> t_mode t' = t_mode t -> valid_str text -> sentences text ss ->
  Forall (fun s => fits_i32 (t_mode t) s) ss -> (0 < d)%Z -> retuned (words_less P d) (a_conn A) A A' ->
  exists ts ts', tokenize t text = Some (Ok ts) /\ tokenize t' text = Some (Ok ts') /\ token_count P ts <= token_count P ts'.
Proof. intros t t' A A' text ss P d R R' M V S F D RT. exact (cheaper_words t t' A A' text ss R R' V S F P d M D RT). Qed.
Print Assumptions C94_words.

Theorem C94_connections : forall t t' A A' text ss Q d, represents t A -> represents t' A' -> t_mode t' = t_mode t -> valid_str text -> sentences text ss ->
  Forall (fun s => fits_i32 (t_mode t) s) ss -> (0 < d)%Z -> retuned we_cost (joins_less Q d A) A A' ->
  exists ts ts' wss wss', tokenize t text = Some (Ok ts) /\ tokens_of_words ts (concat wss) /\ Forall2 (exact_answer A (t_mode t)) ss wss /\
    tokenize t' text = Some (Ok ts') /\ tokens_of_words ts' (concat wss') /\ Forall2 (exact_answer A' (t_mode t)) ss wss' /\
    Forall2 (fun ws ws' => join_count Q ws <= join_count Q ws') wss wss'.
Proof. intros t t' A A' text ss Q d R R' M V S F D RT. exact (cheaper_joins t t' A A' text ss R R' V S F Q d M D RT). Qed.
Print Assumptions C94_connections.

Theorem C94_penalties : forall d u A p x y text ss, represents (Tokenizer d u (Decompose p)) A -> valid_str text -> sentences text ss ->
  Forall (fun s => fits_i32 (Decompose p) s /\ fits_i32 (Decompose (more_penalty p x y)) s) ss ->
  exists ts ts', tokenize (Tokenizer d u (Decompose p)) text = Some (Ok ts) /\ tokenize (Tokenizer d u (Decompose (more_penalty p x y))) text = Some (Ok ts') /\
    (x * Z.of_nat (excess (kanji_excess p) ts') + y * Z.of_nat (excess (other_excess p) ts') <=
     x * Z.of_nat (excess (kanji_excess p) ts) + y * Z.of_nat (excess (other_excess p) ts))%Z.
Proof. exact raised_penalty. Qed.
Print Assumptions C94_penalties.
(* one penalty raised alone: the characters too many do not become more *)
Theorem C94_one_penalty : forall d u A p x text ss, represents (Tokenizer d u (Decompose p)) A -> valid_str text -> sentences text ss -> (0 < x)%Z ->
  (Forall (fun s => fits_i32 (Decompose p) s /\ fits_i32 (Decompose (more_penalty p x 0)) s) ss ->
   exists ts ts', tokenize (Tokenizer d u (Decompose p)) text = Some (Ok ts) /\ tokenize (Tokenizer d u (Decompose (more_penalty p x 0))) text = Some (Ok ts') /\
     excess (kanji_excess p) ts' <= excess (kanji_excess p) ts) /\
  (Forall (fun s => fits_i32 (Decompose p) s /\ fits_i32 (Decompose (more_penalty p 0 x)) s) ss ->
   exists ts ts', tokenize (Tokenizer d u (Decompose p)) text = Some (Ok ts) /\ tokenize (Tokenizer d u (Decompose (more_penalty p 0 x))) text = Some (Ok ts') /\
     excess (other_excess p) ts' <= excess (other_excess p) ts).
Proof.
  intros d u A p x text ss R V S X. split; intros F; destruct (raised_penalty d u A p _ _ text ss R V S F) as (ts & ts' & T & T' & L); exists ts, ts'; (split; [exact T|]); (split; [exact T'|]); nia.
Qed.
Print Assumptions C94_one_penalty.

Theorem C94_unused : forall t t' A A' text ss c ts, represents t A -> represents t' A' -> t_mode t' = t_mode t -> valid_str text -> sentences text ss ->
  Forall (fun s => fits_i32 (t_mode t) s) ss -> retuned c (a_conn A) A A' -> distinct_entries A' ->
  tokenize t text = Some (Ok ts) -> (forall e, (we_cost e <= c e)%Z) -> (forall tok e, In tok ts -> we_id e = tk_word tok -> c e = we_cost e) ->
  tokenize t' text = Some (Ok ts).
Proof. intros t t' A A' text ss c ts R R' M V S F RT D T C U. exact (dearer_unused t t' A A' text ss R R' V S F c ts M RT D T C U). Qed.
Print Assumptions C94_unused.

Theorem C94_scaled : forall t t' A A' text ss q, represents t A -> represents t' A' -> valid_str text -> sentences text ss -> (0 < q)%Z ->
  t_mode t' = scaled_mode q (t_mode t) -> Forall (fun s => fits_i32 (t_mode t) s) ss -> Forall (fun s => fits_i32 (t_mode t') s) ss ->
  retuned (fun e => q * we_cost e)%Z (fun f b => q * a_conn A f b)%Z A A' -> distinct_entries A' ->
  tokenize t' text = tokenize t text.
Proof. intros t t' A A' text ss q R R' V S Q M F F' RT D. exact (scaled_tokens t t' A A' text ss R R' V S F q Q M F' RT D). Qed.
Print Assumptions C94_scaled.

(* abc alone, until the user word, the connections or long words change their costs *)
Definition one_token : list token := [Token (lit "abc") 0 3 0 1 (WordId 0 true)].
Definition two_tokens : list token := [Token (lit "ab") 0 2 0 1 (WordId 0 false); Token (lit "c") 2 3 1 1 (WordId u32_max true)].
Definition no_penalty : penalty := Penalty 0 0 0 0.
Definition user_words (w : word_id) : bool := negb (wsys w).
Example C94_ex :
  sentences (lit "abc") [lit "abc"] /\ fits_i32 Normal (lit "abc") /\ fits_i32 (Decompose no_penalty) (lit "abc") /\ fits_i32 (Decompose (more_penalty no_penalty 0 100)) (lit "abc") /\
  (forall m, represents (tuned 100 100 50 10 m) (tuned_meaning 100 100 50 10) /\ represents (tuned 100 (-100) 50 10 m) (tuned_meaning 100 (-100) 50 10) /\
    represents (tuned 100 300 50 10 m) (tuned_meaning 100 300 50 10) /\ represents (tuned 100 100 50 (-100) m) (tuned_meaning 100 100 50 (-100)) /\
    represents (tuned 200 200 100 20 m) (tuned_meaning 200 200 100 20)) /\
  retuned (words_less user_words 200) (fun _ _ => 10%Z) (tuned_meaning 100 100 50 10) (tuned_meaning 100 (-100) 50 10) /\
  retuned we_cost (joins_less (fun _ _ => true) 110 (tuned_meaning 100 100 50 10)) (tuned_meaning 100 100 50 10) (tuned_meaning 100 100 50 (-100)) /\
  retuned (fun e => if user_words (we_id e) then (we_cost e + 200)%Z else we_cost e) (fun _ _ => 10%Z) (tuned_meaning 100 100 50 10) (tuned_meaning 100 300 50 10) /\
  distinct_entries (tuned_meaning 100 300 50 10) /\
  retuned (fun e => 2 * we_cost e)%Z (fun _ _ => 20%Z) (tuned_meaning 100 100 50 10) (tuned_meaning 200 200 100 20) /\ distinct_entries (tuned_meaning 200 200 100 20) /\
  tokenize (tuned 100 100 50 10 Normal) (lit "abc") = Some (Ok one_token) /\
  tokenize (tuned 100 (-100) 50 10 Normal) (lit "abc") = Some (Ok two_tokens) /\
  tokenize (tuned 100 100 50 (-100) Normal) (lit "abc") = Some (Ok two_tokens) /\
  tokenize (tuned 100 300 50 10 Normal) (lit "abc") = Some (Ok one_token) /\
  tokenize (tuned 200 200 100 20 Normal) (lit "abc") = Some (Ok one_token) /\
  tokenize (tuned 100 100 50 10 (Decompose no_penalty)) (lit "abc") = Some (Ok one_token) /\
  tokenize (tuned 100 100 50 10 (Decompose (more_penalty no_penalty 0 100))) (lit "abc") = Some (Ok two_tokens) /\
  token_count user_words one_token = 0 /\ token_count user_words two_tokens = 1 /\
  excess (other_excess no_penalty) one_token = 1 /\ excess (other_excess no_penalty) two_tokens = 0.
Proof.
  split; [apply (split_sentences (lit "abc"))|]. do 3 (split; [unfold fits_i32; vm_compute; reflexivity|]).
  split. { intros m. split; [apply tuned_represents, tuned_base|]. split; [apply tuned_represents, tuned_user|]. split; [apply tuned_represents, tuned_dear|].
    split; [apply tuned_represents, tuned_joins|apply tuned_represents, tuned_twice]. }
  split; [apply tuned_retuned; reflexivity|]. split; [apply (tuned_retuned we_cost 100 100 50 10 100 100 50 (-100)); reflexivity|]. split; [apply tuned_retuned; reflexivity|]. split; [apply tuned_distinct|].
  split; [apply tuned_retuned; reflexivity|]. split; [apply tuned_distinct|].
  do 10 (split; [vm_compute; reflexivity|]). vm_compute. reflexivity.
Qed.
