(** C99: debug builds and release builds. *)
From Coq Require Import String.
From Coq Require Import List NArith ZArith Bool Lia.
From Verif Require Import MBase MUtf8 MText MCodec MDict MCharDef MUnk MLattice MTokenizer MBuild MConfig MBuilders MLattice32 MDebug.
From Verif Require Import STok SWork SCast SDebug SBuilders LUtf8 LTok LCast LDebug XSample XCast.
Import ListNotations.
Local Open Scope list_scope.

(** C99: whatever the dictionary and the text, a debug build panics or gives what a release build gives. *)
Theorem C99_panics_or_agrees : forall t text, tokenize_debug t text = Some Panic \/ tokenize_debug t text = tokenize32 t text.
Proof. exact panics_or_agrees. Qed.
Print Assumptions C99_panics_or_agrees.

(** C99: if the costs of every sentence fit an i32, no arithmetic overflows, and debug and release builds give the same tokens. *)
Theorem C99_same : forall t A, represents t A -> small_matrix (d_matrix (t_dictionary t)) A ->
  forall text ss, valid_str text -> sentences text ss -> Forall (fits_i32 (t_mode t)) ss -> Forall (fits_u32 A) ss ->
  tokenize_debug t text = tokenize t text /\ tokenize32 t text = tokenize t text.
Proof. exact all_agree. Qed.
Print Assumptions C99_same.

(** C99: so it is for every dictionary built from readable sources. *)
Theorem C99_built : forall be e k dir S C,
  has_sources be k dir S -> readable k S C -> yada_works be e (system_words k (s_rows S)) -> be_compress be = false ->
  exists files, build_dictionary be k dir = Ok files /\ forall out, files_at e out files -> exists d A, load_dictionary e out = Ok d /\ says k S C d A /\
    forall m text ss, valid_str text -> sentences text ss -> Forall (fits_i32 m) ss -> Forall (fits_u32 A) ss ->
      tokenize_debug (Tokenizer d None m) text = tokenize (Tokenizer d None m) text.
Proof. exact built_agrees. Qed.
Print Assumptions C99_built.

(** C05: if the costs fit, no addition or product of the search overflows: with overflow checks it gives the same. *)
Theorem C05_no_addition_wraps : forall t A, represents t A -> small_matrix (d_matrix (t_dictionary t)) A ->
  forall s l1, valid_str s -> s <> [] -> fits_i32 (t_mode t) s -> sentence_lattice t (t_mode t) s = Ok l1 ->
  exists l2, calculate_path_costs (d_matrix (t_dictionary t)) (t_mode t) l1 = Ok l2 /\ calculate_path_costs_debug (d_matrix (t_dictionary t)) (t_mode t) l1 = Ok l2.
Proof. exact no_addition_wraps. Qed.
Print Assumptions C05_no_addition_wraps.

(** C99: with large penalties a debug build can panic where a release build answers. *)
Theorem C99_limit : exists t A text ts, represents t A /\ small_matrix (d_matrix (t_dictionary t)) A /\ valid_str text /\ covered A text /\
  tokenize32 t text = Some (Ok ts) /\ tokenize_debug t text = Some Panic.
Proof. exact huge_panics. Qed.
Print Assumptions C99_limit.

Example C05_no_addition_wraps_ex : let t := sample Normal [sample_unk] in
  small_matrix (d_matrix (t_dictionary t)) (sample_meaning [sample_unk]) /\ fits_i32 Normal (lit "abc") /\
  exists l1 l2, sentence_lattice t Normal (lit "abc") = Ok l1 /\ calculate_path_costs_debug (d_matrix (t_dictionary t)) Normal l1 = Ok l2 /\
    map e_path_cost (edges l2) = [0; 9; 13; 8; 10; 6; 111]%Z.
Proof.
  cbv zeta. split; [vm_compute; congruence|]. split; [vm_compute; reflexivity|]. eexists. eexists. split; [vm_compute; reflexivity|]. split; [vm_compute; reflexivity|]. vm_compute. reflexivity.
Qed.

Example C99_ex : let t := sample (Decompose default_penalty) [sample_unk] in let A := sample_meaning [sample_unk] in let text := lit "ab" ++ [10%N] ++ lit "abc" in
  represents t A /\ small_matrix (d_matrix (t_dictionary t)) A /\ sentences text [lit "ab" ++ [10%N]; lit "abc"] /\
  Forall (fits_i32 (t_mode t)) [lit "ab" ++ [10%N]; lit "abc"] /\ Forall (fits_u32 A) [lit "ab" ++ [10%N]; lit "abc"] /\
  tokenize_debug t text = Some (Ok
    [Token (lit "ab") 0 2 0 1 (WordId 1 true); Token [10%N] 2 3 1 1 (WordId u32_max true);
     Token (lit "a") 3 4 2 1 (WordId 0 true); Token (lit "bc") 4 6 3 1 (WordId 0 false)]) /\
  (* a matrix file whose header says -1 columns: the product wraps in a release build *)
  (let damaged := ConnMatrix (i16_bytes 7 ++ i16_bytes 8) 4294967295 in cm_cost damaged 1 1 = Ok 7%Z /\ cm_cost_debug damaged 1 1 = Panic).
Proof.
  cbv zeta. split; [exact (sample_represents _ _ sample_unk_ok)|]. split; [vm_compute; congruence|]. split; [exact (split_sentences (lit "ab" ++ [10%N] ++ lit "abc"))|].
  split; [repeat constructor; vm_compute; reflexivity|]. split; [repeat constructor; vm_compute; congruence|]. split; [vm_compute; reflexivity|].
  split; [vm_compute; reflexivity|]. vm_compute. reflexivity.
Qed.
