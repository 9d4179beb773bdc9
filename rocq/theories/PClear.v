(** Property C96: decisions with a margin; small changes of costs do not change a clear result, and words that are cheap
   enough are used as often as possible.  See /verif/properties.jsonl. *)
From Coq Require Import String List NArith ZArith Bool Lia ZifyBool ZifyNat ZifyN.
From Verif Require Import MBase MUtf8 MText MCodec MDict MCharDef MUnk MLattice MTokenizer STok SRetune SClear LBase LUtf8 LTok LExact LMore LClear XSample XRetune.
Import ListNotations.
Local Open Scope string_scope.
Local Open Scope list_scope.

Theorem C96_clear : forall t A t' A' c conn d text ss, represents t A -> represents t' A' -> retuned c conn A A' ->
  is_search (t_mode t') = is_search (t_mode t) ->
  (forall s k e, valid_str s -> candidate A s k e -> near d (c e) (we_cost e) /\ near d (surface_penalty (t_mode t') k) (surface_penalty (t_mode t) k)) ->
  (forall f b, (f < a_fsize A)%N -> (b < a_bsize A)%N -> near d (conn f b) (a_conn A f b)) ->
  valid_str text -> sentences text ss ->
  Forall (fun s => fits_i32 (t_mode t) s /\ fits_i32 (t_mode t') s /\ clear A (t_mode t) s (slack d s)) ss ->
  tokenize t' text = tokenize t text.
Proof. intros t A t' A' c conn d text ss R. exact (clear_text t A R t' A' c conn d text ss). Qed.
Print Assumptions C96_clear.

Theorem C96_often : forall t A P c d text ss, represents t A -> two_levels P c d A (t_mode t) -> valid_str text -> sentences text ss ->
  Forall (fun s => fits_i32 (t_mode t) s /\ (slack d s < c)%Z) ss ->
  exists ts wss, tokenize t text = Some (Ok ts) /\ tokens_of_words ts (concat wss) /\
    Forall2 (fun s ws => (forall W Act y, searched A (t_mode t) s W Act -> seg W [] s y -> word_count P y <= word_count P ws) /\
                         (is_search (t_mode t) = true -> forall y, segmentation A s y -> word_count P y <= word_count P ws)) ss wss.
Proof. intros t A P c d text ss R. exact (levels_text t A R P c d text ss). Qed.
Print Assumptions C96_often.

(* abc as one word at cost 120, or ab and c at cost 180; every cost may move by two *)
Definition whole (s : Z) : list word := [(lit "abc", sample_entry 0 true s)].
Definition parts (u n : Z) : list word := [(lit "ab", sample_entry 0 false u); (lit "c", tuned_unk n)].

Lemma tuned_candidate s u n k x w e : candidate (tuned_meaning s u n k) x w e -> w <> [] /\
  ((w = lit "abc" /\ e = sample_entry 0 true s) \/ (w = lit "ab" /\ e = sample_entry 0 false u) \/ (e = tuned_unk n /\ no_dict_word (tuned_meaning s u n k) x /\ w = x)).
Proof.
  intros [(N & _ & H)|(c & r & ord & cat & -> & HC & HI & (c' & run & rest & E & -> & G) & U)].
  - split; [exact N|]. cbn [tuned_meaning a_usr a_sys entries_of] in H. destruct (str_eqb (lit "ab") w) eqn:E1; [apply str_eqb_spec in E1; subst w|].
    + destruct H as [[<-|[]]|H]; [auto|]. cbn in H. destruct H.
    + destruct H as [[]|H]. destruct (str_eqb (lit "abc") w) eqn:E2; [apply str_eqb_spec in E2; subst w|destruct H]. destruct H as [<-|[]]. auto.
  - split; [discriminate|]. right. right. destruct U as [<-|[]]. split; [reflexivity|]. destruct HI as [HI|HI]; [discriminate HI|]. split; [exact HI|].
    cbn [tuned_meaning a_group] in G. destruct G as [F L]. destruct rest as [|d rest]; [rewrite app_nil_r in E; symmetry; exact E|].
    exfalso. apply (L d rest eq_refl). assert (cat = 0 /\ ord = 0) as [-> ->]; [|reflexivity].
    unfold has_cat in HC. cbn [tuned_meaning a_cats] in HC. destruct ord as [|[|]]; cbn in HC; try discriminate HC. injection HC as <-. auto.
Qed.
Lemma seg_empty P pre ws : seg P pre [] ws -> ws = [].
Proof. intros G. remember (@nil char) as s eqn:E in G at 1. destruct G as [|pre w e rest ws N H G]; [reflexivity|]. apply app_eq_nil in E as [E _]. destruct (N E). Qed.
Lemma tuned_segments s u n k y : segmentation (tuned_meaning s u n k) (lit "abc") y -> y = whole s \/ y = parts u n.
Proof.
  intros G. inversion G as [|pre w e rest ws N C G' E1 E2]; subst. apply tuned_candidate in C as [_ [[-> ->]|[[-> ->]|(-> & D & E)]]].
  - assert (rest = []) as -> by (destruct rest; [reflexivity|cbn in E2; discriminate E2]). apply seg_empty in G'. subst ws. left. reflexivity.
  - assert (rest = lit "c") as -> by (apply (app_inv_head (lit "ab")); exact E2). right. unfold parts. f_equal.
    inversion G' as [|pre w e rest ws' N' C G2 E3 E4]; subst. apply tuned_candidate in C as [_ [[-> ->]|[[-> ->]|(-> & D & E)]]]; try discriminate E4.
    rewrite <- (app_nil_r w) in E at 1. apply app_inv_head in E. subst rest. rewrite app_nil_r in E4. subst w. apply seg_empty in G2. subst ws'. reflexivity.
  - exfalso. apply (D (lit "abc") (sample_entry 0 true s)). rewrite E2. split; [discriminate|]. split; [exists []; reflexivity|]. right. left. reflexivity.
Qed.

Lemma tuned_clear : clear (tuned_meaning 100 100 50 10) Normal (lit "abc") 50.
Proof.
  intros W Act x y SR H G N.
  assert (G0 : seg W [] (lit "abc") (whole 100)).
  { change (lit "abc") with (lit "abc" ++ []). constructor; [discriminate| |constructor]. apply (srch_words _ _ _ _ _ SR). split; [reflexivity|]. split; [constructor|].
    left. split; [discriminate|]. split; [exists []; reflexivity|]. right. left. reflexivity. }
  assert (K : forall z, seg W [] (lit "abc") z -> z = whole 100 \/ z = parts 100 50).
  { intros z Z. apply (tuned_segments 100 100 50 10). revert Z. apply seg_mono. intros pre r k e. apply (searched_candidate _ _ _ _ _ _ _ _ _ SR). }
  assert (F : fits_i32 Normal (lit "abc")) by (unfold fits_i32; vm_compute; reflexivity).
  destruct (best_of _ _ _ _ _ _ _ H F SR G0) as [GX L].
  destruct (K x GX) as [->| ->]; [|vm_compute in L; congruence]. destruct (K y G) as [->| ->]; [congruence|vm_compute; reflexivity].
Qed.

Lemma tuned_near : tuned_fine 102 99 51 8. Proof. fine. Qed.
Lemma tuned_cheap : tuned_fine 1 (-1000) 2 0. Proof. fine. Qed.
Definition moved (e : word_entry) : Z := if N.eqb (wid (we_id e)) 0 then (if wsys (we_id e) then we_cost e + 2 else we_cost e - 1)%Z else (we_cost e + 1)%Z.
Definition user_words (w : word_id) : bool := negb (wsys w).
Example C96_ex :
  sentences (lit "abc") [lit "abc"] /\ fits_i32 Normal (lit "abc") /\
  represents (tuned 100 100 50 10 Normal) (tuned_meaning 100 100 50 10) /\ represents (tuned 102 99 51 8 Normal) (tuned_meaning 102 99 51 8) /\
  retuned moved (fun _ _ => 8%Z) (tuned_meaning 100 100 50 10) (tuned_meaning 102 99 51 8) /\
  (forall e, near 2 (moved e) (we_cost e)) /\ near 2 8 10 /\
  clear (tuned_meaning 100 100 50 10) Normal (lit "abc") (slack 2 (lit "abc")) /\
  represents (tuned 1 (-1000) 2 0 Normal) (tuned_meaning 1 (-1000) 2 0) /\ two_levels user_words 1000 2 (tuned_meaning 1 (-1000) 2 0) Normal /\ (slack 2 (lit "abc") < 1000)%Z /\
  tokenize (tuned 102 99 51 8 Normal) (lit "abc") = Some (Ok [Token (lit "abc") 0 3 0 1 (WordId 0 true)]) /\
  tokenize (tuned 1 (-1000) 2 0 Normal) (lit "abc") = Some (Ok [Token (lit "ab") 0 2 0 1 (WordId 0 false); Token (lit "c") 2 3 1 1 (WordId u32_max true)]) /\
  word_count user_words (parts (-1000) 2) = 1 /\ word_count user_words (whole 1) = 0.
Proof.
  split; [apply (split_sentences (lit "abc"))|]. split; [unfold fits_i32; vm_compute; reflexivity|].
  split; [apply tuned_represents, tuned_base|]. split; [apply tuned_represents, tuned_near|]. split; [apply tuned_retuned; reflexivity|].
  split. { intros e. unfold near, moved. destruct (wid (we_id e) =? 0)%N; [destruct (wsys (we_id e))|]; lia. }
  split; [unfold near; lia|]. split. { intros W Act x y SR H G N. pose proof (tuned_clear W Act x y SR H G N) as C. change (slack 2 (lit "abc")) with 40%Z. lia. }
  split; [apply tuned_represents, tuned_cheap|]. split.
  { split; [|intros f b _ _; unfold near; cbn; lia]. intros s k e _ C. apply tuned_candidate in C as [_ [[-> ->]|[[-> ->]|(-> & _)]]]; unfold near; cbn; lia. }
  split; [reflexivity|]. do 3 (split; [vm_compute; reflexivity|]). vm_compute. reflexivity.
Qed.
