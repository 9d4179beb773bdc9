(** A build on a failing disk leaves every file as it was or as a prefix of what the same build writes on a disk that does not fail. *)
From Coq Require Import String.
From Coq Require Import List NArith ZArith Bool Lia ZifyBool ZifyNat ZifyN.
From Verif Require Import MBase MUtf8 MText MCodec MDict MCharDef MUnk MBincode MTokenizer MBuild MConfig MBuilders MDisk MWrite.
From Verif Require Import STok SBuild SMatrix SCharDef SUnk SData SBuilders SWrite LBase LUtf8 LBincode LCharDef LEmbedded LDisk LWrite.
Import ListNotations.
Local Open Scope list_scope.

(** * Writing to a file that was just created *)

Lemma firstn_app_skip {A} n (l r : list A) : firstn n l ++ skipn n l ++ r = l ++ r.
Proof. rewrite app_assoc, firstn_skipn. reflexivity. Qed.

Lemma flush_prefix dk name w f h : at_name w name f h ->
  exists f' h', at_name (fst (flush_buf dk name w)) name f' h' /\ f' ++ h' = f ++ h.
Proof.
  intros AT. pose proof (at_bytes _ _ _ _ AT) as B. destruct AT as [A H]. unfold flush_buf. rewrite H. destruct h as [|b h].
  - exists f, []. split; [split; assumption|reflexivity].
  - unfold file_write. cbv zeta. cbn [fst].
    exists (f ++ firstn (Nat.min (dk_write dk (w_files w) name (b :: h)) (List.length (b :: h))) (b :: h)), (skipn (Nat.min (dk_write dk (w_files w) name (b :: h)) (List.length (b :: h))) (b :: h)).
    split; [split; cbn [w_files w_held]; [rewrite content_of_here, B; reflexivity|apply bytes_here]|].
    rewrite <- app_assoc, firstn_skipn. reflexivity.
Qed.
Lemma buf_write_prefix dk name chunk w f h : at_name w name f h -> small dk h ->
  exists f' h' rest, at_name (fst (buf_write dk name chunk w)) name f' h' /\ f' ++ h' ++ rest = f ++ h ++ chunk.
Proof.
  intros AT SM. destruct (buf_write dk name chunk w) as [w' ok] eqn:E. cbn [fst]. destruct ok.
  { destruct (buf_write_ok _ _ _ _ _ _ _ AT SM E) as (f' & h' & AT' & _ & EQ & _). exists f', h', []. rewrite app_nil_r. auto. }
  revert E. unfold buf_write. cbv zeta. destruct AT as [A H]. rewrite H. unfold small in SM.
  destruct (N.of_nat (List.length chunk) <? dk_capacity dk - N.of_nat (List.length h))%N eqn:L; [discriminate|].
  destruct (dk_capacity dk - N.of_nat (List.length h) <? N.of_nat (List.length chunk))%N eqn:L2.
  - destruct (flush_buf dk name w) as [w1 ok] eqn:F. destruct ok.
    + pose proof (flush_ok dk name w w1 f h (conj A H) F) as AT1. pose proof (at_bytes _ _ _ _ AT1) as B1. destruct AT1 as [A1 H1].
      destruct (dk_capacity dk <=? N.of_nat (List.length chunk))%N eqn:L3; [|discriminate].
      unfold file_write. cbv beta zeta iota. intros E. injection E as <- _. eexists _, [], (skipn _ chunk).
      split; [split; cbn [w_files w_held]; [rewrite content_of_here, B1; reflexivity|exact H1]|].
      cbn [app]. rewrite <- !app_assoc. rewrite firstn_skipn. reflexivity.
    + intros E. injection E as <-. destruct (flush_prefix dk name w f h (conj A H)) as (f' & h' & AT' & EQ). rewrite F in AT'. cbn [fst] in AT'.
      exists f', h', chunk. split; [exact AT'|]. rewrite app_assoc, EQ, <- app_assoc. reflexivity.
  - destruct (dk_capacity dk <=? N.of_nat (List.length chunk))%N eqn:L3; [|discriminate].
    assert (Z : h = []) by (destruct h; [reflexivity|cbn [List.length] in *; lia]). subst h.
    pose proof (at_bytes w name f [] (conj A Z)) as B.
    unfold file_write. cbv beta zeta iota. intros E. injection E as <- _. eexists _, [], (skipn _ chunk).
    split; [split; cbn [w_files w_held]; [rewrite content_of_here, B; reflexivity|exact Z]|].
    rewrite Z. cbn [app]. rewrite <- !app_assoc. rewrite firstn_skipn. reflexivity.
Qed.

Lemma buf_writes_prefix dk name chunks : forall w f h, at_name w name f h -> small dk h ->
  exists f' h' rest, at_name (fst (buf_writes dk name chunks w)) name f' h' /\ f' ++ h' ++ rest = f ++ h ++ concat chunks.
Proof.
  induction chunks as [|c r IH]; intros w f h AT SM; cbn [buf_writes concat].
  - exists f, h, []. split; [exact AT|reflexivity].
  - destruct (buf_write dk name c w) as [w1 ok] eqn:E. destruct ok.
    + destruct (buf_write_ok _ _ _ _ _ _ _ AT SM E) as (f1 & h1 & AT1 & SM1 & C1 & _).
      destruct (IH w1 f1 h1 AT1 SM1) as (f2 & h2 & rest & AT2 & C2). exists f2, h2, rest. split; [exact AT2|].
      rewrite C2, app_assoc, C1, <- !app_assoc. reflexivity.
    + destruct (buf_write_prefix dk name c w f h AT SM) as (f1 & h1 & rest & AT1 & C1). rewrite E in AT1. cbn [fst] in AT1 |- *.
      exists f1, h1, (rest ++ concat r). split; [exact AT1|].
      transitivity ((f1 ++ h1 ++ rest) ++ concat r); [rewrite <- !app_assoc; reflexivity|]. rewrite C1, <- !app_assoc. reflexivity.
Qed.

(** * A failing disk beside one that does not fail, looking at one name *)

Section At.
Variables (dk : disk) (n : str) (c0 : option (list N)).
Hypothesis WP : whole_pieces dk.

Definition both := world -> directory -> Prop.
(* not yet created *)
Definition fresh : both := fun w d => content_of (w_files w) n = c0 /\ bytes_of (w_held w) n = [] /\ content_of d n = c0.
Definition opened : both := fun w d => at_name w n [] [] /\ content_of d n = Some [].
Definition equal : both := fun w d => exists f h, at_name w n f h /\ content_of d n = Some (f ++ h).
(* after a failure: untouched; created in both; a prefix *)
Definition left0 : both := fun w d => content_of (w_files w) n = c0 /\ bytes_of (w_held w) n = [].
Definition left1 : both := fun w d => at_name w n [] [] /\ content_of d n <> None.
Definition left2 : both := fun w d => exists f h rest, at_name w n f h /\ content_of d n = Some (f ++ h ++ rest).
Definition left_any : both := fun w d => left0 w d \/ left1 w d \/ left2 w d.

Definition run {A} (P E : both) (s : wstep A) (q : writer A) (Q : both) : Prop :=
  forall w d, P w d ->
  match snd (s w) with Ok a => snd (q d) = Ok a /\ Q (fst (s w)) (fst (q d)) | _ => E (fst (s w)) (fst (q d)) end.
Definition within (E E' : both) : Prop := forall w d, E w d -> E' w d.
Definition closed {A} (E : both) (q : writer A) : Prop := forall w d, E w d -> E w (fst (q d)).
Definition leaves {A} (q : writer A) : Prop := forall d, content_of (fst (q d)) n = content_of d n.
Definition keeps {A} (q : writer A) : Prop := forall d, content_of d n <> None -> content_of (fst (q d)) n <> None.

Lemma closed_left0 {A} (q : writer A) : closed left0 q.
Proof. intros w d H. exact H. Qed.
Lemma closed_left1 {A} (q : writer A) : keeps q -> closed left1 q.
Proof. intros K w d [H N]. split; [exact H|apply K, N]. Qed.
Lemma closed_left2 {A} (q : writer A) : leaves q -> closed left2 q.
Proof. intros K w d (f & h & rest & H & N). exists f, h, rest. rewrite K. auto. Qed.
Lemma closed_any {A} (q : writer A) : leaves q -> closed left_any q.
Proof.
  intros K w d [H|[H|H]]; [left; exact H|right; left|right; right; exact (closed_left2 q K w d H)].
  refine (closed_left1 q _ w d H). intros d0. rewrite K. auto.
Qed.
Lemma within0 : within left0 left_any. Proof. intros w d H. left. exact H. Qed.
Lemma within1 : within left1 left_any. Proof. intros w d H. right. left. exact H. Qed.
Lemma within2 : within left2 left_any. Proof. intros w d H. right. right. exact H. Qed.
Lemma within_equal : within equal left_any.
Proof. intros w d (f & h & H & C). right. right. exists f, h, []. rewrite app_nil_r. auto. Qed.
Lemma within_refl E : within E E. Proof. intros w d H. exact H. Qed.

Lemma run_next {A B} P E1 E Q R (s : wstep A) q (f : A -> wstep B) g :
  run P E1 s q Q -> (forall a, closed E1 (g a)) -> within E1 E -> (forall a, run Q E (f a) (g a) R) -> run P E (wnext s f) (next q g) R.
Proof.
  intros H K I G w d P0. specialize (H w d P0). unfold wnext, next. destruct (s w) as [w1 [a|er|]]; cbn [fst snd] in H.
  - destruct (q d) as [d1 r]. cbn [fst snd] in H. destruct H as [-> H]. exact (G a w1 d1 H).
  - cbn [fst snd]. apply I. destruct (q d) as [d1 [a|er'|]]; cbn [fst] in H |- *; [apply K|..]; exact H.
  - cbn [fst snd]. apply I. destruct (q d) as [d1 [a|er'|]]; cbn [fst] in H |- *; [apply K|..]; exact H.
Qed.
Lemma run_extra {B} P E1 E Q R (s : wstep unit) (f : unit -> wstep B) q :
  run P E1 s (quiet (Ok tt)) Q -> closed E1 q -> within E1 E -> run Q E (f tt) q R -> run P E (wnext s f) q R.
Proof.
  intros H K I G w d P0. specialize (H w d P0). unfold wnext. cbn [quiet fst snd] in H. destruct (s w) as [w1 [[]|er|]]; cbn [fst snd] in H |- *.
  - apply G, H.
  - apply I, K, H.
  - apply I, K, H.
Qed.
Lemma run_tail P E1 E Q R (s f : wstep unit) q : run P E1 s q Q -> within E1 E -> run Q E f (quiet (Ok tt)) R -> run P E (wnext s (fun _ => f)) q R.
Proof.
  intros H I G w d P0. specialize (H w d P0). unfold wnext. destruct (s w) as [w1 [[]|er|]]; cbn [fst snd] in H |- *.
  - destruct H as [E0 H]. specialize (G w1 (fst (q d)) H). cbn [quiet fst snd] in G. destruct (snd (f w1)) as [[]|er|]; [split; [exact E0|apply G]|exact G|exact G].
  - apply I, H.
  - apply I, H.
Qed.

Definition stable (P : both) : Prop := forall w d w' d', P w d -> same w w' n -> content_of d' n = content_of d n -> P w' d'.
Lemma stable_fresh : stable fresh.
Proof. intros w d w' d' (A & B & C) [D F] G. split; [congruence|]. split; congruence. Qed.
Lemma stable_opened : stable opened.
Proof. intros w d w' d' [A B] S G. split; [exact (at_same _ _ _ _ _ S A)|congruence]. Qed.
Lemma stable_equal : stable equal.
Proof. intros w d w' d' (f & h & A & B) S G. exists f, h. split; [exact (at_same _ _ _ _ _ S A)|congruence]. Qed.
Lemma stable_any : stable left_any.
Proof.
  intros w d w' d' [[A B]|[[A B]|(f & h & rest & A & B)]] S G; [left|right; left|right; right].
  - destruct S as [D F]. split; congruence.
  - split; [exact (at_same _ _ _ _ _ S A)|congruence].
  - exists f, h, rest. split; [exact (at_same _ _ _ _ _ S A)|congruence].
Qed.
Lemma run_frame {A} P E (s : wstep A) q names : stable P -> within P E -> only s names -> ~ In n names -> (forall w d a, snd (s w) = Ok a -> snd (q d) = Ok a) -> leaves q -> run P E s q P.
Proof.
  intros ST I O N M L w d P0. pose proof (ST w d (fst (s w)) (fst (q d)) P0 (O w n N) (L d)) as P1. specialize (M w d).
  destruct (snd (s w)) as [a|er|]; [split; [apply M; reflexivity|exact P1]|apply I, P1|apply I, P1].
Qed.
Lemma mild_value {A} (s : wstep A) q : mild s q -> forall w d a, snd (s w) = Ok a -> snd (q d) = Ok a.
Proof. intros M w d a E. destruct (M w d) as [H|H]; congruence. Qed.

Lemma fresh_left : within fresh left0. Proof. intros w d (A & B & _). split; assumption. Qed.
Lemma opened_left : within opened left1. Proof. intros w d (A & B). split; [exact A|congruence]. Qed.
Lemma equal_left : within equal left2.
Proof. intros w d (f & h & A & B). exists f, h, []. rewrite app_nil_r. auto. Qed.

Lemma run_open : run fresh left0 (open_file dk n) (create n) opened.
Proof.
  intros w d (A & B & _). unfold open_file, create. destruct (dk_create dk (w_files w) n); cbn [fst snd]; [|split; assumption].
  split; [reflexivity|]. split; [split; cbn [w_files w_held]; [apply content_of_here|apply bytes_here]|apply content_of_here].
Qed.
Lemma small_nil : small dk []. Proof. unfold small. cbn. lia. Qed.
Lemma run_put be buffer : run opened left2 (put_bytes dk be n buffer) (save be n buffer) equal.
Proof.
  intros w d [AT C]. unfold put_bytes, save, wnext, next, still, quiet. destruct (written be buffer) as [bytes|er|]; cbn [fst snd];
    [|exists [], [], []; split; [exact AT|exact C]..].
  unfold or_fail. set (chunks := if be_compress be then dk_pieces dk bytes else [bytes]).
  assert (CC : concat chunks = bytes) by (unfold chunks; destruct (be_compress be); [apply WP|cbn; apply app_nil_r]).
  destruct (buf_writes dk n chunks w) as [w1 ok] eqn:E. destruct ok; cbn [fst snd].
  - split; [reflexivity|]. destruct (buf_writes_ok _ _ _ _ _ _ _ AT small_nil E) as (f & h & AT1 & _ & EQ). exists f, h. split; [exact AT1|].
    rewrite content_of_here, EQ. cbn [app]. rewrite CC. reflexivity.
  - destruct (buf_writes_prefix dk n chunks w [] [] AT small_nil) as (f & h & rest & AT1 & EQ). rewrite E in AT1. exists f, h, rest. split; [exact AT1|].
    rewrite content_of_here, EQ. cbn [app]. rewrite CC. reflexivity.
Qed.
Lemma run_writes k bytes : run opened left2 (or_fail k (buf_writes dk n (dk_pieces dk bytes))) (fun d => ((n, bytes) :: d, Ok tt)) equal.
Proof.
  intros w d [AT C]. unfold or_fail. destruct (buf_writes dk n (dk_pieces dk bytes) w) as [w1 ok] eqn:E. destruct ok; cbn [fst snd].
  - split; [reflexivity|]. destruct (buf_writes_ok _ _ _ _ _ _ _ AT small_nil E) as (f & h & AT1 & _ & EQ). exists f, h. split; [exact AT1|].
    rewrite content_of_here, EQ. cbn [app]. rewrite WP. reflexivity.
  - destruct (buf_writes_prefix dk n (dk_pieces dk bytes) w [] [] AT small_nil) as (f & h & rest & AT1 & EQ). rewrite E in AT1. exists f, h, rest. split; [exact AT1|].
    rewrite content_of_here, EQ. cbn [app]. rewrite WP. reflexivity.
Qed.
Lemma run_flush : run equal left2 (flushed dk n) (quiet (Ok tt)) equal.
Proof.
  intros w d (f & h & AT & C). unfold flushed, or_fail. destruct (flush_buf dk n w) as [w1 ok] eqn:E. destruct ok; cbn [fst snd quiet].
  - split; [reflexivity|]. exists (f ++ h), []. rewrite app_nil_r. split; [exact (flush_ok _ _ _ _ _ _ AT E)|exact C].
  - destruct (flush_prefix dk n w f h AT) as (f' & h' & AT1 & EQ). rewrite E in AT1. exists f', h', []. split; [exact AT1|].
    rewrite app_nil_r, EQ. exact C.
Qed.
Lemma drop_left name w d : left_any w d -> left_any (drop_writer dk name w) d.
Proof.
  intros H. destruct (list_eq_dec N.eq_dec name n) as [->|NE]; [|exact (stable_any _ _ _ _ H (drop_same dk name w n NE) eq_refl)].
  destruct H as [[A B]|[[A B]|(f & h & rest & A & B)]].
  - left. unfold drop_writer, set_held, flush_buf. rewrite B. cbn [fst w_files w_held]. split; cbn [w_files w_held]; [exact A|apply bytes_here].
  - right. left. split; [apply drop_empty; exact A|exact B].
  - right. right. destruct (drop_at dk n w f h A) as (m & A1). exists (f ++ firstn m h), [], (skipn m h ++ rest). split; [exact A1|].
    cbn [app]. rewrite <- app_assoc, firstn_app_skip. exact B.
Qed.
Lemma run_scope {A} P names (s : wstep A) q : run P left_any s q left_any -> run P left_any (scope dk names s) q left_any.
Proof.
  intros H w d P0. specialize (H w d P0). unfold scope.
  assert (D : forall w1 d1, left_any w1 d1 -> left_any (fold_left (fun w name => drop_writer dk name w) names w1) d1).
  { clear. induction names as [|m names IH]; intros w1 d1 H; [exact H|]. cbn [fold_left]. apply IH, drop_left, H. }
  destruct (s w) as [w1 [a|er|]]; cbn [fst snd] in *; [split; [apply H|apply D, H]|apply D, H|apply D, H].
Qed.
Lemma run_unwrapping {A} P E Q k (s : wstep A) q : run P E s q Q -> run P E (wunwrapping k s) (unwrapping k q) Q.
Proof.
  intros H w d P0. specialize (H w d P0). unfold wunwrapping, unwrapping. destruct (s w) as [w1 r], (q d) as [d1 r']. cbn [fst snd] in *.
  destruct r as [a|er|]; cbn [unwrapped].
  - destruct H as [-> H]. destruct k; cbn [unwrapped]; auto.
  - destruct k; cbn [unwrapped]; exact H.
  - destruct k; cbn [unwrapped]; exact H.
Qed.
Lemma run_weaken {A} P E E' Q Q' (s : wstep A) q : run P E s q Q -> within E E' -> within Q Q' -> run P E' s q Q'.
Proof.
  intros H I J w d P0. specialize (H w d P0). destruct (snd (s w)); [split; [apply H|apply J, H]|apply I, H|apply I, H].
Qed.

(* writers *)
Lemma leaves_quiet {A} (r : res A) : leaves (quiet r). Proof. intros d. reflexivity. Qed.
Lemma leaves_create name : name <> n -> leaves (create name). Proof. intros N d. apply content_of_other, N. Qed.
Lemma leaves_put name bytes : name <> n -> @leaves unit (fun d => ((name, bytes) :: d, Ok tt)). Proof. intros N d. apply content_of_other, N. Qed.
Lemma leaves_next {A B} (q : writer A) (g : A -> writer B) : leaves q -> (forall a, leaves (g a)) -> leaves (next q g).
Proof. intros H G d. unfold next. specialize (H d). destruct (q d) as [d1 [a|er|]]; cbn [fst] in *; [rewrite G|..]; exact H. Qed.
Lemma leaves_save be name buffer : name <> n -> leaves (save be name buffer).
Proof. intros N. apply leaves_next; [apply leaves_quiet|]. intros bytes. apply leaves_put, N. Qed.
Lemma leaves_unwrapping {A} k (q : writer A) : leaves q -> leaves (unwrapping k q).
Proof. intros H d. unfold unwrapping. specialize (H d). destruct (q d). exact H. Qed.
Lemma keeps_quiet {A} (r : res A) : keeps (quiet r). Proof. intros d H. exact H. Qed.
Lemma keeps_here name bytes d : content_of d n <> None -> content_of ((name, bytes) :: d) n <> None.
Proof.
  intros H. destruct (list_eq_dec N.eq_dec name n) as [->|NE]; [rewrite content_of_here; discriminate|rewrite content_of_other by exact NE; exact H].
Qed.
Lemma keeps_create name : keeps (create name). Proof. intros d H. apply keeps_here, H. Qed.
Lemma keeps_next {A B} (q : writer A) (g : A -> writer B) : keeps q -> (forall a, keeps (g a)) -> keeps (next q g).
Proof. intros H G d N. unfold next. specialize (H d N). destruct (q d) as [d1 [a|er|]]; cbn [fst] in *; [apply G|..]; exact H. Qed.
Lemma keeps_save be name buffer : keeps (save be name buffer).
Proof. apply keeps_next; [apply keeps_quiet|]. intros bytes d H. apply keeps_here, H. Qed.
End At.

Ltac unkept := repeat first
  [ apply keeps_quiet | apply keeps_create | apply keeps_save | apply keeps_next; [|intros]
  | match goal with |- keeps _ (let (_, _) := ?p in _) => destruct p end ].
Ltac unleft := repeat first
  [ apply leaves_quiet | (apply leaves_create; discriminate) | (apply leaves_save; discriminate) | apply leaves_next; [|intros]
  | match goal with |- leaves _ (let (_, _) := ?p in _) => destruct p end ].

Section Files.
Variables (dk : disk) (be : build_env) (k : dictionary_kind) (dir : str) (c0 : option (list N)).
Hypothesis WP : whole_pieces dk.

(* steps that do not look at the name *)
Lemma aside_still {A} n P E (r : res A) : stable n P -> within P E -> run P E (still r) (quiet r) P.
Proof.
  intros S I. apply (run_frame n P E (still r) (quiet r) []); [exact S|exact I|apply only_still|intros []|apply mild_value, mild_still|apply leaves_quiet].
Qed.
Lemma aside_open n m P E : m <> n -> stable n P -> within P E -> run P E (open_file dk m) (create m) P.
Proof.
  intros N S I. apply (run_frame n P E _ _ [m]); [exact S|exact I|apply only_open; left; reflexivity|intros [H|[]]; contradiction|apply mild_value, mild_open|apply leaves_create, N].
Qed.
Lemma aside_put n m buffer P E : m <> n -> stable n P -> within P E -> run P E (put_bytes dk be m buffer) (save be m buffer) P.
Proof.
  intros N S I. apply (run_frame n P E _ _ [m]); [exact S|exact I|apply only_put; left; reflexivity|intros [H|[]]; contradiction|apply mild_value, mild_put|apply leaves_save, N].
Qed.
Lemma aside_flushed n m P E : m <> n -> stable n P -> within P E -> run P E (flushed dk m) (quiet (Ok tt)) P.
Proof.
  intros N S I. apply (run_frame n P E _ _ [m]); [exact S|exact I|apply only_flushed; left; reflexivity|intros [H|[]]; contradiction| |apply leaves_quiet].
  intros w d []. reflexivity.
Qed.

Lemma one_file n buffer :
  run (fresh n c0) (left_any n c0) (wnext (open_file dk n) (fun _ => wnext (put_bytes dk be n buffer) (fun _ => flushed dk n)))
    (next (create n) (fun _ => save be n buffer)) (left_any n c0).
Proof.
  apply (run_next (fresh n c0) (left0 n c0) _ (opened n)); [apply run_open|intros; apply closed_left0|apply within0|intros _].
  apply (run_tail (opened n) (left2 n) _ (equal n)); [apply run_put; exact WP|apply within2|].
  apply (run_weaken _ (left2 n) _ (equal n)); [apply run_flush|apply within2|apply within_equal].
Qed.

Lemma chardef_prefix : run (fresh (lit "char_def.bin") c0) (left_any (lit "char_def.bin") c0) (put_chardef dk be k dir) (write_chardef be k dir) (left_any (lit "char_def.bin") c0).
Proof.
  set (n := lit "char_def.bin"). unfold put_chardef, write_chardef.
  apply (run_next (fresh n c0) (left0 n c0) _ (fresh n c0)); [apply (aside_still n); [apply stable_fresh|apply fresh_left]|intros; apply closed_left0|apply within0|intros text].
  apply (run_next (fresh n c0) (left0 n c0) _ (fresh n c0)); [apply (aside_still n); [apply stable_fresh|apply fresh_left]|intros; apply closed_left0|apply within0|intros cd].
  apply run_scope.
  apply (run_next (fresh n c0) (left0 n c0) _ (opened n)); [apply run_open|intros; apply closed_left0|apply within0|intros _].
  apply (run_next (opened n) (left2 n) _ (equal n)); [apply run_put; exact WP|intros; apply closed_left2, leaves_quiet|apply within2|intros _].
  apply (run_extra (equal n) (left2 n) _ (equal n)); [apply run_flush|apply closed_left2, leaves_quiet|apply within2|].
  apply (run_weaken _ (left2 n) _ (equal n)); [apply (aside_still n); [apply stable_equal|apply equal_left]|apply within2|apply within_equal].
Qed.
Lemma unk_prefix cd : run (fresh (lit "unk.bin") c0) (left_any (lit "unk.bin") c0) (put_unk dk be k dir cd) (write_unk be k dir cd) (left_any (lit "unk.bin") c0).
Proof.
  set (n := lit "unk.bin"). unfold put_unk, write_unk.
  apply (run_next (fresh n c0) (left0 n c0) _ (fresh n c0)); [apply (aside_still n); [apply stable_fresh|apply fresh_left]|intros; apply closed_left0|apply within0|intros text].
  apply (run_next (fresh n c0) (left0 n c0) _ (fresh n c0)); [apply (aside_still n); [apply stable_fresh|apply fresh_left]|intros; apply closed_left0|apply within0|intros u].
  apply run_scope, one_file.
Qed.
Lemma matrix_prefix : run (fresh (lit "matrix.mtx") c0) (left_any (lit "matrix.mtx") c0) (put_matrix dk be k dir) (write_matrix be k dir) (left_any (lit "matrix.mtx") c0).
Proof.
  set (n := lit "matrix.mtx"). unfold put_matrix, write_matrix.
  apply (run_next (fresh n c0) (left0 n c0) _ (fresh n c0)); [apply (aside_still n); [apply stable_fresh|apply fresh_left]|intros; apply closed_left0|apply within0|intros text].
  apply (run_next (fresh n c0) (left0 n c0) _ (fresh n c0)); [apply (aside_still n); [apply stable_fresh|apply fresh_left]|intros; apply closed_left0|apply within0|intros m].
  apply run_scope, one_file.
Qed.

(* the steps of put_dict at the name n: before its creation, between creation and writing, after writing *)
Ltac st0 n := apply (run_next (fresh n c0) (left0 n c0) _ (fresh n c0));
  [first [apply (aside_still n)|apply (aside_open n); [discriminate|..]|apply (aside_put n); [discriminate|..]]; first [apply stable_fresh|apply fresh_left]
  |intros; apply closed_left0|apply within0|intros].
Ltac op n := apply (run_next (fresh n c0) (left0 n c0) _ (opened n)); [apply run_open|intros; apply closed_left0|apply within0|intros].
Ltac st1 n := apply (run_next (opened n) (left1 n) _ (opened n));
  [first [apply (aside_still n)|apply (aside_open n); [discriminate|..]|apply (aside_put n); [discriminate|..]]; first [apply stable_opened|apply opened_left]
  |intros; apply closed_left1; unkept|apply within1|intros].
Ltac fl1 n := apply (run_extra (opened n) (left1 n) _ (opened n));
  [apply (aside_flushed n); [discriminate|apply stable_opened|apply opened_left]|apply closed_left1; unkept|apply within1|].
Ltac pt n := apply (run_next (opened n) (left2 n) _ (equal n)); [apply run_put; exact WP|intros; apply closed_left2; unleft|apply within2|intros].
Ltac st2 n := apply (run_next (equal n) (left2 n) _ (equal n));
  [first [apply (aside_still n)|apply (aside_open n); [discriminate|..]|apply (aside_put n); [discriminate|..]]; first [apply stable_equal|apply equal_left]
  |intros; apply closed_left2; unleft|apply within2|intros].
Ltac fl2 n := apply (run_extra (equal n) (left2 n) _ (equal n));
  [first [apply run_flush|apply (aside_flushed n); [discriminate|apply stable_equal|apply equal_left]]|apply closed_left2; unleft|apply within2|].

Lemma dict_prefix n : In n dict_scope -> run (fresh n c0) (left_any n c0) (put_dict dk be k dir) (write_dict be k dir) (left_any n c0).
Proof.
  intros I. unfold put_dict, write_dict. cbv zeta. st0 n. st0 n. apply run_scope.
  unfold dict_scope in I. cbn [In] in I. destruct I as [<-|[<-|[<-|[<-|[]]]]].
  - set (n := lit "dict.wordsidx"). st0 n. st0 n. st0 n. st0 n. op n. st1 n.
    match goal with |- run _ _ (let (_, _) := ?p in _) _ _ => destruct p as [words index] end. st1 n. pt n. fl2 n. fl2 n. st2 n. st2 n.
    apply (run_tail (equal n) (left2 n) _ (equal n)); [apply (aside_put n); [discriminate|apply stable_equal|apply equal_left]|apply within2|].
    apply (run_weaken _ (left2 n) _ (equal n)); [apply (aside_flushed n); [discriminate|apply stable_equal|apply equal_left]|apply within2|apply within_equal].
  - set (n := lit "dict.words"). st0 n. st0 n. st0 n. op n. st1 n. st1 n.
    match goal with |- run _ _ (let (_, _) := ?p in _) _ _ => destruct p as [words index] end. pt n. st2 n. fl2 n. fl2 n. st2 n. st2 n.
    apply (run_tail (equal n) (left2 n) _ (equal n)); [apply (aside_put n); [discriminate|apply stable_equal|apply equal_left]|apply within2|].
    apply (run_weaken _ (left2 n) _ (equal n)); [apply (aside_flushed n); [discriminate|apply stable_equal|apply equal_left]|apply within2|apply within_equal].
  - set (n := lit "dict.vals"). st0 n. op n. st1 n. st1 n. st1 n. st1 n.
    match goal with |- run _ _ (let (_, _) := ?p in _) _ _ => destruct p as [words index] end. st1 n. st1 n. fl1 n. fl1 n. st1 n. st1 n.
    apply (run_tail (opened n) (left2 n) _ (equal n)); [apply run_put; exact WP|apply within2|].
    apply (run_weaken _ (left2 n) _ (equal n)); [apply run_flush|apply within2|apply within_equal].
  - set (n := lit "dict.da"). op n. st1 n. st1 n. st1 n. st1 n. st1 n.
    match goal with |- run _ _ (let (_, _) := ?p in _) _ _ => destruct p as [words index] end. st1 n. st1 n. fl1 n. fl1 n. st1 n. pt n.
    apply (run_tail (equal n) (left2 n) _ (equal n)); [apply (aside_put n); [discriminate|apply stable_equal|apply equal_left]|apply within2|].
    apply (run_weaken _ (left2 n) _ (equal n)); [apply (aside_flushed n); [discriminate|apply stable_equal|apply equal_left]|apply within2|apply within_equal].
Qed.

(* a part of the build that writes other files *)
Lemma leaves_chardef n : lit "char_def.bin" <> n -> leaves n (write_chardef be k dir).
Proof. intros N. unfold write_chardef. repeat first [apply leaves_quiet|apply leaves_create, N|apply leaves_save, N|apply leaves_next; [|intros]]. Qed.
Lemma leaves_unk n cd : lit "unk.bin" <> n -> leaves n (write_unk be k dir cd).
Proof. intros N. unfold write_unk. repeat first [apply leaves_quiet|apply leaves_create, N|apply leaves_save, N|apply leaves_next; [|intros]]. Qed.
Lemma leaves_matrix n : lit "matrix.mtx" <> n -> leaves n (write_matrix be k dir).
Proof. intros N. unfold write_matrix. repeat first [apply leaves_quiet|apply leaves_create, N|apply leaves_save, N|apply leaves_next; [|intros]]. Qed.
Lemma leaves_dict n : ~ In n dict_scope -> leaves n (write_dict be k dir).
Proof.
  intros N. unfold dict_scope in N. cbn [In] in N. unfold write_dict. cbv zeta.
  repeat first [apply leaves_quiet|apply leaves_create; tauto|apply leaves_save; tauto|apply leaves_next; [|intros]
    |match goal with |- leaves _ (let (_, _) := ?p in _) => destruct p end].
Qed.
Lemma aside {A} n P E (s : wstep A) q names : stable n P -> within P E -> only s names -> ~ In n names -> mild s q -> leaves n q ->
  run P E (wunwrapping k s) (unwrapping k q) P.
Proof. intros S I O N M L. apply run_unwrapping. apply (run_frame n P E s q names S I O N); [apply mild_value, M|exact L]. Qed.
Lemma aside_chardef n P E : lit "char_def.bin" <> n -> stable n P -> within P E -> run P E (wunwrapping k (put_chardef dk be k dir)) (unwrapping k (write_chardef be k dir)) P.
Proof. intros N S I. apply (aside n P E _ _ _ S I (chardef_only dk be k dir)); [intros [X|[]]; contradiction|apply chardef_mild|apply leaves_chardef, N]. Qed.
Lemma aside_unk n cd P E : lit "unk.bin" <> n -> stable n P -> within P E -> run P E (wunwrapping k (put_unk dk be k dir cd)) (unwrapping k (write_unk be k dir cd)) P.
Proof. intros N S I. apply (aside n P E _ _ _ S I (unk_only dk be k dir cd)); [intros [X|[]]; contradiction|apply unk_mild|apply leaves_unk, N]. Qed.
Lemma aside_dict n P E : ~ In n dict_scope -> stable n P -> within P E -> run P E (wunwrapping k (put_dict dk be k dir)) (unwrapping k (write_dict be k dir)) P.
Proof. intros N S I. apply (aside n P E _ _ _ S I (dict_only dk be k dir)); [exact N|apply dict_mild|apply leaves_dict, N]. Qed.
Lemma aside_matrix n P E : lit "matrix.mtx" <> n -> stable n P -> within P E -> run P E (wunwrapping k (put_matrix dk be k dir)) (unwrapping k (write_matrix be k dir)) P.
Proof. intros N S I. apply (aside n P E _ _ _ S I (matrix_only dk be k dir)); [intros [X|[]]; contradiction|apply matrix_mild|apply leaves_matrix, N]. Qed.

Ltac elsewhere := first [discriminate|unfold dict_scope; cbn [In]; intros ?; repeat match goal with H : _ \/ _ |- _ => destruct H end; (discriminate || contradiction)].
Ltac gone := repeat match goal with |- leaves _ (next _ _) => apply leaves_next; [|intros] end; apply leaves_unwrapping;
  first [apply leaves_unk; discriminate|apply leaves_dict; elsewhere|apply leaves_matrix; discriminate].

Lemma dictionary_prefix n : In n dictionary_files -> run (fresh n c0) (left_any n c0) (put_dictionary dk be k dir) (write_dictionary be k dir) (left_any n c0).
Proof.
  intros I. unfold put_dictionary, make_dir.
  apply (run_extra (fresh n c0) (left0 n c0) _ (fresh n c0)); [|apply closed_left0|apply within0|].
  { apply (run_frame n _ _ _ _ []); [apply stable_fresh|apply fresh_left|apply only_still|intros []|intros w d []; reflexivity|apply leaves_quiet]. }
  unfold write_dictionary.
  unfold dictionary_files in I. cbn [map In] in I.
  assert (C : n = lit "char_def.bin" \/ n = lit "unk.bin" \/ In n dict_scope \/ n = lit "matrix.mtx") by (unfold dict_scope; cbn [In]; intuition).
  clear I. destruct C as [->|[->|[I| ->]]].
  - set (n := lit "char_def.bin").
    apply (run_next (fresh n c0) (left_any n c0) _ (left_any n c0)); [apply run_unwrapping, chardef_prefix|intros; apply closed_any; gone|apply within_refl|intros cd].
    apply (run_next (left_any n c0) (left_any n c0) _ (left_any n c0)); [apply (aside_unk n); [discriminate|apply stable_any|apply within_refl]|intros; apply closed_any; gone|apply within_refl|intros _].
    apply (run_next (left_any n c0) (left_any n c0) _ (left_any n c0)); [apply (aside_dict n); [elsewhere|apply stable_any|apply within_refl]|intros; apply closed_any; gone|apply within_refl|intros _].
    apply (aside_matrix n); [discriminate|apply stable_any|apply within_refl].
  - set (n := lit "unk.bin").
    apply (run_next (fresh n c0) (left0 n c0) _ (fresh n c0)); [apply (aside_chardef n); [discriminate|apply stable_fresh|apply fresh_left]|intros; apply closed_left0|apply within0|intros cd].
    apply (run_next (fresh n c0) (left_any n c0) _ (left_any n c0)); [apply run_unwrapping, unk_prefix|intros; apply closed_any; gone|apply within_refl|intros _].
    apply (run_next (left_any n c0) (left_any n c0) _ (left_any n c0)); [apply (aside_dict n); [elsewhere|apply stable_any|apply within_refl]|intros; apply closed_any; gone|apply within_refl|intros _].
    apply (aside_matrix n); [discriminate|apply stable_any|apply within_refl].
  - assert (N : lit "char_def.bin" <> n /\ lit "unk.bin" <> n /\ lit "matrix.mtx" <> n).
    { unfold dict_scope in I. cbn [In] in I. destruct I as [<-|[<-|[<-|[<-|[]]]]]; (split; [discriminate|split; discriminate]). }
    destruct N as (N1 & N2 & N3).
    apply (run_next (fresh n c0) (left0 n c0) _ (fresh n c0)); [apply (aside_chardef n); [exact N1|apply stable_fresh|apply fresh_left]|intros; apply closed_left0|apply within0|intros cd].
    apply (run_next (fresh n c0) (left0 n c0) _ (fresh n c0)); [apply (aside_unk n); [exact N2|apply stable_fresh|apply fresh_left]|intros; apply closed_left0|apply within0|intros _].
    apply (run_next (fresh n c0) (left_any n c0) _ (left_any n c0)); [apply run_unwrapping, dict_prefix, I|intros; apply closed_any, leaves_unwrapping, leaves_matrix, N3|apply within_refl|intros _].
    apply (aside_matrix n); [exact N3|apply stable_any|apply within_refl].
  - set (n := lit "matrix.mtx").
    apply (run_next (fresh n c0) (left0 n c0) _ (fresh n c0)); [apply (aside_chardef n); [discriminate|apply stable_fresh|apply fresh_left]|intros; apply closed_left0|apply within0|intros cd].
    apply (run_next (fresh n c0) (left0 n c0) _ (fresh n c0)); [apply (aside_unk n); [discriminate|apply stable_fresh|apply fresh_left]|intros; apply closed_left0|apply within0|intros _].
    apply (run_next (fresh n c0) (left0 n c0) _ (fresh n c0)); [apply (aside_dict n); [elsewhere|apply stable_fresh|apply fresh_left]|intros; apply closed_left0|apply within0|intros _].
    apply run_unwrapping, matrix_prefix.
Qed.

Lemma user_prefix path name : run (fresh name c0) (left_any name c0) (put_user dk be k path name) (write_user be k path name) (left_any name c0).
Proof.
  set (n := name). unfold put_user, write_user.
  apply (run_next (fresh n c0) (left0 n c0) _ (fresh n c0)); [apply (aside_still n); [apply stable_fresh|apply fresh_left]|intros; apply closed_left0|apply within0|intros bytes].
  apply (run_extra (fresh n c0) (left0 n c0) _ (fresh n c0)); [|apply closed_left0|apply within0|].
  { apply (run_frame n _ _ _ _ []); [apply stable_fresh|apply fresh_left|apply only_still|intros []|intros w d []; reflexivity|apply leaves_quiet]. }
  apply run_scope.
  apply (run_next (fresh n c0) (left0 n c0) _ (opened n)); [apply run_open|intros; apply closed_left0|apply within0|intros _].
  apply (run_tail (opened n) (left2 n) _ (equal n)); [apply run_writes; exact WP|apply within2|].
  apply (run_weaken _ (left2 n) _ (equal n)); [apply run_flush|apply within2|apply within_equal].
Qed.
End Files.

(* what is left, seen from the outside *)
Lemma left_out n c0 w d : left_any n c0 w d ->
  content_of (w_files w) n = c0 \/ exists kept rest, content_of (w_files w) n = Some kept /\ content_of d n = Some (kept ++ rest).
Proof.
  intros [[A _]|[[[A _] B]|(f & h & rest & [A _] & B)]]; [left; exact A|right..].
  - destruct (content_of d n) as [b|] eqn:E; [|contradiction]. exists [], b. split; [exact A|reflexivity].
  - exists f, (h ++ rest). split; [exact A|exact B].
Qed.
Lemma run_out {A} n d (s : wstep A) q : run (fresh n (content_of d n)) (left_any n (content_of d n)) s q (left_any n (content_of d n)) ->
  content_of (fst (put_run s d)) n = content_of d n \/
  exists kept rest, content_of (fst (put_run s d)) n = Some kept /\ content_of (fst (q d)) n = Some (kept ++ rest).
Proof.
  intros H. unfold put_run. specialize (H (World d []) d). destruct (s (World d [])) as [w r]. cbn [fst snd] in *. apply left_out.
  assert (F : fresh n (content_of d n) (World d []) d) by (split; [reflexivity|split; reflexivity]). specialize (H F).
  destruct r; apply H.
Qed.
Lemma put_prefix dk be k dir d name : whole_pieces dk ->
  content_of (fst (put_run (put_dictionary dk be k dir) d)) name = content_of d name \/
  exists kept rest, content_of (fst (put_run (put_dictionary dk be k dir) d)) name = Some kept /\
    content_of (fst (write_dictionary be k dir d)) name = Some (kept ++ rest).
Proof.
  intros WP. destruct (in_dec (list_eq_dec N.eq_dec) name dictionary_files) as [I|N]; [|left; apply put_elsewhere, N].
  apply run_out, dictionary_prefix; assumption.
Qed.
Lemma put_user_prefix dk be k path name d other : whole_pieces dk ->
  content_of (fst (put_run (put_user dk be k path name) d)) other = content_of d other \/
  exists kept rest, content_of (fst (put_run (put_user dk be k path name) d)) other = Some kept /\
    content_of (fst (write_user be k path name d)) other = Some (kept ++ rest).
Proof.
  intros WP. destruct (list_eq_dec N.eq_dec other name) as [->|N]; [|left; apply put_user_elsewhere, N].
  apply run_out, user_prefix; assumption.
Qed.
