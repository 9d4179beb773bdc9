(** Lemmas about builds on a disk where creating and writing files can fail. *)
From Coq Require Import String.
From Coq Require Import List NArith ZArith Bool Lia ZifyBool ZifyNat ZifyN.
From Verif Require Import MBase MUtf8 MText MCodec MDict MCharDef MUnk MBincode MTokenizer MBuild MConfig MBuilders MDisk MWrite.
From Verif Require Import STok SBuild SMatrix SCharDef SUnk SData SBuilders SWrite LBase LUtf8 LBincode LCharDef LEmbedded LDisk.
Import ListNotations.
Local Open Scope list_scope.

Lemma bytes_here name b d : bytes_of ((name, b) :: d) name = b.
Proof. unfold bytes_of. rewrite content_of_here. reflexivity. Qed.
Lemma bytes_other name n b d : n <> name -> bytes_of ((n, b) :: d) name = bytes_of d name.
Proof. intros H. unfold bytes_of. rewrite content_of_other by exact H. reflexivity. Qed.

(** * What steps leave alone *)

Definition same (w w' : world) (name : str) : Prop :=
  content_of (w_files w') name = content_of (w_files w) name /\ bytes_of (w_held w') name = bytes_of (w_held w) name.
Lemma same_refl w name : same w w name.
Proof. split; reflexivity. Qed.
Lemma same_trans w w1 w2 name : same w w1 name -> same w1 w2 name -> same w w2 name.
Proof. intros [A B] [C D]. split; congruence. Qed.

Lemma flush_buf_same dk name w other : name <> other -> same w (fst (flush_buf dk name w)) other.
Proof.
  intros H. unfold flush_buf. destruct (bytes_of (w_held w) name) as [|b held] eqn:E; [apply same_refl|].
  unfold file_write. cbn [fst]. split; cbn [w_files w_held]; [apply content_of_other|apply bytes_other]; exact H.
Qed.
Lemma buf_write_same dk name chunk w other : name <> other -> same w (fst (buf_write dk name chunk w)) other.
Proof.
  intros H. unfold buf_write, set_held, file_write. cbv zeta.
  destruct (_ <? _)%N; [cbn [fst]; split; cbn [w_files w_held]; [reflexivity|apply bytes_other; exact H]|].
  destruct (if (_ <? _)%N then flush_buf dk name w else (w, true)) as [w1 ok] eqn:E.
  assert (S1 : same w w1 other).
  { destruct (_ <? _)%N in E; [|injection E as <- <-; apply same_refl]. pose proof (flush_buf_same dk name w other H) as F. rewrite E in F. exact F. }
  destruct ok; [|exact S1]. apply (same_trans _ _ _ _ S1).
  destruct (_ <=? _)%N; cbn [fst]; split; cbn [w_files w_held]; try reflexivity; [apply content_of_other|apply bytes_other]; exact H.
Qed.
Lemma buf_writes_same dk name chunks other : name <> other -> forall w, same w (fst (buf_writes dk name chunks w)) other.
Proof.
  intros H. induction chunks as [|c r IH]; intros w; [apply same_refl|]. cbn [buf_writes].
  pose proof (buf_write_same dk name c w other H) as S1. destruct (buf_write dk name c w) as [w1 ok]. cbn [fst] in S1.
  destruct ok; [|exact S1]. exact (same_trans _ _ _ _ S1 (IH w1)).
Qed.

Definition only {A} (s : wstep A) (names : list str) : Prop := forall w other, ~ In other names -> same w (fst (s w)) other.

Lemma only_still {A} (r : res A) names : only (still r) names.
Proof. intros w other _. apply same_refl. Qed.
Lemma only_next {A B} (s : wstep A) (f : A -> wstep B) names : only s names -> (forall a, only (f a) names) -> only (wnext s f) names.
Proof.
  intros H G w other N. unfold wnext. specialize (H w other N). destruct (s w) as [w1 [a|er|]]; cbn [fst] in H |- *; try exact H.
  exact (same_trans _ _ _ _ H (G a w1 other N)).
Qed.
Lemma only_fail k s name names : In name names -> (forall w other, name <> other -> same w (fst (s w)) other) -> only (or_fail k s) names.
Proof.
  intros I H w other N. unfold or_fail. assert (M : name <> other) by congruence. specialize (H w other M). destruct (s w) as [w1 ok]. exact H.
Qed.
Lemma only_open dk name names : In name names -> only (open_file dk name) names.
Proof.
  intros I w other N. unfold open_file. assert (M : name <> other) by congruence.
  destruct (dk_create dk (w_files w) name); cbn [fst]; [|apply same_refl].
  split; cbn [w_files w_held]; [apply content_of_other|apply bytes_other]; exact M.
Qed.
Lemma only_put dk be name buffer names : In name names -> only (put_bytes dk be name buffer) names.
Proof.
  intros I. apply only_next; [apply only_still|]. intros bytes. apply (only_fail _ _ name); [exact I|].
  intros w other M. apply buf_writes_same. exact M.
Qed.
Lemma only_flushed dk name names : In name names -> only (flushed dk name) names.
Proof. intros I. apply (only_fail _ _ name); [exact I|]. intros w other M. apply flush_buf_same. exact M. Qed.
Lemma drop_same dk name w other : name <> other -> same w (drop_writer dk name w) other.
Proof.
  intros M. unfold drop_writer, set_held. destruct (flush_buf_same dk name w other M) as [A B].
  split; cbn [w_files w_held]; [exact A|]. rewrite bytes_other by exact M. exact B.
Qed.
Lemma drops_same dk names other : ~ In other names -> forall w, same w (fold_left (fun w name => drop_writer dk name w) names w) other.
Proof.
  induction names as [|n names IH]; intros H w; [apply same_refl|]. cbn [fold_left].
  refine (same_trans _ _ _ _ (drop_same dk n w other _) (IH _ _)); [intros ->; apply H; left; reflexivity|intros I; apply H; right; exact I].
Qed.
Lemma only_scope {A} dk names' (s : wstep A) names : incl names' names -> only s names -> only (scope dk names' s) names.
Proof.
  intros I H w other N. unfold scope. specialize (H w other N). destruct (s w) as [w1 r]. cbn [fst] in *.
  apply (same_trans _ _ _ _ H). apply drops_same. intros X. apply N, I, X.
Qed.
Lemma only_unwrapping {A} k (s : wstep A) names : only s names -> only (wunwrapping k s) names.
Proof. intros H w other N. unfold wunwrapping. specialize (H w other N). destruct (s w) as [w1 r]. exact H. Qed.
Lemma only_more {A} (s : wstep A) names names' : incl names names' -> only s names -> only s names'.
Proof. intros I H w other N. apply H. intros X. apply N, I, X. Qed.

Ltac frame := first
  [ apply only_still | apply only_open | apply only_put | apply only_flushed | apply only_next
  | apply only_scope | apply only_unwrapping ].
Ltac framed := repeat (frame; intros); try (cbn [In]; tauto); try (intros ? ?; cbn [In] in *; tauto).

Lemma chardef_only dk be k dir : only (put_chardef dk be k dir) [lit "char_def.bin"].
Proof. unfold put_chardef. framed. Qed.
Lemma unk_only dk be k dir cd : only (put_unk dk be k dir cd) [lit "unk.bin"].
Proof. unfold put_unk. framed. Qed.
Definition dict_scope : list str := [lit "dict.wordsidx"; lit "dict.words"; lit "dict.vals"; lit "dict.da"].
Lemma dict_only dk be k dir : only (put_dict dk be k dir) dict_scope.
Proof.
  unfold put_dict, dict_scope. cbv zeta. do 2 (apply only_next; [apply only_still|intros]).
  apply only_scope; [apply incl_refl|]. repeat (frame; intros); try (cbn [In]; tauto).
  match goal with |- only (let (_, _) := ?p in _) _ => destruct p as [words index] end. framed.
Qed.
Lemma matrix_only dk be k dir : only (put_matrix dk be k dir) [lit "matrix.mtx"].
Proof. unfold put_matrix. framed. Qed.
Lemma dictionary_only dk be k dir : only (put_dictionary dk be k dir) dictionary_files.
Proof.
  unfold put_dictionary, dictionary_files. apply only_next; [apply only_still|intros _].
  apply only_next; [apply only_unwrapping; refine (only_more _ _ _ _ (chardef_only dk be k dir)); intros x; cbn [map In]; tauto|intros cd].
  apply only_next; [apply only_unwrapping; refine (only_more _ _ _ _ (unk_only dk be k dir cd)); intros x; cbn [map In]; tauto|intros _].
  apply only_next; [apply only_unwrapping; refine (only_more _ _ _ _ (dict_only dk be k dir)); intros x; unfold dict_scope; cbn [map In]; tauto|intros _].
  apply only_unwrapping; refine (only_more _ _ _ _ (matrix_only dk be k dir)); intros x; cbn [map In]; tauto.
Qed.
Lemma user_only dk be k path name : only (put_user dk be k path name) [name].
Proof.
  unfold put_user. do 2 (apply only_next; [apply only_still|intros]). apply only_scope; [apply incl_refl|].
  apply only_next; [apply only_open; left; reflexivity|intros]. apply only_next; [|intros; apply only_flushed; left; reflexivity].
  apply (only_fail _ _ name); [left; reflexivity|]. intros w other M. apply buf_writes_same. exact M.
Qed.

(** * The outcome *)

Definition mild {A} (s : wstep A) (q : writer A) : Prop := forall w d, snd (s w) = snd (q d) \/ snd (s w) = Err EIo.

Lemma mild_still {A} (r : res A) : mild (still r) (quiet r).
Proof. intros w d. left. reflexivity. Qed.
Lemma mild_next {A B} (s : wstep A) q (f : A -> wstep B) g : mild s q -> (forall a, mild (f a) (g a)) -> mild (wnext s f) (next q g).
Proof.
  intros H G w d. unfold wnext, next. destruct (H w d) as [E|E].
  - destruct (s w) as [w1 [a|er|]], (q d) as [d1 r]; cbn [snd] in E; subst r; [apply G|left; reflexivity|left; reflexivity].
  - destruct (s w) as [w1 r]. cbn [snd] in E. subst r. right. reflexivity.
Qed.
Definition safe (s : wstep unit) : Prop := forall w, snd (s w) = Ok tt \/ snd (s w) = Err EIo.
Lemma safe_fail s : safe (or_fail EIo s).
Proof. intros w. unfold or_fail. destruct (s w) as [w1 []]; [left|right]; reflexivity. Qed.
Lemma mild_extra {B} (s : wstep unit) (f : unit -> wstep B) q : safe s -> mild (f tt) q -> mild (wnext s f) q.
Proof.
  intros H G w d. unfold wnext. specialize (H w). destruct (s w) as [w1 r]. cbn [snd] in H. destruct H as [->| ->]; [apply G|right; reflexivity].
Qed.
Lemma mild_tail (s f : wstep unit) q : safe f -> mild s q -> mild (wnext s (fun _ => f)) q.
Proof.
  intros F H w d. unfold wnext. specialize (H w d). destruct (s w) as [w1 [[]|er|]]; cbn [snd] in *; try exact H.
  destruct H as [H|H]; [|discriminate]. destruct (F w1) as [->| ->]; [left; exact H|right; reflexivity].
Qed.
Lemma mild_open dk name : mild (open_file dk name) (create name).
Proof. intros w d. unfold open_file. destruct (dk_create dk (w_files w) name); [left|right]; reflexivity. Qed.
Lemma mild_put dk be name buffer : mild (put_bytes dk be name buffer) (save be name buffer).
Proof.
  unfold put_bytes, save. apply mild_next; [apply mild_still|]. intros bytes w d. cbn [snd].
  exact (safe_fail (buf_writes dk name (if be_compress be then dk_pieces dk bytes else [bytes])) w).
Qed.
Lemma safe_flushed dk name : safe (flushed dk name).
Proof. apply safe_fail. Qed.
Lemma mild_scope {A} dk names (s : wstep A) q : mild s q -> mild (scope dk names s) q.
Proof. intros H w d. unfold scope. specialize (H w d). destruct (s w) as [w1 r]. exact H. Qed.

Lemma chardef_mild dk be k dir : mild (put_chardef dk be k dir) (write_chardef be k dir).
Proof.
  unfold put_chardef, write_chardef. do 2 (apply mild_next; [apply mild_still|intros]). apply mild_scope.
  apply mild_next; [apply mild_open|intros]. apply mild_next; [apply mild_put|intros].
  apply mild_extra; [apply safe_flushed|apply mild_still].
Qed.
Lemma unk_mild dk be k dir cd : mild (put_unk dk be k dir cd) (write_unk be k dir cd).
Proof.
  unfold put_unk, write_unk. do 2 (apply mild_next; [apply mild_still|intros]). apply mild_scope.
  apply mild_next; [apply mild_open|intros]. apply mild_tail; [apply safe_flushed|apply mild_put].
Qed.
Lemma dict_mild dk be k dir : mild (put_dict dk be k dir) (write_dict be k dir).
Proof.
  unfold put_dict, write_dict. cbv zeta. do 2 (apply mild_next; [apply mild_still|intros]). apply mild_scope.
  do 2 (apply mild_next; [apply mild_open|intros]). apply mild_next; [apply mild_still|intros].
  do 2 (apply mild_next; [apply mild_open|intros]). apply mild_next; [apply mild_still|]. intros [words index].
  do 2 (apply mild_next; [apply mild_put|intros]). do 2 (apply mild_extra; [apply safe_flushed|]).
  apply mild_next; [apply mild_still|intros]. apply mild_next; [apply mild_put|intros].
  apply mild_tail; [apply safe_flushed|apply mild_put].
Qed.
Lemma matrix_mild dk be k dir : mild (put_matrix dk be k dir) (write_matrix be k dir).
Proof.
  unfold put_matrix, write_matrix. do 2 (apply mild_next; [apply mild_still|intros]). apply mild_scope.
  apply mild_next; [apply mild_open|intros]. apply mild_tail; [apply safe_flushed|apply mild_put].
Qed.

(* with the unwrapping of two of the builders *)
Definition fault_of (k : dictionary_kind) {A} (r : res A) : Prop := r = Err EIo \/ (k = KoDic \/ k = CcCedict) /\ r = Panic.
Definition mildk {A} (k : dictionary_kind) (s : wstep A) (q : writer A) : Prop := forall w d, snd (s w) = snd (q d) \/ fault_of k (snd (s w)).
Lemma mildk_unwrapping {A} k (s : wstep A) q : mild s q -> mildk k (wunwrapping k s) (unwrapping k q).
Proof.
  intros H w d. unfold wunwrapping, unwrapping. specialize (H w d). destruct (s w) as [w1 r], (q d) as [d1 r']. cbn [snd] in *.
  destruct H as [->| ->]; [left; reflexivity|right]. unfold fault_of. destruct k; cbn [unwrapped]; auto.
Qed.
Lemma mildk_next {A B} k (s : wstep A) q (f : A -> wstep B) g : mildk k s q -> (forall a, mildk k (f a) (g a)) -> mildk k (wnext s f) (next q g).
Proof.
  intros H G w d. unfold wnext, next. destruct (H w d) as [E|E].
  - destruct (s w) as [w1 [a|er|]], (q d) as [d1 r]; cbn [snd] in E; subst r; [apply G|left; reflexivity|left; reflexivity].
  - destruct (s w) as [w1 r]. cbn [snd] in E. right. unfold fault_of in *. destruct E as [->|[K ->]]; [left; reflexivity|right; split; [exact K|reflexivity]].
Qed.
Lemma dictionary_mild dk be k dir : mildk k (put_dictionary dk be k dir) (write_dictionary be k dir).
Proof.
  intros w d. unfold put_dictionary, make_dir, wnext at 1, still. destruct (dk_mkdir dk); [|right; left; reflexivity]. revert w d.
  change (mildk k (fun w => (and cd <- wunwrapping k (put_chardef dk be k dir);
    and u <- wunwrapping k (put_unk dk be k dir cd); and u <- wunwrapping k (put_dict dk be k dir); wunwrapping k (put_matrix dk be k dir)) w) (write_dictionary be k dir)).
  unfold write_dictionary. apply mildk_next; [apply mildk_unwrapping, chardef_mild|intros cd].
  apply mildk_next; [apply mildk_unwrapping, unk_mild|intros _]. apply mildk_next; [apply mildk_unwrapping, dict_mild|intros _].
  apply mildk_unwrapping, matrix_mild.
Qed.

Lemma put_outcome dk be k dir d : let r := snd (put_run (put_dictionary dk be k dir) d) in
  r = snd (write_dictionary be k dir d) \/ r = Err EIo \/ (k = KoDic \/ k = CcCedict) /\ r = Panic.
Proof.
  cbv zeta. unfold put_run. pose proof (dictionary_mild dk be k dir (World d []) d) as H. destruct (put_dictionary dk be k dir (World d [])) as [w r]. exact H.
Qed.

(** * After success *)

Definition at_name (w : world) (name : str) (f h : list N) : Prop := content_of (w_files w) name = Some f /\ bytes_of (w_held w) name = h.
Lemma at_same w w' name f h : same w w' name -> at_name w name f h -> at_name w' name f h.
Proof. intros [A B] [C D]. split; congruence. Qed.
Lemma at_bytes w name f h : at_name w name f h -> bytes_of (w_files w) name = f.
Proof. intros [A _]. unfold bytes_of. rewrite A. reflexivity. Qed.

Lemma wnext_ok {A B} (s : wstep A) (f : A -> wstep B) w w' b : wnext s f w = (w', Ok b) -> exists w1 a, s w = (w1, Ok a) /\ f a w1 = (w', Ok b).
Proof. unfold wnext. destruct (s w) as [w1 [a|er|]]; intros H; [eauto|discriminate|discriminate]. Qed.
Lemma still_ok {A} (r : res A) w w' a : still r w = (w', Ok a) -> w' = w /\ r = Ok a.
Proof. unfold still. intros H. injection H as <- <-. auto. Qed.

Definition small (dk : disk) (h : list N) : Prop := (N.of_nat (List.length h) <= dk_capacity dk)%N.

Lemma file_write_ok dk name bytes d d' n : file_write dk name bytes d = (d', n) -> Nat.eqb n (List.length bytes) = true ->
  d' = (name, bytes_of d name ++ bytes) :: d.
Proof. unfold file_write. cbv zeta. intros H E. injection H as <- <-. rewrite firstn_all2; [reflexivity|lia]. Qed.
Lemma flush_ok dk name w w' f h : at_name w name f h -> flush_buf dk name w = (w', true) -> at_name w' name (f ++ h) [].
Proof.
  intros AT. pose proof (at_bytes _ _ _ _ AT) as B. destruct AT as [A H]. unfold flush_buf. rewrite H. destruct h as [|b h].
  - intros E. injection E as <-. rewrite app_nil_r. split; assumption.
  - destruct (file_write dk name (b :: h) (w_files w)) as [d n] eqn:F. intros E. injection E as <- E.
    rewrite (file_write_ok _ _ _ _ _ _ F E). split; cbn [w_files w_held]; [rewrite content_of_here, B; reflexivity|].
    rewrite bytes_here. apply skipn_all2. cbn [List.length] in *. lia.
Qed.
Lemma buf_write_ok dk name chunk w w' f h : at_name w name f h -> small dk h -> buf_write dk name chunk w = (w', true) ->
  exists f' h', at_name w' name f' h' /\ small dk h' /\ f' ++ h' = f ++ h ++ chunk /\ (h = [] -> (dk_capacity dk <= N.of_nat (List.length chunk))%N -> h' = []).
Proof.
  intros AT SM. unfold buf_write. cbv zeta. destruct AT as [A H]. rewrite H. unfold small in *.
  destruct (_ <? _)%N eqn:L.
  - intros E. injection E as <-. exists f, (h ++ chunk). unfold set_held. split; [split; cbn [w_files w_held]; [exact A|apply bytes_here]|].
    rewrite app_length. split; [lia|]. split; [reflexivity|]. intros -> C. exfalso. cbn [List.length] in L. lia.
  - destruct (if (dk_capacity dk - N.of_nat (List.length h) <? N.of_nat (List.length chunk))%N then flush_buf dk name w else (w, true)) as [w1 ok] eqn:F.
    destruct ok; [|discriminate].
    assert (X : (exists f1 h1, at_name w1 name f1 h1 /\ f1 ++ h1 = f ++ h /\ (h1 = [] \/
       h1 = h /\ (dk_capacity dk - N.of_nat (List.length h) = N.of_nat (List.length chunk))%N))).
    { destruct (_ <? _)%N eqn:L2 in F.
      - exists (f ++ h), []. split; [exact (flush_ok dk name w w1 f h (conj A H) F)|]. split; [apply app_nil_r|left; reflexivity].
      - injection F as <-. exists f, h. split; [split; assumption|]. split; [reflexivity|right]. split; [reflexivity|lia]. }
    destruct X as (f1 & h1 & AT1 & E1 & C1). pose proof (at_bytes _ _ _ _ AT1) as B1. destruct AT1 as [A1 H1].
    destruct (_ <=? _)%N eqn:L3.
    + destruct (file_write dk name chunk (w_files w1)) as [d n] eqn:FW. intros E. injection E as <- E.
      rewrite (file_write_ok _ _ _ _ _ _ FW E). exists (f1 ++ chunk), h1. rewrite B1.
      assert (Z : h1 = []) by (destruct C1 as [C1|[-> C1]]; [exact C1|]; destruct h; [reflexivity|cbn [List.length] in *; lia]).
      rewrite Z in E1, H1 |- *. rewrite app_nil_r in E1. rewrite E1. split; [split; cbn [w_files w_held]; [apply content_of_here|exact H1]|].
      split; [cbn; lia|]. rewrite app_nil_r, <- app_assoc. split; reflexivity.
    + intros E. injection E as <-. exists f1, (h1 ++ chunk). rewrite H1. unfold set_held.
      split; [split; cbn [w_files w_held]; [exact A1|apply bytes_here]|]. rewrite app_length.
      split; [destruct C1 as [->|[-> C1]]; cbn [List.length]; lia|]. rewrite app_assoc, E1, <- app_assoc. split; [reflexivity|].
      intros _ C. exfalso. lia.
Qed.
Lemma buf_writes_ok dk name chunks : forall w w' f h, at_name w name f h -> small dk h -> buf_writes dk name chunks w = (w', true) ->
  exists f' h', at_name w' name f' h' /\ small dk h' /\ f' ++ h' = f ++ h ++ concat chunks.
Proof.
  induction chunks as [|c r IH]; intros w w' f h AT SM E; cbn [buf_writes concat] in *.
  - injection E as <-. exists f, h. rewrite app_nil_r. auto.
  - destruct (buf_write dk name c w) as [w1 ok] eqn:E1. destruct ok; [|discriminate].
    destruct (buf_write_ok dk name c w w1 f h AT SM E1) as (f1 & h1 & AT1 & SM1 & C1 & _).
    destruct (IH w1 w' f1 h1 AT1 SM1 E) as (f2 & h2 & AT2 & SM2 & C2). exists f2, h2. split; [exact AT2|]. split; [exact SM2|].
    rewrite C2, app_assoc, C1, <- !app_assoc. reflexivity.
Qed.

Lemma or_fail_ok k s w w' : or_fail k s w = (w', Ok tt) -> s w = (w', true).
Proof. unfold or_fail. destruct (s w) as [w1 []]; intros H; [injection H as <-; reflexivity|discriminate]. Qed.
Lemma flushed_ok dk name w w' f h : at_name w name f h -> flushed dk name w = (w', Ok tt) -> at_name w' name (f ++ h) [].
Proof. intros AT H. apply or_fail_ok in H. exact (flush_ok _ _ _ _ _ _ AT H). Qed.
Lemma open_ok dk name w w' : open_file dk name w = (w', Ok tt) -> at_name w' name [] [].
Proof.
  unfold open_file. destruct (dk_create dk (w_files w) name); intros H; [|discriminate]. injection H as <-.
  split; cbn [w_files w_held]; [apply content_of_here|apply bytes_here].
Qed.
Lemma put_ok dk be name buffer w w' : whole_pieces dk -> at_name w name [] [] -> put_bytes dk be name buffer w = (w', Ok tt) ->
  exists bytes f h, written be buffer = Ok bytes /\ at_name w' name f h /\ small dk h /\ f ++ h = bytes /\
    (be_compress be = false -> (dk_capacity dk <= N.of_nat (List.length bytes))%N -> h = []).
Proof.
  intros WP AT H. unfold put_bytes in H. apply wnext_ok in H. destruct H as (w1 & bytes & E & H). apply still_ok in E. destruct E as [-> E].
  apply or_fail_ok in H.
  assert (S0 : small dk []) by (unfold small; cbn; lia).
  destruct (be_compress be) eqn:C.
  - destruct (buf_writes_ok _ _ _ _ _ _ _ AT S0 H) as (f & h & AT1 & SM & EQ). exists bytes, f, h.
    split; [exact E|]. split; [exact AT1|]. split; [exact SM|]. split; [rewrite EQ; cbn [app]; apply WP|discriminate].
  - cbn [buf_writes] in H. destruct (buf_write dk name bytes w) as [w2 ok] eqn:E2. destruct ok; [|discriminate]. injection H as <-.
    destruct (buf_write_ok _ _ _ _ _ _ _ AT S0 E2) as (f & h & AT1 & SM & EQ & D). exists bytes, f, h.
    split; [exact E|]. split; [exact AT1|]. split; [exact SM|]. split; [exact EQ|]. intros _ L. apply D; [reflexivity|exact L].
Qed.
Lemma step_same {A} (s : wstep A) names w w' r name : only s names -> ~ In name names -> s w = (w', r) -> same w w' name.
Proof. intros O N E. specialize (O w name N). rewrite E in O. exact O. Qed.

(* dropping *)
Lemma drop_at dk name w f h : at_name w name f h -> exists n, at_name (drop_writer dk name w) name (f ++ firstn n h) [].
Proof.
  intros AT. pose proof (at_bytes _ _ _ _ AT) as B. destruct AT as [A H]. unfold drop_writer, set_held, flush_buf. rewrite H. destruct h as [|b h].
  - exists 0. cbn [fst firstn w_files w_held]. rewrite app_nil_r. split; cbn [w_files w_held]; [exact A|apply bytes_here].
  - unfold file_write. cbv zeta. cbn [fst w_files w_held]. eexists. split; cbn [w_files w_held]; [rewrite content_of_here, B; reflexivity|apply bytes_here].
Qed.
Lemma drop_empty dk name w f : at_name w name f [] -> at_name (drop_writer dk name w) name f [].
Proof. intros AT. destruct (drop_at dk name w f [] AT) as (n & H). rewrite firstn_nil, app_nil_r in H. exact H. Qed.
Lemma drops_empty dk names f name : forall w, at_name w name f [] -> at_name (fold_left (fun w name => drop_writer dk name w) names w) name f [].
Proof.
  induction names as [|n names IH]; intros w AT; [exact AT|]. cbn [fold_left]. apply IH.
  destruct (list_eq_dec N.eq_dec n name) as [->|NE]; [apply drop_empty; exact AT|]. exact (at_same _ _ _ _ _ (drop_same dk n w name NE) AT).
Qed.
Lemma scope_ok {A} dk names (s : wstep A) w w' a : scope dk names s w = (w', Ok a) ->
  exists w1, s w = (w1, Ok a) /\ w' = fold_left (fun w name => drop_writer dk name w) names w1.
Proof. unfold scope. destruct (s w) as [w1 r]. intros H. injection H as <- ->. eauto. Qed.

Lemma one_file_ok dk be name buffer w w1 w2 w3 : whole_pieces dk ->
  open_file dk name w = (w1, Ok tt) -> put_bytes dk be name buffer w1 = (w2, Ok tt) -> flushed dk name w2 = (w3, Ok tt) ->
  exists bytes, written be buffer = Ok bytes /\ at_name w3 name bytes [].
Proof.
  intros WP O P F. apply open_ok in O. destruct (put_ok _ _ _ _ _ _ WP O P) as (bytes & f & h & W & AT & _ & E & _).
  exists bytes. split; [exact W|]. rewrite <- E. exact (flushed_ok _ _ _ _ _ _ AT F).
Qed.

Lemma chardef_ok dk be k dir w w' cd : whole_pieces dk -> put_chardef dk be k dir w = (w', Ok cd) ->
  exists bytes, build_chardef_file be k dir = Ok (cd, bytes) /\ at_name w' (lit "char_def.bin") bytes [].
Proof.
  intros WP H. unfold put_chardef in H. apply wnext_ok in H. destruct H as (w1 & text & E1 & H). apply still_ok in E1. destruct E1 as [-> E1].
  apply wnext_ok in H. destruct H as (w2 & cd' & E2 & H). apply still_ok in E2. destruct E2 as [-> E2].
  apply scope_ok in H. destruct H as (w3 & H & ->). apply wnext_ok in H. destruct H as (w4 & [] & O & H).
  apply wnext_ok in H. destruct H as (w5 & [] & P & H). apply wnext_ok in H. destruct H as (w6 & [] & F & H). apply still_ok in H. destruct H as [-> H].
  injection H as ->. destruct (one_file_ok _ _ _ _ _ _ _ _ WP O P F) as (bytes & W & AT). exists bytes.
  split; [unfold build_chardef_file; rewrite E1; cbn [bind]; rewrite E2; cbn [bind]; rewrite W; reflexivity|]. apply drops_empty. exact AT.
Qed.
Lemma unk_ok dk be k dir cd w w' : whole_pieces dk -> put_unk dk be k dir cd w = (w', Ok tt) ->
  exists bytes, build_unk_file be k dir cd = Ok bytes /\ at_name w' (lit "unk.bin") bytes [].
Proof.
  intros WP H. unfold put_unk in H. apply wnext_ok in H. destruct H as (w1 & text & E1 & H). apply still_ok in E1. destruct E1 as [-> E1].
  apply wnext_ok in H. destruct H as (w2 & u & E2 & H). apply still_ok in E2. destruct E2 as [-> E2].
  apply scope_ok in H. destruct H as (w3 & H & ->). apply wnext_ok in H. destruct H as (w4 & [] & O & H).
  apply wnext_ok in H. destruct H as (w5 & [] & P & F).
  destruct (one_file_ok _ _ _ _ _ _ _ _ WP O P F) as (bytes & W & AT). exists bytes.
  split; [unfold build_unk_file; rewrite E1; cbn [bind]; rewrite E2; cbn [bind]; rewrite W; reflexivity|]. apply drops_empty. exact AT.
Qed.
Lemma matrix_ok dk be k dir w w' : whole_pieces dk -> put_matrix dk be k dir w = (w', Ok tt) ->
  exists bytes, build_matrix_file be k dir = Ok bytes /\ at_name w' (lit "matrix.mtx") bytes [].
Proof.
  intros WP H. unfold put_matrix in H. apply wnext_ok in H. destruct H as (w1 & text & E1 & H). apply still_ok in E1. destruct E1 as [-> E1].
  apply wnext_ok in H. destruct H as (w2 & u & E2 & H). apply still_ok in E2. destruct E2 as [-> E2].
  apply scope_ok in H. destruct H as (w3 & H & ->). apply wnext_ok in H. destruct H as (w4 & [] & O & H).
  apply wnext_ok in H. destruct H as (w5 & [] & P & F).
  destruct (one_file_ok _ _ _ _ _ _ _ _ WP O P F) as (bytes & W & AT). exists bytes.
  split; [unfold build_matrix_file; rewrite E1; cbn [bind]; rewrite E2; cbn [bind]; rewrite W; reflexivity|]. apply drops_empty. exact AT.
Qed.

Lemma dict_ok dk be k dir w w' : whole_pieces dk -> put_dict dk be k dir w = (w', Ok tt) ->
  exists b1 b2 b3 b4 kept, build_dict_files be k dir = Ok [(lit "dict.words", b1); (lit "dict.wordsidx", b2); (lit "dict.da", b3); (lit "dict.vals", b4)] /\
    at_name w' (lit "dict.words") b1 [] /\ at_name w' (lit "dict.wordsidx") b2 [] /\ at_name w' (lit "dict.vals") b4 [] /\ at_name w' (lit "dict.da") kept [] /\
    almost dk b3 kept /\ (be_compress be = false -> (dk_capacity dk <= N.of_nat (List.length b3))%N -> kept = b3).
Proof.
  intros WP H. unfold put_dict in H. cbv zeta in H.
  apply wnext_ok in H. destruct H as (w0 & rows & R1 & H). apply still_ok in R1. destruct R1 as [-> R1].
  apply wnext_ok in H. destruct H as (w0 & keyed & R2 & H). apply still_ok in R2. destruct R2 as [-> R2].
  apply scope_ok in H. destruct H as (wz & H & ->).
  apply wnext_ok in H. destruct H as (w1 & [] & O1 & H). apply wnext_ok in H. destruct H as (w2 & [] & O2 & H).
  apply wnext_ok in H. destruct H as (w0 & m & R3 & H). apply still_ok in R3. destruct R3 as [-> R3].
  apply wnext_ok in H. destruct H as (w3 & [] & O3 & H). apply wnext_ok in H. destruct H as (w4 & [] & O4 & H).
  apply wnext_ok in H. destruct H as (w0 & [words index] & R4 & H). apply still_ok in R4. destruct R4 as [-> R4].
  apply wnext_ok in H. destruct H as (w5 & [] & P1 & H). apply wnext_ok in H. destruct H as (w6 & [] & P2 & H).
  apply wnext_ok in H. destruct H as (w7 & [] & F1 & H). apply wnext_ok in H. destruct H as (w8 & [] & F2 & H).
  apply wnext_ok in H. destruct H as (w0 & da & R5 & H). apply still_ok in R5. destruct R5 as [-> R5].
  apply wnext_ok in H. destruct H as (w9 & [] & P3 & H). apply wnext_ok in H. destruct H as (wa & [] & P4 & F4).
  assert (SAME : forall {A} (s : wstep A) n wx wy r name f h, only s [n] -> s wx = (wy, r) -> at_name wx name f h -> n <> name -> at_name wy name f h).
  { intros A s n wx wy r name f h O E AT N. refine (at_same _ _ _ _ _ (step_same s [n] wx wy r name O _ E) AT). intros [X|[]]. contradiction. }
  assert (OO : forall n, only (open_file dk n) [n]) by (intros n; apply only_open; left; reflexivity).
  assert (OP : forall n b, only (put_bytes dk be n b) [n]) by (intros n b; apply only_put; left; reflexivity).
  assert (OF : forall n, only (flushed dk n) [n]) by (intros n; apply only_flushed; left; reflexivity).
  (* the words *)
  pose proof (open_ok _ _ _ _ O3) as W. apply (SAME _ _ _ _ _ _ _ _ _ (OO _) O4) in W; [|discriminate].
  destruct (put_ok _ _ _ _ _ _ WP W P1) as (b1 & f1 & h1 & B1 & W1 & _ & E1 & _).
  apply (SAME _ _ _ _ _ _ _ _ _ (OP _ _) P2) in W1; [|discriminate]. apply (flushed_ok _ _ _ _ _ _ W1) in F1 as W2. rewrite E1 in W2.
  apply (SAME _ _ _ _ _ _ _ _ _ (OF _) F2) in W2; [|discriminate]. apply (SAME _ _ _ _ _ _ _ _ _ (OP _ _) P3) in W2; [|discriminate].
  apply (SAME _ _ _ _ _ _ _ _ _ (OP _ _) P4) in W2; [|discriminate]. apply (SAME _ _ _ _ _ _ _ _ _ (OF _) F4) in W2; [|discriminate].
  (* the index *)
  pose proof (open_ok _ _ _ _ O4) as X. apply (SAME _ _ _ _ _ _ _ _ _ (OP _ _) P1) in X; [|discriminate].
  destruct (put_ok _ _ _ _ _ _ WP X P2) as (b2 & f2 & h2 & B2 & X1 & _ & E2 & _).
  apply (SAME _ _ _ _ _ _ _ _ _ (OF _) F1) in X1; [|discriminate]. apply (flushed_ok _ _ _ _ _ _ X1) in F2 as X2. rewrite E2 in X2.
  apply (SAME _ _ _ _ _ _ _ _ _ (OP _ _) P3) in X2; [|discriminate].
  apply (SAME _ _ _ _ _ _ _ _ _ (OP _ _) P4) in X2; [|discriminate]. apply (SAME _ _ _ _ _ _ _ _ _ (OF _) F4) in X2; [|discriminate].
  (* the trie *)
  pose proof (open_ok _ _ _ _ O1) as D. apply (SAME _ _ _ _ _ _ _ _ _ (OO _) O2) in D; [|discriminate].
  apply (SAME _ _ _ _ _ _ _ _ _ (OO _) O3) in D; [|discriminate]. apply (SAME _ _ _ _ _ _ _ _ _ (OO _) O4) in D; [|discriminate].
  apply (SAME _ _ _ _ _ _ _ _ _ (OP _ _) P1) in D; [|discriminate]. apply (SAME _ _ _ _ _ _ _ _ _ (OP _ _) P2) in D; [|discriminate].
  apply (SAME _ _ _ _ _ _ _ _ _ (OF _) F1) in D; [|discriminate]. apply (SAME _ _ _ _ _ _ _ _ _ (OF _) F2) in D; [|discriminate].
  destruct (put_ok _ _ _ _ _ _ WP D P3) as (b3 & f3 & h3 & B3 & D1 & S3 & E3 & T3).
  apply (SAME _ _ _ _ _ _ _ _ _ (OP _ _) P4) in D1; [|discriminate]. apply (SAME _ _ _ _ _ _ _ _ _ (OF _) F4) in D1; [|discriminate].
  (* the values *)
  pose proof (open_ok _ _ _ _ O2) as V.
  apply (SAME _ _ _ _ _ _ _ _ _ (OO _) O3) in V; [|discriminate]. apply (SAME _ _ _ _ _ _ _ _ _ (OO _) O4) in V; [|discriminate].
  apply (SAME _ _ _ _ _ _ _ _ _ (OP _ _) P1) in V; [|discriminate]. apply (SAME _ _ _ _ _ _ _ _ _ (OP _ _) P2) in V; [|discriminate].
  apply (SAME _ _ _ _ _ _ _ _ _ (OF _) F1) in V; [|discriminate]. apply (SAME _ _ _ _ _ _ _ _ _ (OF _) F2) in V; [|discriminate].
  apply (SAME _ _ _ _ _ _ _ _ _ (OP _ _) P3) in V; [|discriminate].
  destruct (put_ok _ _ _ _ _ _ WP V P4) as (b4 & f4 & h4 & B4 & V1 & _ & E4 & _).
  apply (flushed_ok _ _ _ _ _ _ V1) in F4 as V2. rewrite E4 in V2.
  set (names := [lit "dict.wordsidx"; lit "dict.words"; lit "dict.vals"; lit "dict.da"]).
  assert (Z : exists n, at_name (fold_left (fun w name => drop_writer dk name w) names wz) (lit "dict.da") (f3 ++ firstn n h3) []).
  { unfold names. cbn [fold_left]. apply drop_at.
    refine (at_same _ _ _ _ _ (drop_same dk (lit "dict.vals") _ (lit "dict.da") ltac:(discriminate)) _).
    refine (at_same _ _ _ _ _ (drop_same dk (lit "dict.words") _ (lit "dict.da") ltac:(discriminate)) _).
    exact (at_same _ _ _ _ _ (drop_same dk (lit "dict.wordsidx") _ (lit "dict.da") ltac:(discriminate)) D1). }
  destruct Z as (n & Z). exists b1, b2, b3, b4, (f3 ++ firstn n h3).
  split. { unfold build_dict_files, build_dict. cbv zeta. rewrite R1. cbn [bind]. rewrite R2. cbn [bind]. rewrite R3. cbn [bind]. rewrite R4. unfold da_build. cbn [bind ok_or f_words f_words_idx f_da f_vals].
    rewrite B1. cbn [bind]. rewrite B2. cbn [bind]. rewrite R5. cbn [bind]. rewrite B3. cbn [bind]. rewrite B4. reflexivity. }
  split; [apply drops_empty; exact W2|]. split; [apply drops_empty; exact X2|]. split; [apply drops_empty; exact V2|]. split; [exact Z|]. split.
  - exists (skipn n h3). rewrite <- app_assoc, firstn_skipn. split; [congruence|]. unfold small in S3. rewrite skipn_length. lia.
  - intros C L. rewrite (T3 C L) in *. rewrite firstn_nil, app_nil_r in *. exact E3.
Qed.

Lemma wunwrapping_ok {A} k (s : wstep A) w w' a : wunwrapping k s w = (w', Ok a) -> s w = (w', Ok a).
Proof. unfold wunwrapping. destruct (s w) as [w1 r]. intros H. injection H as <- H. apply unwrapped_ok in H. subst r. reflexivity. Qed.

Lemma put_success dk be k dir d d' : whole_pieces dk -> put_run (put_dictionary dk be k dir) d = (d', Ok tt) ->
  exists files, build_dictionary be k dir = Ok files /\
    forall name bytes, In (name, bytes) files ->
      (name <> lit "dict.da" -> content_of d' name = Some bytes) /\
      (name = lit "dict.da" -> exists kept, content_of d' name = Some kept /\ almost dk bytes kept /\
         (be_compress be = false -> (dk_capacity dk <= N.of_nat (List.length bytes))%N -> kept = bytes)).
Proof.
  intros WP H. unfold put_run in H. destruct (put_dictionary dk be k dir (World d [])) as [w r] eqn:E. injection H as <- ->.
  unfold put_dictionary in E. apply wnext_ok in E. destruct E as (w1 & [] & _ & E).
  apply wnext_ok in E. destruct E as (w2 & cd & E1 & E). apply wunwrapping_ok in E1.
  apply wnext_ok in E. destruct E as (w3 & [] & E2 & E). apply wunwrapping_ok in E2.
  apply wnext_ok in E. destruct E as (w4 & [] & E3 & E4). apply wunwrapping_ok in E3. apply wunwrapping_ok in E4.
  destruct (chardef_ok _ _ _ _ _ _ _ WP E1) as (bc & C1 & AC). destruct (unk_ok _ _ _ _ _ _ _ WP E2) as (bu & C2 & AU).
  destruct (dict_ok _ _ _ _ _ _ WP E3) as (b1 & b2 & b3 & b4 & kept & C3 & A1 & A2 & A4 & A3 & AL & T). destruct (matrix_ok _ _ _ _ _ _ WP E4) as (bm & C4 & AM).
  assert (SM : forall name f, name <> lit "matrix.mtx" -> at_name w4 name f [] -> at_name w name f []).
  { intros name f N AT. refine (at_same _ _ _ _ _ (step_same _ _ _ _ _ name (matrix_only dk be k dir) _ E4) AT). intros [X|[]]. congruence. }
  assert (SD : forall name f, ~ In name dict_scope -> at_name w3 name f [] -> at_name w4 name f []).
  { intros name f N AT. refine (at_same _ _ _ _ _ (step_same _ _ _ _ _ name (dict_only dk be k dir) N E3) AT). }
  assert (SU : forall name f, name <> lit "unk.bin" -> at_name w2 name f [] -> at_name w3 name f []).
  { intros name f N AT. refine (at_same _ _ _ _ _ (step_same _ _ _ _ _ name (unk_only dk be k dir cd) _ E2) AT). intros [X|[]]. congruence. }
  apply SU, SD, SM in AC; [|discriminate|cbn; intros X; decompose [or] X; discriminate || contradiction|discriminate].
  apply SD, SM in AU; [|discriminate|cbn; intros X; decompose [or] X; discriminate || contradiction].
  apply SM in A1; [|discriminate]. apply SM in A2; [|discriminate]. apply SM in A4; [|discriminate]. apply SM in A3; [|discriminate].
  assert (U : forall {A} (a : A), unwrapped k (Ok a) = Ok a) by (intros A a; apply unwrapped_ok; reflexivity).
  exists ([(lit "char_def.bin", bc); (lit "unk.bin", bu)] ++ [(lit "dict.words", b1); (lit "dict.wordsidx", b2); (lit "dict.da", b3); (lit "dict.vals", b4)] ++ [(lit "matrix.mtx", bm)]).
  split. { unfold build_dictionary. rewrite C1, U. cbn [bind]. rewrite C2, U. cbn [bind]. rewrite C3, U. cbn [bind]. rewrite C4, U. reflexivity. }
  intros name bytes I. cbn [app In] in I.
  destruct I as [I|[I|[I|[I|[I|[I|[I|[]]]]]]]]; injection I as <- <-; (split; [intros N|intros N; try discriminate N]);
    [apply AC|apply AU|apply A1|apply A2|contradiction N; reflexivity| |apply A4|apply AM].
  exists kept. split; [apply A3|]. split; [exact AL|exact T].
Qed.

Lemma put_elsewhere dk be k dir d name : ~ In name dictionary_files -> content_of (fst (put_run (put_dictionary dk be k dir) d)) name = content_of d name.
Proof.
  intros N. unfold put_run. pose proof (dictionary_only dk be k dir (World d []) name N) as H.
  destruct (put_dictionary dk be k dir (World d [])) as [w r]. exact (proj1 H).
Qed.

Lemma put_user_success dk be k path name d d' : whole_pieces dk -> put_run (put_user dk be k path name) d = (d', Ok tt) ->
  exists bytes, build_user_file be k path = Ok bytes /\ content_of d' name = Some bytes.
Proof.
  intros WP H. unfold put_run in H. destruct (put_user dk be k path name (World d [])) as [w r] eqn:E. injection H as <- ->.
  unfold put_user in E. apply wnext_ok in E. destruct E as (w1 & bytes & B & E). apply still_ok in B. destruct B as [-> B].
  apply wnext_ok in E. destruct E as (w2 & [] & _ & E). apply scope_ok in E. destruct E as (w3 & E & ->).
  apply wnext_ok in E. destruct E as (w4 & [] & O & E). apply wnext_ok in E. destruct E as (w5 & [] & P & F). apply or_fail_ok in P.
  apply open_ok in O. destruct (buf_writes_ok _ _ _ _ _ _ _ O ltac:(unfold small; cbn; lia) P) as (f & h & AT & _ & EQ).
  apply (flushed_ok _ _ _ _ _ _ AT) in F. exists bytes. split; [exact B|]. cbn [app] in EQ. rewrite EQ, WP in F. cbn [fold_left]. apply (drop_empty _ _ _ _ F).
Qed.
Lemma put_user_outcome dk be k path name d : let r := snd (put_run (put_user dk be k path name) d) in
  r = snd (write_user be k path name d) \/ r = Err EIo \/ r = Err ESerialize.
Proof.
  cbv zeta. unfold put_run, put_user, write_user, wnext at 1, next at 1, still at 1, quiet.
  destruct (build_user_file be k path) as [bytes|er|]; [|left; reflexivity..]. unfold next, create. cbn [snd].
  unfold wnext, make_dir, still, scope. destruct (dk_mkdir dk); [|right; left; reflexivity].
  unfold open_file. destruct (dk_create dk _ name); [|right; left; reflexivity].
  unfold flushed, or_fail. destruct (buf_writes dk name (dk_pieces dk bytes) _) as [w1 []]; [|right; right; reflexivity].
  destruct (flush_buf dk name w1) as [w2 []]; [left|right; left]; reflexivity.
Qed.
Lemma put_user_elsewhere dk be k path name d other : other <> name -> content_of (fst (put_run (put_user dk be k path name) d)) other = content_of d other.
Proof.
  intros N. unfold put_run. pose proof (user_only dk be k path name (World d []) other ltac:(intros [X|[]]; congruence)) as H.
  destruct (put_user dk be k path name (World d [])) as [w r]. exact (proj1 H).
Qed.

(** * Without failures *)

Section Faultless.
Context (dk : disk) (WP : whole_pieces dk) (FL : faultless dk).

(* the file and what is held back are what MDisk.v has in the directory *)
Definition tracks (w : world) (d : directory) : Prop := forall name,
  content_of d name = match content_of (w_files w) name with Some f => Some (f ++ bytes_of (w_held w) name) | None => None end /\
  small dk (bytes_of (w_held w) name) /\ (content_of (w_files w) name = None -> bytes_of (w_held w) name = []).
Definition sim {A} (s : wstep A) (q : writer A) (d : directory) : Prop :=
  forall w, tracks w d -> snd (s w) = snd (q d) /\ tracks (fst (s w)) (fst (q d)).

Lemma flush_true name w : snd (flush_buf dk name w) = true.
Proof.
  unfold flush_buf. destruct (bytes_of (w_held w) name) as [|b h]; [reflexivity|]. unfold file_write. cbn [snd].
  destruct FL as (_ & _ & W). specialize (W (w_files w) name (b :: h)). rewrite Nat.min_r by exact W. apply Nat.eqb_refl.
Qed.
Lemma buf_write_true name chunk w : snd (buf_write dk name chunk w) = true.
Proof.
  unfold buf_write. cbv zeta. destruct (_ <? _)%N; [reflexivity|].
  destruct (if (_ <? _)%N then flush_buf dk name w else (w, true)) as [w1 ok] eqn:E.
  assert (O : ok = true).
  { destruct (_ <? _)%N in E; [|injection E as <- <-; reflexivity]. pose proof (flush_true name w) as F. rewrite E in F. exact F. }
  rewrite O. destruct (_ <=? _)%N; [|reflexivity]. unfold file_write. cbn [snd].
  destruct FL as (_ & _ & W). specialize (W (w_files w1) name chunk). rewrite Nat.min_r by exact W. apply Nat.eqb_refl.
Qed.
Lemma buf_writes_true name chunks : forall w, snd (buf_writes dk name chunks w) = true.
Proof.
  induction chunks as [|c r IH]; intros w; [reflexivity|]. cbn [buf_writes]. pose proof (buf_write_true name c w) as H.
  destruct (buf_write dk name c w) as [w1 ok]. cbn [snd] in H. subst ok. apply IH.
Qed.

Lemma tracks_at w d name f h : tracks w d -> at_name w name f h -> content_of d name = Some (f ++ h) /\ small dk h.
Proof. intros T [A B]. destruct (T name) as (C & S & _). rewrite A, B in C. rewrite B in S. auto. Qed.
(* a step on one name *)
Lemma tracks_step w w' d name f h bytes : tracks w d -> (forall other, name <> other -> same w w' other) ->
  at_name w' name f h -> small dk h -> f ++ h = bytes -> tracks w' ((name, bytes) :: d).
Proof.
  intros T S AT SM E other. destruct (list_eq_dec N.eq_dec name other) as [<-|N].
  - destruct AT as [A B]. rewrite content_of_here, A, B, E. split; [reflexivity|]. split; [exact SM|discriminate].
  - destruct (S other N) as [A B]. rewrite content_of_other by exact N. rewrite A, B. apply T.
Qed.
Lemma tracks_quiet w w' d name f h f' h' : tracks w d -> (forall other, name <> other -> same w w' other) ->
  at_name w name f h -> at_name w' name f' h' -> small dk h' -> f' ++ h' = f ++ h -> tracks w' d.
Proof.
  intros T S AT AT' SM E other. destruct (list_eq_dec N.eq_dec name other) as [<-|N].
  - destruct (tracks_at _ _ _ _ _ T AT) as [C _]. destruct AT' as [A B]. rewrite C, A, B, E. split; [reflexivity|]. split; [exact SM|discriminate].
  - destruct (S other N) as [A B]. rewrite A, B. apply T.
Qed.

Lemma sim_still {A} (r : res A) d : sim (still r) (quiet r) d.
Proof. intros w T. split; [reflexivity|exact T]. Qed.
Lemma sim_next {A B} (s : wstep A) q (f : A -> wstep B) g d : sim s q d -> (forall a, snd (q d) = Ok a -> sim (f a) (g a) (fst (q d))) -> sim (wnext s f) (next q g) d.
Proof.
  intros H G w T. destruct (H w T) as [E T1]. unfold wnext, next. destruct (s w) as [w1 r], (q d) as [d1 r']. cbn [fst snd] in *. subst r'.
  destruct r as [a|er|]; [|split; [reflexivity|exact T1]..]. exact (G a eq_refl w1 T1).
Qed.
Lemma sim_extra {B} (s : wstep unit) (f : unit -> wstep B) q d : sim s (quiet (Ok tt)) d -> sim (f tt) q d -> sim (wnext s f) q d.
Proof.
  intros H G w T. destruct (H w T) as [E T1]. unfold wnext. destruct (s w) as [w1 r]. cbn [fst snd quiet] in *. subst r. exact (G w1 T1).
Qed.
Lemma sim_tail (s f : wstep unit) q d : sim s q d -> sim f (quiet (Ok tt)) (fst (q d)) -> sim (wnext s (fun _ => f)) q d.
Proof.
  intros H G w T. destruct (H w T) as [E T1]. unfold wnext. destruct (s w) as [w1 r], (q d) as [d1 r']. cbn [fst snd] in *. subst r'.
  destruct r as [[]|er|]; [|split; [reflexivity|exact T1]..]. exact (G w1 T1).
Qed.
Lemma sim_open name d : sim (open_file dk name) (create name) d.
Proof.
  intros w T. unfold open_file, create. destruct FL as (_ & C & _). rewrite C. split; [reflexivity|]. cbn [fst].
  apply (tracks_step w _ d name [] [] []); [exact T| |split; [apply content_of_here|apply bytes_here]|unfold small; cbn; lia|reflexivity].
  intros other N. split; cbn [w_files w_held]; [apply content_of_other|apply bytes_other]; exact N.
Qed.
Lemma tracks_empty w d name : tracks w d -> content_of d name = Some [] -> at_name w name [] [].
Proof.
  intros T E. destruct (T name) as (C & _ & N). rewrite E in C. destruct (content_of (w_files w) name) as [f|] eqn:F; [|discriminate].
  injection C as C. symmetry in C. apply app_eq_nil in C. destruct C as [-> B]. split; assumption.
Qed.
Lemma sim_put be name buffer d : content_of d name = Some [] -> sim (put_bytes dk be name buffer) (save be name buffer) d.
Proof.
  intros E w T. pose proof (tracks_empty w d name T E) as AT.
  pose proof (only_put dk be name buffer [name] ltac:(left; reflexivity) w) as O.
  assert (R : snd (put_bytes dk be name buffer w) = snd (save be name buffer d)).
  { unfold put_bytes, save, wnext, next, still, quiet, or_fail. destruct (written be buffer) as [bytes|er|]; [|reflexivity..].
    pose proof (buf_writes_true name (if be_compress be then dk_pieces dk bytes else [bytes]) w) as H.
    destruct (buf_writes dk name _ w) as [w1 ok]. cbn [snd] in *. subst ok. reflexivity. }
  split; [exact R|]. destruct (put_bytes dk be name buffer w) as [w1 r] eqn:P. cbn [fst snd] in *.
  destruct r as [[]|er|].
  - destruct (put_ok _ _ _ _ _ _ WP AT P) as (bytes & f & h & W & AT1 & SM & EQ & _). unfold save, next, quiet. rewrite W. cbn [fst].
    apply (tracks_step w w1 d name f h bytes T); [|exact AT1|exact SM|exact EQ]. intros other N. apply O. intros [X|[]]. contradiction.
  - unfold save, put_bytes, wnext, next, still, quiet in *. destruct (written be buffer); cbn [fst snd] in *; try discriminate; injection P as <- _; exact T.
  - unfold save, put_bytes, wnext, next, still, quiet in *. destruct (written be buffer); cbn [fst snd] in *; try discriminate; injection P as <-; exact T.
Qed.
Lemma flush_tracks name w d : tracks w d -> tracks (fst (flush_buf dk name w)) d /\ bytes_of (w_held (fst (flush_buf dk name w))) name = [].
Proof.
  intros T. pose proof (flush_true name w) as F. pose proof (flush_buf_same dk name w) as O.
  destruct (content_of (w_files w) name) as [f|] eqn:C.
  - assert (AT : at_name w name f (bytes_of (w_held w) name)) by (split; [exact C|reflexivity]).
    destruct (flush_buf dk name w) as [w1 ok] eqn:E. cbn [fst snd] in *. subst ok. pose proof (flush_ok _ _ _ _ _ _ AT E) as AT1. split; [|apply AT1].
    refine (tracks_quiet w w1 d name _ _ _ [] T O AT AT1 _ _); [unfold small; cbn; lia|apply app_nil_r].
  - destruct (T name) as (_ & _ & N). specialize (N C). unfold flush_buf. rewrite N. split; [exact T|exact N].
Qed.
Lemma sim_flushed name d : sim (flushed dk name) (quiet (Ok tt)) d.
Proof.
  intros w T. destruct (flush_tracks name w d T) as [T1 _]. pose proof (flush_true name w) as F. unfold flushed, or_fail.
  destruct (flush_buf dk name w) as [w1 ok]. cbn [fst snd quiet] in *. subst ok. split; [reflexivity|exact T1].
Qed.
Lemma drop_tracks name w d : tracks w d -> tracks (drop_writer dk name w) d.
Proof.
  intros T. destruct (flush_tracks name w d T) as [T1 E]. unfold drop_writer, set_held. intros other. cbn [w_files w_held].
  destruct (list_eq_dec N.eq_dec name other) as [<-|N]; [|rewrite bytes_other by exact N; apply T1].
  destruct (T1 name) as (C & S & _). rewrite bytes_here. rewrite E in C. split; [exact C|]. split; [unfold small; cbn; lia|reflexivity].
Qed.
Lemma sim_scope {A} names (s : wstep A) q d : sim s q d -> sim (scope dk names s) q d.
Proof.
  intros H w T. destruct (H w T) as [E T1]. unfold scope. destruct (s w) as [w1 r]. cbn [fst snd] in *. split; [exact E|].
  clear - WP FL T1. revert w1 T1. induction names as [|n names IH]; intros w1 T1; [exact T1|]. cbn [fold_left]. apply IH, drop_tracks, T1.
Qed.
Lemma sim_unwrapping {A} k (s : wstep A) q d : sim s q d -> sim (wunwrapping k s) (unwrapping k q) d.
Proof. intros H w T. destruct (H w T) as [E T1]. unfold wunwrapping, unwrapping. destruct (s w), (q d). cbn [fst snd] in *. subst. auto. Qed.

Lemma saved be name buffer d other : name <> other -> content_of (fst (save be name buffer d)) other = content_of d other.
Proof. intros N. unfold save, next, quiet. destruct (written be buffer); cbn [fst]; [apply content_of_other; exact N|reflexivity..]. Qed.
Ltac fresh_file := repeat (rewrite saved by discriminate); unfold create, quiet; cbn [fst]; repeat (rewrite content_of_other by discriminate); apply content_of_here.

Lemma chardef_sim be k dir d : sim (put_chardef dk be k dir) (write_chardef be k dir) d.
Proof.
  unfold put_chardef, write_chardef. do 2 (apply sim_next; [apply sim_still|intros]). apply sim_scope.
  apply sim_next; [apply sim_open|intros]. apply sim_next; [apply sim_put; fresh_file|intros].
  apply sim_extra; [apply sim_flushed|apply sim_still].
Qed.
Lemma unk_sim be k dir cd d : sim (put_unk dk be k dir cd) (write_unk be k dir cd) d.
Proof.
  unfold put_unk, write_unk. do 2 (apply sim_next; [apply sim_still|intros]). apply sim_scope.
  apply sim_next; [apply sim_open|intros]. apply sim_tail; [apply sim_put; fresh_file|apply sim_flushed].
Qed.
Lemma matrix_sim be k dir d : sim (put_matrix dk be k dir) (write_matrix be k dir) d.
Proof.
  unfold put_matrix, write_matrix. do 2 (apply sim_next; [apply sim_still|intros]). apply sim_scope.
  apply sim_next; [apply sim_open|intros]. apply sim_tail; [apply sim_put; fresh_file|apply sim_flushed].
Qed.
Lemma dict_sim be k dir d : sim (put_dict dk be k dir) (write_dict be k dir) d.
Proof.
  unfold put_dict, write_dict. cbv zeta. do 2 (apply sim_next; [apply sim_still|intros]). apply sim_scope.
  do 2 (apply sim_next; [apply sim_open|intros]). apply sim_next; [apply sim_still|intros].
  do 2 (apply sim_next; [apply sim_open|intros]). apply sim_next; [apply sim_still|]. intros [words index] _.
  apply sim_next; [apply sim_put; fresh_file|intros]. apply sim_next; [apply sim_put; fresh_file|intros]. do 2 (apply sim_extra; [apply sim_flushed|]).
  apply sim_next; [apply sim_still|intros]. apply sim_next; [apply sim_put; unfold quiet at 1; cbn [fst]; fresh_file|intros].
  apply sim_tail; [apply sim_put; rewrite saved by discriminate; unfold quiet at 1; cbn [fst]; fresh_file|apply sim_flushed].
Qed.
Lemma dictionary_sim be k dir d : sim (put_dictionary dk be k dir) (write_dictionary be k dir) d.
Proof.
  unfold put_dictionary, write_dictionary. apply sim_extra.
  - intros w T. unfold make_dir, still. destruct FL as (M & _). rewrite M. split; [reflexivity|exact T].
  - apply sim_next; [apply sim_unwrapping, chardef_sim|intros cd _]. apply sim_next; [apply sim_unwrapping, unk_sim|intros _ _].
    apply sim_next; [apply sim_unwrapping, dict_sim|intros _ _]. apply sim_unwrapping, matrix_sim.
Qed.
End Faultless.

(* every scope leaves nothing held back *)
Definition settled (w : world) : Prop := forall name, bytes_of (w_held w) name = [].
Lemma drops_settle dk names : forall w name, In name names \/ bytes_of (w_held w) name = [] ->
  bytes_of (w_held (fold_left (fun w name => drop_writer dk name w) names w)) name = [].
Proof.
  induction names as [|n names IH]; intros w name H; [destruct H as [[]|H]; exact H|]. cbn [fold_left]. apply IH.
  destruct (list_eq_dec N.eq_dec n name) as [->|NE]; [right; apply bytes_here|].
  destruct H as [[H|H]|H]; [contradiction|left; exact H|right]. rewrite (proj2 (drop_same dk n w name NE)). exact H.
Qed.
Definition settles {A} (s : wstep A) : Prop := forall w, settled w -> settled (fst (s w)).
Lemma settles_still {A} (r : res A) : settles (still r).
Proof. intros w S. exact S. Qed.
Lemma settles_next {A B} (s : wstep A) (f : A -> wstep B) : settles s -> (forall a, settles (f a)) -> settles (wnext s f).
Proof. intros H G w S. unfold wnext. specialize (H w S). destruct (s w) as [w1 [a|er|]]; [apply G; exact H|exact H..]. Qed.
Lemma settles_scope {A} dk names (s : wstep A) : only s names -> settles (scope dk names s).
Proof.
  intros O w S name. unfold scope. specialize (O w name). destruct (s w) as [w1 r]. cbn [fst] in *. apply drops_settle.
  destruct (in_dec (list_eq_dec N.eq_dec) name names) as [I|I]; [left; exact I|right]. rewrite (proj2 (O I)). apply S.
Qed.
Lemma settles_unwrapping {A} k (s : wstep A) : settles s -> settles (wunwrapping k s).
Proof. intros H w S. unfold wunwrapping. specialize (H w S). destruct (s w). exact H. Qed.
Lemma dictionary_settles dk be k dir : settles (put_dictionary dk be k dir).
Proof.
  unfold put_dictionary. apply settles_next; [apply settles_still|intros _].
  apply settles_next; [apply settles_unwrapping|intros cd].
  { unfold put_chardef. do 2 (apply settles_next; [apply settles_still|intros]). apply settles_scope. framed. }
  apply settles_next; [apply settles_unwrapping|intros _].
  { unfold put_unk. do 2 (apply settles_next; [apply settles_still|intros]). apply settles_scope. framed. }
  apply settles_next; [apply settles_unwrapping|intros _]; [|apply settles_unwrapping].
  { unfold put_dict. cbv zeta. do 2 (apply settles_next; [apply settles_still|intros]). apply settles_scope.
    repeat (frame; intros); try (cbn [In]; tauto). match goal with |- only (let (_, _) := ?p in _) _ => destruct p as [words index] end. framed. }
  unfold put_matrix. do 2 (apply settles_next; [apply settles_still|intros]). apply settles_scope. framed.
Qed.

Lemma put_faultless dk be k dir d : whole_pieces dk -> faultless dk ->
  snd (put_run (put_dictionary dk be k dir) d) = snd (write_dictionary be k dir d) /\
  forall name, content_of (fst (put_run (put_dictionary dk be k dir) d)) name = content_of (fst (write_dictionary be k dir d)) name.
Proof.
  intros WP FL. assert (T0 : tracks dk (World d []) d).
  { intros name. cbn [w_files w_held]. change (bytes_of [] name) with (@nil N). split; [|split; [unfold small; cbn; lia|reflexivity]].
    destruct (content_of d name); [rewrite app_nil_r|]; reflexivity. }
  destruct (dictionary_sim dk WP FL be k dir d (World d []) T0) as [E T].
  pose proof (dictionary_settles dk be k dir (World d []) (fun name => eq_refl)) as S. unfold put_run.
  destruct (put_dictionary dk be k dir (World d [])) as [w r]. cbn [fst snd] in *. split; [exact E|]. intros name.
  destruct (T name) as (C & _). rewrite (S name) in C. rewrite C. destruct (content_of (w_files w) name); [rewrite app_nil_r|]; reflexivity.
Qed.

(* what was built loads, with whatever dict.da has *)
Lemma put_loads dk be k dir d d' files : whole_pieces dk -> put_run (put_dictionary dk be k dir) d = (d', Ok tt) -> build_dictionary be k dir = Ok files ->
  forall e0 out0 x, (forall name bytes, In (name, bytes) files -> e_read e0 (join_path out0 name) = Some bytes) -> load_dictionary e0 out0 = Ok x ->
  forall e out, (forall name, In name dictionary_files -> e_read e (join_path out name) = content_of d' name) ->
  exists kept, content_of d' (lit "dict.da") = Some kept /\
    load_dictionary e out = Ok (Dictionary (PrefixDict (e_da e kept) (pd_vals (d_dict x)) true) (d_matrix x) (d_chardef x) (d_unknown x) (d_words_idx x) (d_words x)).
Proof.
  intros WP H B e0 out0 x R0 L0 e out R. destruct (put_success dk be k dir d d' WP H) as (files' & B' & F). rewrite B in B'. injection B' as <-.
  pose proof (built_names be k dir files B) as NM.
  destruct files as [|[n1 c1] [|[n2 c2] [|[n3 c3] [|[n4 c4] [|[n5 c5] [|[n6 c6] [|[n7 c7] [|? ?]]]]]]]]; try discriminate NM.
  cbn [map fst] in NM. injection NM as E1 E2 E3 E4 E5 E6 E7.
  change (n1 = lit "char_def.bin") in E1. change (n2 = lit "unk.bin") in E2. change (n3 = lit "dict.words") in E3. change (n4 = lit "dict.wordsidx") in E4.
  change (n5 = lit "dict.da") in E5. change (n6 = lit "dict.vals") in E6. change (n7 = lit "matrix.mtx") in E7.
  destruct (F n5 c5 ltac:(cbn; auto 10)) as [_ K]. destruct (K E5) as (kept & K1 & _). rewrite E5 in K1. exists kept. split; [exact K1|].
  assert (X : forall n c, In (n, c) [(n1, c1); (n2, c2); (n3, c3); (n4, c4); (n5, c5); (n6, c6); (n7, c7)] -> n <> lit "dict.da" -> e_read e0 (join_path out0 n) = Some c /\ content_of d' n = Some c).
  { intros n c I N. split; [apply R0; exact I|apply (F n c I); exact N]. }
  destruct (X n1 c1 ltac:(cbn; auto 10) ltac:(rewrite E1; discriminate)) as [P1 Q1]. destruct (X n2 c2 ltac:(cbn; auto 10) ltac:(rewrite E2; discriminate)) as [P2 Q2].
  destruct (X n3 c3 ltac:(cbn; auto 10) ltac:(rewrite E3; discriminate)) as [P3 Q3]. destruct (X n4 c4 ltac:(cbn; auto 10) ltac:(rewrite E4; discriminate)) as [P4 Q4].
  destruct (X n6 c6 ltac:(cbn; auto 10) ltac:(rewrite E6; discriminate)) as [P6 Q6]. destruct (X n7 c7 ltac:(cbn; auto 10) ltac:(rewrite E7; discriminate)) as [P7 Q7].
  pose proof (R0 n5 c5 ltac:(cbn; auto 10)) as P5.
  rewrite E1 in P1, Q1. rewrite E2 in P2, Q2. rewrite E3 in P3, Q3. rewrite E4 in P4, Q4. rewrite E5 in P5. rewrite E6 in P6, Q6. rewrite E7 in P7, Q7.
  unfold load_dictionary, read_file in *. rewrite !R by (unfold dictionary_files; cbn; auto 10).
  rewrite P1, P2, P3, P4, P5, P6, P7 in L0. rewrite Q1, Q2, Q3, Q4, K1, Q6, Q7. cbn [ok_or bind] in *.
  apply bind_ok in L0. destruct L0 as (m & -> & L0). cbn [bind]. apply bind_ok in L0. destruct L0 as (c & -> & L0). cbn [bind].
  apply bind_ok in L0. destruct L0 as (u & -> & L0). cbn [bind]. injection L0 as <-. reflexivity.
Qed.

Lemma put_user_faultless dk be k path name d : whole_pieces dk -> faultless dk ->
  snd (put_run (put_user dk be k path name) d) = snd (write_user be k path name d) /\
  forall other, content_of (fst (put_run (put_user dk be k path name) d)) other = content_of (fst (write_user be k path name d)) other.
Proof.
  intros WP FL. assert (R : snd (put_run (put_user dk be k path name) d) = snd (write_user be k path name d)).
  { unfold put_run, put_user, write_user, wnext, next, still, quiet, create, make_dir, scope, open_file, or_fail, flushed.
    destruct (build_user_file be k path) as [bytes|er|]; [|reflexivity..]. destruct FL as (M & C & W) eqn:EF. rewrite M. unfold still, or_fail. cbv beta iota. rewrite C. cbv beta iota.
    pose proof (buf_writes_true dk FL name (dk_pieces dk bytes)) as B.
    match goal with |- context [buf_writes dk name ?p ?w0] => specialize (B w0); destruct (buf_writes dk name p w0) as [w1 ok] end.
    cbn [snd] in B. subst ok. pose proof (flush_true dk FL name w1) as F. destruct (flush_buf dk name w1) as [w2 ok]. cbn [snd] in F. subst ok. reflexivity. }
  split; [exact R|]. intros other. destruct (list_eq_dec N.eq_dec other name) as [->|N].
  - destruct (put_run (put_user dk be k path name) d) as [d' r] eqn:P. cbn [fst snd] in *.
    unfold write_user, next, quiet, create in *. destruct (build_user_file be k path) as [bytes|er|] eqn:B; cbn [fst snd] in *; subst r.
    + destruct (put_user_success _ _ _ _ _ _ _ WP P) as (b & B' & C). rewrite B in B'. injection B' as <-. rewrite C, content_of_here. reflexivity.
    + unfold put_run, put_user, wnext at 1, still in P. rewrite B in P. injection P as <-. reflexivity.
    + unfold put_run, put_user, wnext at 1, still in P. rewrite B in P. injection P as <-. reflexivity.
  - rewrite put_user_elsewhere by exact N. unfold write_user, next, quiet, create. destruct (build_user_file be k path); cbn [fst]; rewrite ?content_of_other by congruence; reflexivity.
Qed.
