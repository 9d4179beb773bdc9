(** General list and monad lemmas. *)
From Coq Require Import List NArith ZArith Bool Lia ZifyBool ZifyNat ZifyN.
From Verif Require Import MBase.
Import ListNotations.

Lemma bind_ok {A B} (r : res A) (f : A -> res B) b : bind r f = Ok b -> exists a, r = Ok a /\ f a = Ok b.
Proof. destruct r; cbn; intros H; try discriminate. eauto. Qed.

Lemma foldM_app {A S} (f : S -> A -> res S) l1 : forall l2 s,
  foldM f (l1 ++ l2) s = bind (foldM f l1 s) (foldM f l2).
Proof.
  induction l1 as [|x l1 IH]; intros l2 s; cbn; [reflexivity|].
  destruct (f s x); cbn; auto.
Qed.

Lemma mapM_ok_map {A B} (f : A -> res B) (g : A -> B) l :
  (forall x, In x l -> f x = Ok (g x)) -> mapM f l = Ok (map g l).
Proof.
  induction l as [|x l IH]; cbn; intros H; [reflexivity|].
  rewrite H by auto. cbn. rewrite IH by auto. reflexivity.
Qed.

Lemma mapM_ext_in {A B} (f g : A -> res B) l : (forall x, In x l -> f x = g x) -> mapM f l = mapM g l.
Proof.
  induction l as [|x l IH]; cbn; intros H; [reflexivity|].
  rewrite H by auto. rewrite IH by auto. reflexivity.
Qed.

Lemma mapM_ok_inv {A B} (f : A -> res B) l : forall ys, mapM f l = Ok ys -> Forall2 (fun x y => f x = Ok y) l ys.
Proof.
  induction l as [|x l IH]; cbn; intros ys H.
  - injection H as <-. constructor.
  - destruct (f x) eqn:E; try discriminate. cbn in H.
    destruct (mapM f l) eqn:E2; try discriminate. cbn in H. injection H as <-. constructor; auto.
Qed.

Lemma mapM_app {A B} (f : A -> res B) l1 l2 :
  mapM f (l1 ++ l2) = bind (mapM f l1) (fun a => bind (mapM f l2) (fun b => Ok (a ++ b))).
Proof.
  induction l1 as [|x l1 IH]; cbn.
  - destruct (mapM f l2); reflexivity.
  - destruct (f x); cbn; auto. rewrite IH. destruct (mapM f l1); cbn; auto.
    destruct (mapM f l2); reflexivity.
Qed.

Lemma mapM_map {A B C} (f : B -> res C) (g : A -> B) l : mapM f (map g l) = mapM (fun x => f (g x)) l.
Proof. induction l; cbn; [reflexivity|]. rewrite IHl. reflexivity. Qed.

Lemma idx_nth {A} (l : list A) i x : nth_error l i = Some x -> idx l i = Ok x.
Proof. unfold idx. intros ->. reflexivity. Qed.

Lemma idx_ok {A} (l : list A) i x : idx l i = Ok x -> nth_error l i = Some x.
Proof. unfold idx. destruct (nth_error l i); congruence. Qed.

Lemma upd_length {A} (l : list A) : forall i x, length (upd l i x) = length l.
Proof. induction l; intros [|i] x; cbn; auto. Qed.

Lemma nth_error_upd_eq {A} (l : list A) : forall i x, i < length l -> nth_error (upd l i x) i = Some x.
Proof. induction l; intros [|i] x H; cbn in *; try lia; auto. apply IHl. lia. Qed.

Lemma nth_error_upd_neq {A} (l : list A) : forall i j x, i <> j -> nth_error (upd l i x) j = nth_error l j.
Proof. induction l; intros [|i] [|j] x H; cbn; try congruence; auto. Qed.

Lemma upd_map_seq {A} (g : nat -> A) n : forall a i x,
  upd (map g (seq a n)) i x = map (fun j => if Nat.eqb j (a + i) then x else g j) (seq a n).
Proof.
  induction n as [|n IH]; intros a i x; cbn; [reflexivity|].
  destruct i as [|i]; cbn [upd].
  - replace (Nat.eqb a (a + 0)) with true by (symmetry; apply Nat.eqb_eq; lia).
    f_equal. apply map_ext_in. intros j Hj. apply in_seq in Hj.
    replace (Nat.eqb j (a + 0)) with false; [reflexivity|]. symmetry. apply Nat.eqb_neq. lia.
  - replace (Nat.eqb a (a + S i)) with false by (symmetry; apply Nat.eqb_neq; lia).
    rewrite IH. f_equal. apply map_ext. intros j. replace (S a + i) with (a + S i) by lia. reflexivity.
Qed.

Lemma nth_error_map_seq {A} (g : nat -> A) n : forall a i, i < n -> nth_error (map g (seq a n)) i = Some (g (a + i)).
Proof.
  intros a i H. rewrite nth_error_map.
  assert (E : nth_error (seq a n) i = Some (a + i)).
  { rewrite nth_error_nth' with (d := 0) by (rewrite seq_length; lia). rewrite seq_nth by lia. reflexivity. }
  rewrite E. reflexivity.
Qed.

Lemma firstn_app_exact {A} (a b : list A) : firstn (length a) (a ++ b) = a.
Proof. rewrite firstn_app, Nat.sub_diag, firstn_all. cbn. apply app_nil_r. Qed.

Lemma skipn_app_exact {A} (a b : list A) : skipn (length a) (a ++ b) = b.
Proof. rewrite skipn_app, Nat.sub_diag, skipn_all. reflexivity. Qed.

Lemma Forall2_nth {A B} (P : A -> B -> Prop) l1 l2 : Forall2 P l1 l2 ->
  forall i x, nth_error l1 i = Some x -> exists y, nth_error l2 i = Some y /\ P x y.
Proof.
  induction 1 as [|x y l1 l2 H H2 IH]; intros [|i] z E; cbn in E; try discriminate.
  - injection E as <-. exists y. auto.
  - apply IH. exact E.
Qed.

Lemma enumerate_in {A} (l : list A) : forall a i x, In (i, x) (combine (seq a (length l)) l) <-> (a <= i /\ nth_error l (i - a) = Some x).
Proof.
  induction l as [|y l IH]; intros a i x; cbn [length seq combine].
  - split; [easy|]. intros [_ H]. destruct (i - a); discriminate.
  - cbn [In]. rewrite IH. split.
    + intros [H|[H1 H2]].
      * injection H as <- <-. rewrite Nat.sub_diag. auto.
      * split; [lia|]. replace (i - a) with (S (i - S a)) by lia. exact H2.
    + intros [H1 H2]. destruct (Nat.eq_dec i a) as [->|N].
      * rewrite Nat.sub_diag in H2. cbn in H2. injection H2 as ->. auto.
      * right. split; [lia|]. replace (i - a) with (S (i - S a)) in H2 by lia. exact H2.
Qed.

Lemma app_nil_inv {A} (a b : list A) : a ++ b = [] -> a = [] /\ b = [].
Proof. destruct a; auto. discriminate. Qed.

Lemma wrap32_id x : is_i32 x -> wrap32 x = x.
Proof.
  unfold is_i32, wrap32, wrap_i. intros H. rewrite Z.mod_small by lia. lia.
Qed.


Lemma wrap32_range x : is_i32 (wrap32 x).
Proof.
  unfold is_i32, wrap32, wrap_i. pose proof (Z.mod_pos_bound (x + 2 ^ (32 - 1)) (2 ^ 32) ltac:(lia)). lia.
Qed.
