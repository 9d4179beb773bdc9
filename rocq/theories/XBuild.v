(** Example rows for the builder theorems. *)
From Coq Require Import String.
From Coq Require Import List NArith ZArith Bool Lia.
From Verif Require Import MBase MUtf8 MText MCodec MDict MCharDef MUnk MBincode MTokenizer MDetails MBuild STok SBuild LUtf8 LBuild XSample.
Import ListNotations.
Local Open Scope string_scope.
Local Open Scope list_scope.

Definition sys_sample : list row :=
  [ [lit "b"; lit "0"; lit "x"; lit "0"; lit "skipped"];
    [lit "a"; lit " 1"; lit "2"; lit "5 "; lit "noun"; lit "A"];
    [lit "ab"; lit "0"; lit "0"; lit "6"; lit "verb"; []];
    [[0x2015%N]; lit "0"; lit "0"; lit "1"; [0x2015%N]; []];
    [lit "a"; lit "3"; lit "4"; lit "-7"; lit "verb"] ].

Definition user_sample : list row :=
  [ [lit "tree"; lit "noun"; lit "TREE"];
    [lit "sky"; lit "10"; lit "11"; lit "77"; lit "1"; lit "2"; lit "3"; lit "4"; lit "5"; lit "6"; lit "7"; lit "8"; lit "9"];
    [lit "sky"; lit "noun"; lit "SKY"] ].

Lemma rows_valid rows : forallb (forallb (forallb valid_charb)) rows = true -> Forall (Forall valid_str) rows.
Proof.
  intros H. rewrite forallb_forall in H. apply Forall_forall. intros r Ir. specialize (H r Ir).
  rewrite forallb_forall in H. apply Forall_forall. intros s Is. specialize (H s Is).
  rewrite forallb_forall in H. apply Forall_forall. intros c Ic. apply valid_charb_iff. auto.
Qed.

Definition no_nulb (s : str) : bool := negb (existsb (N.eqb 0) s).
Lemma no_nulb_spec s : no_nulb s = true -> no_nul s.
Proof.
  unfold no_nulb, no_nul. intros H I. apply negb_true_iff in H. assert (X : existsb (N.eqb 0) s = true); [|congruence].
  apply existsb_exists. exists 0%N. auto.
Qed.

Lemma filter_le {A} (p : A -> bool) l : List.length (filter p l) <= List.length l.
Proof. induction l as [|x l IH]; cbn; [lia|]. destruct (p x); cbn; lia. Qed.

Lemma sys_sample_limits : sys_limits (DictOptions true true) sys_sample.
Proof.
  split; [apply Exists_exists; eexists; split; [right; left; reflexivity|vm_compute; discriminate]|..].
  - apply rows_valid. vm_compute. reflexivity.
  - repeat constructor; cbn; lia.
  - repeat constructor; cbn; try discriminate; intros H; repeat (destruct H as [H|H]; [discriminate|]); exact H.
  - repeat constructor; intros H; repeat (destruct H as [H|H]; [discriminate|]); exact H.
  - vm_compute. reflexivity.
  - vm_compute. reflexivity.
  - intros s. eapply Nat.le_trans; [apply filter_le|]. cbn. lia.
Qed.

Lemma user_sample_limits : user_limits (kind_user_options IPADIC) user_sample.
Proof.
  assert (V : Forall (Forall valid_str) user_sample) by (apply rows_valid; vm_compute; reflexivity).
  split; [discriminate|..].
  - assert (V' : Forall (fun r => valid_str (hd [] r)) user_sample).
    { eapply Forall_impl; [|exact V]. intros r F. destruct F; [constructor|assumption]. }
    apply Forall_forall. intros r I. split; [rewrite Forall_forall in V'; auto|]. clear V V'.
    cbn in I. destruct I as [<-|[<-|[<-|[]]]]; (split; [discriminate|]; apply no_nulb_spec; vm_compute; reflexivity).
  - apply Forall_forall. intros r I. cbn in I. destruct I as [<-|[<-|[<-|[]]]]; intros ds E; vm_compute in E; injection E as <-;
      (assert (F : Forall (Forall valid_str) [[]]) by (repeat constructor)); 
      match goal with |- Forall valid_str ?l => 
        assert (G : Forall (Forall valid_str) [l]) by (apply rows_valid; vm_compute; reflexivity); inversion G; assumption end.
  - unfold is_i16, is_u16. cbn. lia.
  - vm_compute. reflexivity.
  - vm_compute. reflexivity.
  - intros s. eapply Nat.le_trans; [apply filter_le|]. cbn. lia.
Qed.

(* 33 equal rows *)
Lemma forall_repeat {A} (P : A -> Prop) x n : P x -> Forall P (repeat x n).
Proof. intros H. apply Forall_forall. intros y I. apply repeat_spec in I. subst y. exact H. Qed.

Lemma sys_many_room : sys_room (DictOptions false false) (repeat [lit "a"; lit "0"; lit "0"; lit "0"; lit "noun"] 33).
Proof.
  split; [left; vm_compute; discriminate|..]; try (apply forall_repeat).
  - assert (G : Forall (Forall valid_str) [[lit "a"; lit "0"; lit "0"; lit "0"; lit "noun"]]) by (apply rows_valid; vm_compute; reflexivity).
    inversion G; assumption.
  - cbn. lia.
  - split; [discriminate|]. apply no_nulb_spec. vm_compute. reflexivity.
  - constructor; [|constructor]. apply no_nulb_spec. vm_compute. reflexivity.
  - vm_compute. reflexivity.
  - vm_compute. reflexivity.
Qed.

Lemma user_many_room : user_room (kind_user_options IPADIC) (repeat [lit "a"; lit "noun"; lit "A"] 33).
Proof.
  split; [discriminate|..]; try (apply forall_repeat).
  - split; [|split; [discriminate|apply no_nulb_spec; vm_compute; reflexivity]].
    assert (G : Forall (Forall valid_str) [[lit "a"]]) by (apply rows_valid; vm_compute; reflexivity). inversion G as [|? ? G1 _]. inversion G1. assumption.
  - intros ds E. vm_compute in E. injection E as <-.
    match goal with |- Forall valid_str ?l => 
        assert (G : Forall (Forall valid_str) [l]) by (apply rows_valid; vm_compute; reflexivity); inversion G; assumption end.
  - unfold is_i16, is_u16. cbn. lia.
  - vm_compute. reflexivity.
  - vm_compute. reflexivity.
Qed.

Lemma sys_many_build : exists f, build_dict (DictOptions false false) (repeat [lit "a"; lit "0"; lit "0"; lit "0"; lit "noun"] 33) = Ok f.
Proof. eexists. vm_compute. reflexivity. Qed.
Lemma user_many_build : exists d, build_user (kind_user_options IPADIC) (repeat [lit "a"; lit "noun"; lit "A"] 33) = Ok d.
Proof. eexists. vm_compute. reflexivity. Qed.
