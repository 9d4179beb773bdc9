(** Property C75: the order of the rows and files of a dictionary source. *)
From Coq Require Import String.
From Coq Require Import List NArith ZArith Bool Lia Permutation.
From Verif Require Import MBase MUtf8 MText MCodec MDict MCharDef MUnk MBincode MLattice MTokenizer MDetails MBuild MConfig MBuilders
  STok SBuild SBuilders SConfig SRows LUtf8 LDict LBuild LRows XBuild XData XConfig XBuilders.
Import ListNotations.
Local Open Scope string_scope.
Local Open Scope list_scope.

Theorem C75_system : forall o rows rows', Forall (fun r => valid_str (sys_surface o r)) rows -> same_homographs (sys_surface o) rows rows' ->
  build_dict o rows = build_dict o rows'.
Proof. exact build_dict_order. Qed.
Print Assumptions C75_system.
Theorem C75_user : forall o rows rows', Forall (fun r => valid_str (hd [] r)) rows -> same_homographs (hd []) rows rows' ->
  build_user o rows = build_user o rows'.
Proof. exact build_user_order. Qed.
Print Assumptions C75_user.
(* rows with different surfaces may come in any order *)
Theorem C75_distinct : forall o rows rows', Forall (fun r => valid_str (sys_surface o r)) rows -> NoDup (map (sys_surface o) rows) -> Permutation rows rows' ->
  build_dict o rows = build_dict o rows'.
Proof. intros o rows rows' V N P. apply build_dict_order; [exact V|]. apply distinct_order; assumption. Qed.
Print Assumptions C75_distinct.
Theorem C75_user_distinct : forall o rows rows', Forall (fun r => valid_str (hd [] r)) rows -> NoDup (map (hd []) rows) -> Permutation rows rows' ->
  build_user o rows = build_user o rows'.
Proof. intros o rows rows' V N P. apply build_user_order; [exact V|]. apply distinct_order; assumption. Qed.
Print Assumptions C75_user_distinct.
(* so may the files, if no surface is in two of them *)
Theorem C75_files : forall be be' k dir names names' contents, same_but_listing be be' -> be_glob be dir = Ok names -> be_glob be' dir = Ok names' ->
  Permutation names names' -> NoDup names -> (forall n, In n names -> csv_file be k dir n (contents n)) ->
  Forall (fun r => valid_str (sys_surface (kind_dict_options k) r)) (concat (map contents names)) ->
  apart (sys_surface (kind_dict_options k)) contents names ->
  build_dictionary be k dir = build_dictionary be' k dir.
Proof. exact build_files_order. Qed.
Print Assumptions C75_files.

(* non-vacuity: five rows, two of them homographs and one not usable, in another order *)
Definition sys_shuffled : list row :=
  [ [lit "a"; lit " 1"; lit "2"; lit "5 "; lit "noun"; lit "A"];
    [[0x2015%N]; lit "0"; lit "0"; lit "1"; [0x2015%N]; []];
    [lit "a"; lit "3"; lit "4"; lit "-7"; lit "verb"];
    [lit "b"; lit "0"; lit "x"; lit "0"; lit "skipped"];
    [lit "ab"; lit "0"; lit "0"; lit "6"; lit "verb"; []] ].
Lemma same_filter_by (key : row -> str) rows rows' :
  (forall s, In s (map key (rows ++ rows')) -> filter (fun r => str_eqb (key r) s) rows = filter (fun r => str_eqb (key r) s) rows') -> same_homographs key rows rows'.
Proof.
  intros H s. destruct (in_dec (list_eq_dec N.eq_dec) s (map key (rows ++ rows'))) as [I|N]; [apply H, I|].
  assert (E : forall l, (forall r, In r l -> In r (rows ++ rows')) -> filter (fun r => str_eqb (key r) s) l = []).
  { intros l. induction l as [|r l IH]; intros I; [reflexivity|]. cbn [filter]. destruct (str_eqb (key r) s) eqn:K; [|apply IH; intros; apply I; right; assumption].
    apply str_eqb_spec in K. exfalso. apply N. rewrite <- K. apply in_map, I. left. reflexivity. }
  rewrite !E; [reflexivity| |]; intros r I; apply in_or_app; auto.
Qed.
Lemma surfaces_valid o rows : forallb (fun r => forallb valid_charb (sys_surface o r)) rows = true -> Forall (fun r => valid_str (sys_surface o r)) rows.
Proof.
  rewrite forallb_forall, Forall_forall. intros H r I. specialize (H r I). rewrite forallb_forall in H. apply Forall_forall. intros c J. apply valid_charb_iff, H, J.
Qed.
Example C75_ex : exists f, build_dict (DictOptions true true) sys_sample = Ok f /\ build_dict (DictOptions true true) sys_shuffled = Ok f /\ f_words f <> [].
Proof.
  exists (match build_dict (DictOptions true true) sys_sample with Ok f => f | _ => DictFiles [] [] [] [] end).
  split; [vm_compute; reflexivity|]. split; [|vm_compute; discriminate].
  rewrite <- (C75_system (DictOptions true true) sys_sample sys_shuffled); [vm_compute; reflexivity| |].
  - apply surfaces_valid. reflexivity.
  - apply same_filter_by. intros s I. cbn [map app sys_sample sys_shuffled] in I. repeat (destruct I as [<-|I]; [vm_compute; reflexivity|]). destruct I.
Qed.
(* homographs must not change places: the one read first is found first *)
Example C75_homographs : exists rows rows', Permutation rows rows' /\ build_dict (DictOptions false false) rows <> build_dict (DictOptions false false) rows'.
Proof.
  exists [[lit "a"; lit "0"; lit "0"; lit "5"; lit "noun"]; [lit "a"; lit "0"; lit "0"; lit "5"; lit "verb"]],
    [[lit "a"; lit "0"; lit "0"; lit "5"; lit "verb"]; [lit "a"; lit "0"; lit "0"; lit "5"; lit "noun"]].
  split; [apply perm_swap|]. vm_compute. discriminate.
Qed.
Example C75_user_ex : build_user (kind_user_options IPADIC) user_sample = build_user (kind_user_options IPADIC) (tl user_sample ++ firstn 1 user_sample).
Proof.
  apply C75_user.
  - apply (surfaces_valid (DictOptions false false)). reflexivity.
  - apply same_filter_by. intros s I. cbn [map app user_sample tl firstn] in I. repeat (destruct I as [<-|I]; [vm_compute; reflexivity|]). destruct I.
Qed.
(* two files, listed in either order *)
Definition two_files (names : list str) : build_env :=
  let e := file_env (src_files ++ [(lit "in/more.csv", [3%N])]) in
  BuildEnv (Env (e_parse e) (e_pretty e) (e_regex e) (e_graphemes e) (e_form e) (e_lower e) (e_upper e) (e_kana e) (e_block e) (e_embedded e) (e_read e) (e_da e)
      (fun bytes => if str_eqb bytes [1%N] then Ok src_rows else if str_eqb bytes [3%N] then Ok [[lit "a"; lit "0"; lit "0"; lit "3"; lit "noun"]] else Err EParse))
    (fun _ b => b) (fun b => b) (fun _ => Ok names) sample_yada codecs_sample false.
Example C75_files_ex : exists files, build_dictionary (two_files [lit "words.csv"; lit "more.csv"]) IPADIC (lit "in") = Ok files /\
  build_dictionary (two_files [lit "more.csv"; lit "words.csv"]) IPADIC (lit "in") = Ok files.
Proof.
  exists (match build_dictionary (two_files [lit "words.csv"; lit "more.csv"]) IPADIC (lit "in") with Ok f => f | _ => [] end).
  split; [vm_compute; reflexivity|].
  rewrite <- (C75_files (two_files [lit "words.csv"; lit "more.csv"]) (two_files [lit "more.csv"; lit "words.csv"]) IPADIC (lit "in") [lit "words.csv"; lit "more.csv"] [lit "more.csv"; lit "words.csv"]
    (fun n => if str_eqb n (lit "words.csv") then src_rows else [[lit "a"; lit "0"; lit "0"; lit "3"; lit "noun"]])); [vm_compute; reflexivity| | | | | | | |].
  - repeat split.
  - reflexivity.
  - reflexivity.
  - apply perm_swap.
  - repeat constructor; cbn; intuition discriminate.
  - intros n [<-|[<-|[]]]; (eexists; split; [vm_compute; reflexivity|]; split; [vm_compute; reflexivity|]; right; exists 5; repeat constructor).
  - apply surfaces_valid. vm_compute. reflexivity.
  - intros n n' r r' [<-|[<-|[]]] [<-|[<-|[]]] D; try congruence; cbn; intros R R'; intuition (subst; discriminate).
Qed.
