(** char.def: the categories and definitions found are the ones written. *)
From Coq Require Import String.
From Coq Require Import List NArith ZArith Bool Lia ZifyBool ZifyNat ZifyN.
From Verif Require Import MBase MUtf8 MText MCharDef SCharDef LBase LUtf8 LBuild.
Import ListNotations.
Local Open Scope list_scope.
Local Notation length := List.length.

(** * First occurrences *)

Definition add_new (acc : list str) (names : list str) : list str :=
  fold_left (fun a x => if existsb (str_eqb x) a then a else a ++ [x]) names acc.

Lemma NoDup_app_last {A} (l : list A) x : NoDup l -> ~ In x l -> NoDup (l ++ [x]).
Proof.
  induction 1 as [|y l NI N IH]; intros H; cbn [app]; [constructor; [auto|constructor]|].
  cbn [In] in H. constructor; [|apply IH; tauto]. rewrite in_app_iff. cbn [In]. intros [|[|[]]]; [tauto|subst; tauto].
Qed.

Lemma NoDup_app_l {A} (a b : list A) : NoDup (a ++ b) -> NoDup a.
Proof.
  induction a as [|x a IH]; cbn [app]; [constructor|]. intros N. inversion N as [|? ? H N']; subst.
  constructor; [|auto]. intros I1. apply H, in_or_app. auto.
Qed.

Lemma existsb_map {A B} (f : A -> B) p l : existsb p (map f l) = existsb (fun x => p (f x)) l.
Proof. induction l as [|x l IH]; cbn; [reflexivity|]. rewrite IH. reflexivity. Qed.

Lemma str_eqb_true a b : str_eqb a b = true <-> a = b.
Proof. apply str_eqb_spec. Qed.

Lemma existsb_str x l : existsb (str_eqb x) l = true <-> In x l.
Proof.
  rewrite existsb_exists. split.
  - intros (y & I1 & E). apply str_eqb_true in E. subst. exact I1.
  - intros I1. exists x. split; [exact I1|]. apply str_eqb_true. reflexivity.
Qed.

Lemma filter_filter {A} (p q : A -> bool) l : filter p (filter q l) = filter (fun x => q x && p x) l.
Proof. induction l as [|x l IH]; cbn; [reflexivity|]. destruct (q x) eqn:Q; cbn; [destruct (p x); rewrite IH; reflexivity|exact IH]. Qed.

Lemma add_new_nub l : forall acc, add_new acc l = acc ++ filter (fun x => negb (existsb (str_eqb x) acc)) (nub l).
Proof.
  induction l as [|x l IH]; intros acc; cbn [add_new fold_left nub filter]; [rewrite app_nil_r; reflexivity|].
  fold (add_new (if existsb (str_eqb x) acc then acc else acc ++ [x]) l). rewrite IH.
  destruct (existsb (str_eqb x) acc) eqn:X; cbn [negb].
  - f_equal. rewrite filter_filter. apply filter_ext_in. intros y _. destruct (str_eqb x y) eqn:E; [|reflexivity].
    apply str_eqb_true in E. subst. rewrite X. reflexivity.
  - rewrite <- app_assoc. cbn [app]. f_equal. f_equal. rewrite filter_filter. apply filter_ext_in. intros y _.
    rewrite existsb_app. cbn [existsb]. rewrite orb_false_r.
    assert (S : str_eqb y x = str_eqb x y).
    { destruct (str_eqb x y) eqn:E.
      - apply str_eqb_true in E. subst. apply str_eqb_true. reflexivity.
      - destruct (str_eqb y x) eqn:E2; [|reflexivity]. apply str_eqb_true in E2. subst.
        rewrite (proj2 (str_eqb_true x x) eq_refl) in E. discriminate. }
    rewrite S. rewrite negb_orb, andb_comm. reflexivity.
Qed.

Lemma nub_add_new l : nub l = add_new [] l.
Proof. rewrite add_new_nub. cbn [app existsb negb]. induction (nub l) as [|x r IH]; cbn; congruence. Qed.

Lemma add_new_app acc a b : add_new acc (a ++ b) = add_new (add_new acc a) b.
Proof. apply fold_left_app. Qed.

Lemma add_new_in l : forall acc x, In x (add_new acc l) <-> In x acc \/ In x l.
Proof.
  induction l as [|y l IH]; intros acc x; cbn [add_new fold_left]; [cbn; tauto|].
  fold (add_new (if existsb (str_eqb y) acc then acc else acc ++ [y]) l). rewrite IH.
  destruct (existsb (str_eqb y) acc) eqn:E.
  - apply existsb_str in E. cbn [In]. split; intros H; [tauto|]. destruct H as [H|[H|H]]; subst; tauto.
  - rewrite in_app_iff. cbn [In]. tauto.
Qed.

Lemma add_new_nodup l : forall acc, NoDup acc -> NoDup (add_new acc l).
Proof.
  induction l as [|y l IH]; intros acc N; cbn [add_new fold_left]; [exact N|].
  fold (add_new (if existsb (str_eqb y) acc then acc else acc ++ [y]) l). apply IH.
  destruct (existsb (str_eqb y) acc) eqn:E; [exact N|]. apply NoDup_app_last; [exact N|].
  intros I1. apply existsb_str in I1. congruence.
Qed.

Lemma add_new_ext l : forall acc, exists e, add_new acc l = acc ++ e.
Proof. intros acc. rewrite add_new_nub. eauto. Qed.

Lemma add_new_fresh l : forall acc, NoDup (acc ++ l) -> add_new acc l = acc ++ l.
Proof.
  induction l as [|x l IH]; intros acc N; cbn [add_new fold_left]; [rewrite app_nil_r; reflexivity|].
  fold (add_new (if existsb (str_eqb x) acc then acc else acc ++ [x]) l).
  assert (E : existsb (str_eqb x) acc = false).
  { destruct (existsb (str_eqb x) acc) eqn:E; [|reflexivity]. apply existsb_str in E. apply NoDup_remove_2 in N. exfalso. apply N, in_or_app. auto. }
  rewrite E, IH; rewrite <- app_assoc; [reflexivity|exact N].
Qed.

Lemma add_new_known l : forall acc, incl l acc -> add_new acc l = acc.
Proof.
  induction l as [|x l IH]; intros acc N; cbn [add_new fold_left]; [reflexivity|].
  fold (add_new (if existsb (str_eqb x) acc then acc else acc ++ [x]) l).
  rewrite (proj2 (existsb_str x acc)) by (apply N; left; reflexivity). apply IH. intros y I1. apply N. right. exact I1.
Qed.

(** * The builder *)

Definition nm (names : list str) (i : nat) : str := nth i names [].

Lemma nm_ext names e i : i < length names -> nm (names ++ e) i = nm names i.
Proof. intros. unfold nm. apply app_nth1. assumption. Qed.

Lemma index_of_some n l : forall i, index_of n l = Some i -> nth_error l i = Some n.
Proof.
  induction l as [|x l IH]; cbn; [discriminate|]. intros i. destruct (str_eqb x n) eqn:E.
  - intros X. injection X as <-. apply str_eqb_true in E. subst. reflexivity.
  - destruct (index_of n l) as [k|]; [|discriminate]. intros X. injection X as <-. cbn. apply IH. reflexivity.
Qed.

Lemma index_of_none n l : index_of n l = None <-> existsb (str_eqb n) l = false.
Proof.
  induction l as [|x l IH]; cbn; [tauto|].
  destruct (str_eqb x n) eqn:E.
  - apply str_eqb_true in E. subst. rewrite (proj2 (str_eqb_true n n) eq_refl). cbn. split; discriminate.
  - assert (E' : str_eqb n x = false).
    { destruct (str_eqb n x) eqn:E2; [|reflexivity]. apply str_eqb_true in E2. subst. rewrite (proj2 (str_eqb_true x x) eq_refl) in E. discriminate. }
    rewrite E'. cbn. rewrite <- IH. destruct (index_of n l); cbn; split; congruence.
Qed.

Lemma nth_error_nm l i n : nth_error l i = Some n -> i < length l /\ nm l i = n.
Proof. intros H. split; [apply nth_error_Some; congruence|]. unfold nm. apply nth_error_nth. exact H. Qed.

Lemma b_category_id_spec b n i b' : b_category_id b n = (i, b') ->
  b_definition b' = b_definition b /\ b_ranges b' = b_ranges b /\ b_index b' = add_new (b_index b) [n] /\
  i < length (b_index b') /\ nm (b_index b') i = n.
Proof.
  unfold b_category_id. cbn [add_new fold_left]. destruct (index_of n (b_index b)) as [k|] eqn:E; intros X; injection X as <- <-.
  - assert (existsb (str_eqb n) (b_index b) = true) as ->.
    { destruct (existsb (str_eqb n) (b_index b)) eqn:X; [reflexivity|]. apply index_of_none in X. congruence. }
    apply index_of_some, nth_error_nm in E. destruct E. auto.
  - apply index_of_none in E. rewrite E. cbn [b_definition b_ranges b_index]. repeat split.
    + rewrite app_length. cbn. lia.
    + unfold nm. rewrite app_nth2, Nat.sub_diag by lia. reflexivity.
Qed.

Lemma category_ids_spec names : forall b is b', category_ids b names = (is, b') ->
  b_definition b' = b_definition b /\ b_ranges b' = b_ranges b /\ b_index b' = add_new (b_index b) names /\
  Forall (fun i => i < length (b_index b')) is /\ map (nm (b_index b')) is = names.
Proof.
  induction names as [|n names IH]; intros b is b' H; cbn [category_ids] in H.
  - injection H as <- <-. repeat split. constructor.
  - destruct (b_category_id b n) as [i b1] eqn:E1. destruct (category_ids b1 names) as [is' b2] eqn:E2. injection H as <- <-.
    apply b_category_id_spec in E1. destruct E1 as (A1 & A2 & A3 & A4 & A5).
    destruct (IH _ _ _ E2) as (B1 & B2 & B3 & B4 & B5).
    assert (EX : exists e, b_index b2 = b_index b1 ++ e) by (rewrite B3; apply add_new_ext). destruct EX as [e EX].
    repeat split; try congruence.
    + rewrite B3, A3, <- add_new_app. reflexivity.
    + constructor; [|exact B4]. rewrite EX, app_length. lia.
    + cbn [map]. f_equal; [|exact B5]. rewrite EX, nm_ext by exact A4. exact A5.
Qed.

Definition ranges_of (ds : list directive) : list (N * N * list str) :=
  flat_map (fun d => match d with DRange lo hi names => [(lo, hi, names)] | DCategory _ _ => [] end) ds.

Definition range_matches (names : list str) (r : N * N * list category_id) (s : N * N * list str) : Prop :=
  let '(lo, hi, ids) := r in let '(lo', hi', ns) := s in
  lo = lo' /\ hi = hi' /\ Forall (fun i => i < length names) ids /\ map (nm names) ids = ns.

Definition built (b : builder) (ds : list directive) : Prop :=
  b_index b = add_new [] (flat_map mentions ds) /\
  b_definition b = map snd (flat_map defines ds) /\
  Forall2 (range_matches (b_index b)) (b_ranges b) (ranges_of ds).

Lemma range_matches_ext names e r s : range_matches names r s -> range_matches (names ++ e) r s.
Proof.
  destruct r as [[lo hi] ids], s as [[lo' hi'] ns]. intros (E1 & E2 & F & M). unfold range_matches. repeat split; auto.
  - revert F. apply Forall_impl. intros i Hi. rewrite app_length. lia.
  - rewrite <- M. apply map_ext_in. intros i I1. apply nm_ext. rewrite Forall_forall in F. auto.
Qed.

Lemma parse_line_built b ds line : built b ds ->
  match line_directive line with
  | Ok ds' => exists b', parse_line b line = Ok b' /\ built b' (ds ++ ds')
  | Err e => parse_line b line = Err e
  | Panic => parse_line b line = Panic
  end.
Proof.
  intros (B1 & B2 & B3). unfold line_directive, parse_line. set (text := trim (hd [] (split_char 35%N line))). cbv zeta.
  destruct (is_nil text) eqn:Nil; [exists b; rewrite app_nil_r; unfold built; auto|].
  destruct (starts_with (lit "0x") text).
  - unfold range_directive, parse_range. destruct (split_whitespace text) as [|f0 names]; [reflexivity|].
    cbn [idx nth_error bind tl]. fold (range_bounds f0). destruct (range_bounds f0) as [[lo hi]|e|]; cbn [bind]; try reflexivity.
    destruct (category_ids b names) as [is b'] eqn:C. apply category_ids_spec in C. destruct C as (C1 & C2 & C3 & C4 & C5).
    eexists. split; [reflexivity|]. unfold built. cbn [b_definition b_index b_ranges].
    unfold ranges_of. rewrite !flat_map_app. cbn [flat_map mentions defines app]. rewrite !app_nil_r.
    repeat split.
    + rewrite C3, B1, add_new_app. reflexivity.
    + congruence.
    + apply Forall2_app; [|constructor; [|constructor]; cbn; auto].
      rewrite C2, C3. destruct (add_new_ext names (b_index b)) as [e ->]. eapply Forall2_impl; [exact B3|]. intros r s _ _. apply range_matches_ext.
  - unfold category_directive, parse_category.
    destruct (split_ascii_whitespace text) as [|f0 [|f1 [|f2 [|f3 [|? ?]]]]]; try reflexivity.
    destruct (ok_or (parse_u32 f1) EParse) as [invoke| |]; cbn [bind]; try reflexivity.
    destruct (ok_or (parse_u32 f2) EParse) as [group| |]; cbn [bind]; try reflexivity.
    destruct (ok_or (parse_u32 f3) EParse) as [len| |]; cbn [bind]; try reflexivity.
    destruct (b_category_id b f0) as [i b'] eqn:C. apply b_category_id_spec in C. destruct C as (C1 & C2 & C3 & C4 & C5).
    eexists. split; [reflexivity|]. unfold built. cbn [b_definition b_index b_ranges].
    unfold ranges_of. rewrite !flat_map_app. cbn [flat_map mentions defines app]. rewrite !app_nil_r.
    repeat split.
    + rewrite C3, B1, add_new_app. reflexivity.
    + rewrite map_app, C1, B2. reflexivity.
    + rewrite C2, C3. destruct (add_new_ext [f0] (b_index b)) as [e ->]. eapply Forall2_impl; [exact B3|]. intros r s _ _. apply range_matches_ext.
Qed.

Lemma parse_built content :
  match directives content with
  | Ok ds => exists b, b_parse empty_builder content = Ok b /\ built b ds
  | Err e => b_parse empty_builder content = Err e
  | Panic => b_parse empty_builder content = Panic
  end.
Proof.
  unfold directives, b_parse.
  assert (G : forall ls b ds0, built b ds0 ->
    match mapM line_directive ls with
    | Ok dss => exists b', foldM parse_line ls b = Ok b' /\ built b' (ds0 ++ List.concat dss)
    | Err e => foldM parse_line ls b = Err e
    | Panic => foldM parse_line ls b = Panic
    end).
  { induction ls as [|l ls IH]; intros b ds0 B; cbn [mapM foldM].
    - exists b. cbn. rewrite app_nil_r. auto.
    - pose proof (parse_line_built b ds0 l B) as P. destruct (line_directive l) as [ds'|e|]; cbn [bind].
      + destruct P as (b' & P1 & P2). rewrite P1. cbn [bind]. specialize (IH b' (ds0 ++ ds') P2).
        destruct (mapM line_directive ls) as [dss|e|]; cbn [bind]; try exact IH.
        destruct IH as (b2 & E & B2). exists b2. split; [exact E|]. cbn [List.concat]. rewrite app_assoc. exact B2.
      + rewrite P. reflexivity.
      + rewrite P. reflexivity. }
  specialize (G (lines content) empty_builder []).
  assert (B0 : built empty_builder []) by (unfold built; cbn; repeat split; constructor).
  specialize (G B0). destruct (mapM line_directive (lines content)); cbn [bind]; exact G.
Qed.

(** * Looking up a code point *)

Definition ids_ok (names : list str) (ids : list nat) : Prop := Forall (fun i => i < length names) ids.

Lemma nm_inj names i j : NoDup names -> i < length names -> j < length names -> nm names i = nm names j -> i = j.
Proof. intros N Hi Hj E. apply (proj1 (NoDup_nth names []) N i j Hi Hj E). Qed.

Lemma contains_nm names buf i : NoDup names -> ids_ok names buf -> i < length names ->
  contains buf i = existsb (str_eqb (nm names i)) (map (nm names) buf).
Proof.
  intros N F Hi. unfold contains. rewrite existsb_map. induction F as [|j buf Hj F IH]; cbn [existsb]; [reflexivity|]. rewrite IH. apply (f_equal (fun x => x || _)).
  destruct (Nat.eqb_spec i j) as [->|D]; [symmetry; apply str_eqb_true; reflexivity|].
  destruct (str_eqb (nm names i) (nm names j)) eqn:E; [|reflexivity]. apply str_eqb_true in E. exfalso. apply D, (nm_inj names); auto.
Qed.

Lemma push_new_names names ids : NoDup names -> forall buf, ids_ok names buf -> ids_ok names ids ->
  ids_ok names (push_new buf ids) /\ map (nm names) (push_new buf ids) = add_new (map (nm names) buf) (map (nm names) ids).
Proof.
  intros N. induction ids as [|i ids IH]; intros buf FB FI; cbn [push_new map add_new fold_left]; [auto|].
  inversion FI as [|? ? Hi FI']; subst. rewrite (contains_nm names) by assumption.
  fold (add_new (if existsb (str_eqb (nm names i)) (map (nm names) buf) then map (nm names) buf else map (nm names) buf ++ [nm names i]) (map (nm names) ids)).
  destruct (existsb (str_eqb (nm names i)) (map (nm names) buf)).
  - apply IH; assumption.
  - destruct (IH (buf ++ [i])) as [A B].
    + apply Forall_app. split; [exact FB|constructor; auto].
    + exact FI'.
    + split; [exact A|]. etransitivity; [exact B|]. rewrite map_app. reflexivity.
Qed.

Lemma lookup_names b ds c : built b ds ->
  ids_ok (b_index b) (b_lookup_categories b c) /\ map (nm (b_index b)) (b_lookup_categories b c) = categories_of ds c.
Proof.
  intros (B1 & B2 & B3). assert (N : NoDup (b_index b)) by (rewrite B1; apply add_new_nodup; constructor).
  unfold b_lookup_categories, categories_of.
  set (step := fun (buf : list category_id) '(start, stop, ids) => if (start <=? c)%N && (c <=? stop)%N then push_new buf ids else buf).
  assert (ST : forall buf lo hi ids, step buf (lo, hi, ids) = if (lo <=? c)%N && (c <=? hi)%N then push_new buf ids else buf) by reflexivity.
  clearbody step.
  assert (G : forall rs ss, Forall2 (range_matches (b_index b)) rs ss -> forall buf, ids_ok (b_index b) buf ->
     ids_ok (b_index b) (fold_left step rs buf) /\
     map (nm (b_index b)) (fold_left step rs buf) =
       add_new (map (nm (b_index b)) buf) (flat_map (fun '(lo, hi, ns) => if (lo <=? c)%N && (c <=? hi)%N then ns else []) ss)).
  { induction 1 as [|[[lo hi] ids] [[lo' hi'] ns] rs ss (-> & -> & F & M) FF IH]; intros buf FB; cbn [fold_left flat_map]; [auto|].
    rewrite add_new_app, ST. destruct ((lo' <=? c)%N && (c <=? hi')%N).
    - destruct (push_new_names (b_index b) ids N buf FB F) as [P1 P2]. destruct (IH _ P1) as [Q1 Q2]. split; [exact Q1|].
      rewrite Q2, P2, M. reflexivity.
    - apply IH. exact FB. }
  destruct (G _ _ B3 []) as [G1 G2]; [constructor|]. cbn [map] in G2.
  assert (FM : flat_map (fun '(lo, hi, ns) => if (lo <=? c)%N && (c <=? hi)%N then ns else []) (ranges_of ds) = flat_map (gives c) ds).
  { unfold ranges_of. clear. induction ds as [|[lo hi ns|n d] ds IH]; cbn [flat_map gives app]; [reflexivity| |exact IH]. rewrite IH. reflexivity. }
  rewrite FM in G2. rewrite nub_add_new, <- G2. unfold category_id in *.
  destruct (fold_left step (b_ranges b) []) as [|i is]; [|cbn [map]; auto].
  cbn [map].
  assert (ED : existsb (str_eqb default_category_name) (b_index b) = existsb (str_eqb (lit "DEFAULT")) (flat_map mentions ds)).
  { apply eq_true_iff_eq. rewrite !existsb_str, B1, add_new_in. cbn [In]. fold default_category_name. tauto. }
  destruct (index_of default_category_name (b_index b)) as [i|] eqn:IX.
  - assert (X : existsb (str_eqb default_category_name) (b_index b) = true).
    { destruct (existsb (str_eqb default_category_name) (b_index b)) eqn:X; [reflexivity|]. apply index_of_none in X. congruence. }
    rewrite <- ED, X. apply index_of_some, nth_error_nm in IX. destruct IX as [I1 I2]. split; [constructor; auto|].
    cbn [map]. rewrite I2. reflexivity.
  - apply index_of_none in IX. rewrite <- ED, IX. split; [constructor|reflexivity].
Qed.

(** * The table *)

Definition strictly (l : list N) : Prop :=
  forall i j a b, i < j -> nth_error l i = Some a -> nth_error l j = Some b -> (a < b)%N.

Inductive above : N -> list N -> Prop :=
| above_nil x : above x []
| above_cons x y l : (x < y)%N -> above y l -> above x (y :: l).

Lemma above_in x l : above x l -> forall y, In y l -> (x < y)%N.
Proof.
  induction 1 as [|x y l H A IH]; intros z I1; cbn [In] in I1; [contradiction|]. destruct I1 as [<-|I1]; [exact H|].
  specialize (IH _ I1). lia.
Qed.

Lemma above_strictly l x : above x l -> strictly (x :: l).
Proof.
  revert x. induction l as [|y l IH]; intros x A i j a b L E1 E2.
  - destruct i as [|i]; [destruct j as [|j]; [lia|destruct j; discriminate]|destruct i; discriminate].
  - destruct i as [|i], j as [|j]; try lia.
    + cbn in E1. injection E1 as <-. eapply above_in; [exact A|]. apply (nth_error_In _ j). exact E2.
    + inversion A as [|? ? ? H A']; subst. apply (IH y A' i j a b); [lia|exact E1|exact E2].
Qed.

Definition sorted (l : list N) : Prop := match l with [] => True | x :: r => above x r end.

Lemma sorted_strictly l : sorted l -> strictly l.
Proof. destruct l; [intros _ i j a b L E; destruct i; discriminate|apply above_strictly]. Qed.

Lemma set_insert_above x l : forall z, above z l -> (z < x)%N -> above z (set_insert x l).
Proof.
  induction l as [|y l IH]; intros z A L; cbn [set_insert].
  - constructor; [exact L|constructor].
  - inversion A as [|? ? ? H A']; subst. destruct (N.eqb_spec x y); [exact A|]. destruct (N.ltb_spec x y).
    + constructor; [exact L|]. constructor; assumption.
    + constructor; [exact H|]. apply IH; [exact A'|lia].
Qed.

Lemma set_insert_sorted x l : sorted l -> sorted (set_insert x l).
Proof.
  destruct l as [|y l]; cbn [set_insert sorted]; [intros _; constructor|]. intros A.
  destruct (N.eqb_spec x y); [exact A|]. destruct (N.ltb_spec x y); cbn [sorted].
  - constructor; assumption.
  - apply set_insert_above; [exact A|lia].
Qed.

Lemma set_insert_in x l y : In y (set_insert x l) <-> x = y \/ In y l.
Proof.
  induction l as [|z l IH]; cbn [set_insert]; [cbn; tauto|].
  destruct (N.eqb_spec x z); [subst; cbn; tauto|]. destruct (N.ltb_spec x z); cbn [In]; [tauto|]. rewrite IH. tauto.
Qed.

Lemma fold_insert l : forall s, sorted s ->
  sorted (fold_left (fun s x => set_insert x s) l s) /\
 forall y, In y (fold_left (fun s x => set_insert x s) l s) <-> In y l \/ In y s.
Proof.
  induction l as [|x l IH]; intros s S; cbn [fold_left]; [cbn; tauto|].
  destruct (IH (set_insert x s) (set_insert_sorted x s S)) as [A B]. split; [exact A|].
  intros y. rewrite B, set_insert_in. cbn [In]. tauto.
Qed.

Lemma insert_sorted_in x l y : In y (insert_sorted x l) <-> x = y \/ In y l.
Proof. induction l as [|z l IH]; cbn [insert_sorted]; [cbn; tauto|]. destruct (x <=? z)%N; cbn [In]; [tauto|]. rewrite IH. tauto. Qed.

Lemma insert_sorted_above x l : forall z, above z l -> (z < x)%N -> ~ In x l -> above z (insert_sorted x l).
Proof.
  induction l as [|y l IH]; intros z A L NI; cbn [insert_sorted].
  - constructor; [exact L|constructor].
  - inversion A as [|? ? ? H A']; subst. cbn [In] in NI. destruct (N.leb_spec x y).
    + constructor; [exact L|]. constructor; [|assumption]. assert (x <> y) by (intros ->; tauto). lia.
    + constructor; [exact H|]. apply IH; [exact A'|lia|tauto].
Qed.

Lemma insert_sorted_sorted x l : sorted l -> ~ In x l -> sorted (insert_sorted x l).
Proof.
  destruct l as [|y l]; cbn [insert_sorted sorted]; [intros _ _; constructor|]. intros A NI. cbn [In] in NI.
  destruct (N.leb_spec x y); cbn [sorted].
  - constructor; [|assumption]. assert (x <> y) by (intros ->; tauto). lia.
  - apply insert_sorted_above; [exact A|lia|tauto].
Qed.

Lemma sort_unstable_in l y : In y (sort_unstable l) <-> In y l.
Proof. induction l as [|x l IH]; cbn [sort_unstable]; [tauto|]. rewrite insert_sorted_in, IH. cbn. tauto. Qed.

Lemma sort_unstable_sorted l : NoDup l -> sorted (sort_unstable l).
Proof.
  induction 1 as [|x l NI N IH]; cbn [sort_unstable]; [exact I|]. apply insert_sorted_sorted; [exact IH|]. rewrite sort_unstable_in. exact NI.
Qed.

Lemma above_nodup x l : above x l -> NoDup l /\ ~ In x l.
Proof.
  induction 1 as [|x y l H A [IH1 IH2]]; [split; [constructor|auto]|]. split; [constructor; assumption|].
  intros [E|I1]; [lia|]. pose proof (above_in _ _ A _ I1). lia.
Qed.
Lemma sorted_nodup l : sorted l -> NoDup l.
Proof. destruct l as [|x l]; [constructor|]. intros A. apply above_nodup in A. constructor; tauto. Qed.

(* a function of code points that changes only at the given boundaries is recovered from its table *)
Lemma table_eval search bs f : search_contract search -> sorted bs ->
  (forall b c, (b <= c)%N -> (forall x, In x bs -> (x <= b)%N \/ (c < x)%N) -> f b = f c) ->
  forall c, lt_eval_with search (lt_from_fn bs f) c = Ok (f c).
Proof.
  intros SC SB PC c. unfold lt_eval_with, lt_from_fn. cbn [lt_boundaries lt_values].
  set (bs' := if existsb (N.eqb 0) bs then bs else bs ++ [0%N]).
  set (l := sort_unstable bs').
  assert (IN : forall y, In y l <-> y = 0%N \/ In y bs).
  { intros y. unfold l. rewrite sort_unstable_in. unfold bs'. destruct (existsb (N.eqb 0) bs) eqn:E.
    - apply existsb_exists in E. destruct E as (z & I1 & E). apply N.eqb_eq in E. subst. split; [auto|]. intros [->|]; auto.
    - rewrite in_app_iff. cbn [In]. split; intros H; intuition. }
  assert (SL : sorted l).
  { apply sort_unstable_sorted. unfold bs'. destruct (existsb (N.eqb 0) bs) eqn:E; [apply sorted_nodup; exact SB|].
    apply NoDup_app_last; [apply sorted_nodup; exact SB|]. intros I1.
    assert (X : existsb (N.eqb 0) bs = true) by (apply existsb_exists; exists 0%N; auto). congruence. }
  pose proof (SC l c (sorted_strictly l SL)) as C. destruct (search l c) as [i|[|i]].
  - apply idx_nth. rewrite nth_error_map, C. reflexivity.
  - exfalso. destruct C as (_ & _ & C). assert (I0 : In 0%N l) by (apply IN; auto). apply In_nth_error in I0. destruct I0 as [k I0].
    specialize (C k 0%N ltac:(lia) I0). lia.
  - destruct C as (L & C1 & C2). destruct (nth_error l i) as [b|] eqn:E; [|apply nth_error_None in E; lia].
    erewrite idx_nth by (rewrite nth_error_map, E; reflexivity). f_equal.
    pose proof (C1 i b ltac:(lia) E). apply PC; [lia|]. intros x I1.
    assert (I2 : In x l) by (apply IN; auto). apply In_nth_error in I2. destruct I2 as [k I2].
    destruct (Nat.le_gt_cases k i) as [HK|HK].
    + left. destruct (Nat.eq_dec k i) as [->|D]; [rewrite E in I2; injection I2 as ->; lia|].
      assert (Hk : k < i) by lia. pose proof (sorted_strictly l SL k i x b Hk I2 E). lia.
    + right. eapply C2; [|exact I2]. lia.
Qed.

Lemma binary_search_contract : search_contract binary_search.
Proof.
  intros l x S. unfold binary_search.
  assert (G : forall l n pre, (forall i j a b, i < j -> nth_error (pre ++ l) i = Some a -> nth_error (pre ++ l) j = Some b -> (a < b)%N) ->
     length pre = n -> (forall a, In a pre -> (a < x)%N) ->
     match binary_search_from n l x with
     | Found i => nth_error (pre ++ l) i = Some x
     | NotFound i => i <= length (pre ++ l) /\ (forall j a, j < i -> nth_error (pre ++ l) j = Some a -> (a < x)%N) /\
        (forall j a, i <= j -> nth_error (pre ++ l) j = Some a -> (x < a)%N)
     end).
  { clear. induction l as [|y l IH]; intros n pre S L B; cbn [binary_search_from].
    - rewrite app_nil_r in *. split; [lia|]. split.
      + intros j a _ E. apply B. eapply nth_error_In; exact E.
      + intros j a Hj E. assert (j < length pre) by (apply nth_error_Some; congruence). lia.
    - destruct (N.eqb_spec y x) as [->|D].
      + rewrite nth_error_app2, L, Nat.sub_diag by lia. reflexivity.
      + destruct (N.ltb_spec x y) as [H|H].
        * split; [rewrite app_length; cbn; lia|]. split.
          -- intros j a Hj E. rewrite nth_error_app1 in E by lia. apply B. eapply nth_error_In; exact E.
          -- intros j a Hj E. destruct (Nat.eq_dec j n) as [->|NE].
             ++ rewrite nth_error_app2, L, Nat.sub_diag in E by lia. injection E as <-. exact H.
             ++ assert (En : nth_error (pre ++ y :: l) n = Some y) by (rewrite nth_error_app2, L, Nat.sub_diag by lia; reflexivity).
                assert (Hn : n < j) by lia. pose proof (S n j y a Hn En E). lia.
        * specialize (IH (1 + n) (pre ++ [y])). rewrite <- app_assoc in IH. cbn [app] in IH. apply IH; [exact S|rewrite app_length; cbn; lia|].
          intros a I1. apply in_app_iff in I1. destruct I1 as [I1|[<-|[]]]; [auto|lia]. }
  exact (G l 0 [] S eq_refl (fun a F => match F with end)).
Qed.

Lemma lookup_piecewise b : forall x c, (x <= c)%N ->
  (forall y, In y (flat_map (fun '(low, high, _) => [low; (high + 1)%N]) (b_ranges b)) -> (y <= x)%N \/ (c < y)%N) ->
  b_lookup_categories b x = b_lookup_categories b c.
Proof.
  intros x c L H. unfold b_lookup_categories.
  assert (G : forall rs buf, (forall y, In y (flat_map (fun '(low, high, _) => [low; (high + 1)%N]) rs) -> (y <= x)%N \/ (c < y)%N) ->
    fold_left (fun (buf : list category_id) '(start, stop, ids) => if (start <=? x)%N && (x <=? stop)%N then push_new buf ids else buf) rs buf =
    fold_left (fun (buf : list category_id) '(start, stop, ids) => if (start <=? c)%N && (c <=? stop)%N then push_new buf ids else buf) rs buf).
  { clear H. induction rs as [|[[lo hi] ids] rs IH]; intros buf H; cbn [fold_left]; [reflexivity|].
    cbn [flat_map app] in H. pose proof (H lo (or_introl eq_refl)). pose proof (H (hi + 1)%N (or_intror (or_introl eq_refl))).
    replace ((lo <=? c)%N && (c <=? hi)%N) with ((lo <=? x)%N && (x <=? hi)%N) by lia.
    apply IH. intros y I1. apply H. right. right. exact I1. }
  rewrite (G _ [] H). reflexivity.
Qed.

Lemma mapM_names names ids : ids_ok names ids -> mapM (idx names) ids = Ok (map (nm names) ids).
Proof.
  intros F. apply mapM_ok_map. intros i I1. unfold ids_ok in F. rewrite Forall_forall in F. apply idx_nth. unfold nm. apply nth_error_nth'. auto.
Qed.

Lemma char_def_categories content ds : directives content = Ok ds ->
  exists cd, char_def_of content = Ok cd /\ categories cd = nub (flat_map mentions ds) /\
   forall search c, search_contract search ->
      exists ids, lt_eval_with search (cds_mapping cd) c = Ok ids /\ mapM (category_name cd) ids = Ok (categories_of ds c).
Proof.
  intros D. pose proof (parse_built content) as P. rewrite D in P. destruct P as (b & P & B).
  exists (b_build b). unfold char_def_of. rewrite P. cbn [bind]. split; [reflexivity|]. split; [rewrite nub_add_new; exact (proj1 B)|].
  intros search c SC. exists (b_lookup_categories b c).
  set (cuts := flat_map (fun '(low, high, _) => [low; (high + 1)%N]) (b_ranges b)).
  destruct (fold_insert cuts [] Logic.I) as [F1 F2].
  split.
  - unfold b_build, b_build_lookup_table. cbn [cds_mapping]. fold cuts. apply table_eval; [exact SC|exact F1|].
    intros x y L H. apply lookup_piecewise; [exact L|]. intros z I1. apply H. apply F2. auto.
  - destruct (lookup_names b ds c B) as [L1 L2]. unfold category_name, b_build. cbn [cds_names]. rewrite mapM_names by exact L1. rewrite L2. reflexivity.
Qed.

Lemma char_def_fails content : 
  match directives content with
  | Ok _ => True
  | Err e => char_def_of content = Err e
  | Panic => char_def_of content = Panic
  end.
Proof. pose proof (parse_built content) as P. destruct (directives content); [exact Logic.I| |]; unfold char_def_of; rewrite P; reflexivity. Qed.

(** * Definitions *)

Lemma defined_first_index ds : defined_first ds -> add_new [] (flat_map mentions ds) = map fst (flat_map defines ds).
Proof.
  induction ds as [|d ds IH] using rev_ind; intros [N F]; [reflexivity|].
  assert (DF : defined_first ds).
  { split.
    - rewrite flat_map_app, map_app in N. eapply NoDup_app_l; exact N.
    - intros pre lo hi names post E. apply (F pre lo hi names (post ++ [d])). rewrite E, <- app_assoc. reflexivity. }
  specialize (IH DF). rewrite !flat_map_app, map_app, add_new_app, IH. destruct d as [lo hi names|name data]; cbn [flat_map mentions defines app map fst].
  - rewrite !app_nil_r. apply add_new_known. intros n I1. eapply (F ds lo hi names []); [reflexivity|exact I1].
  - apply add_new_fresh. rewrite flat_map_app, map_app in N. exact N.
Qed.

Lemma char_def_definitions content ds cd : directives content = Ok ds -> defined_first ds -> char_def_of content = Ok cd ->
  categories cd = map fst (flat_map defines ds) /\
 forall id name data, nth_error (flat_map defines ds) id = Some (name, data) ->
    category_name cd id = Ok name /\ lookup_definition cd id = Ok data.
Proof.
  intros D DF H. pose proof (parse_built content) as P. rewrite D in P. destruct P as (b & P & B1 & B2 & B3).
  unfold char_def_of in H. rewrite P in H. cbn [bind] in H. injection H as <-.
  rewrite defined_first_index in B1 by exact DF. unfold categories, category_name, lookup_definition, b_build. cbn [cds_names cds_definitions].
  split; [exact B1|]. intros id name data E. rewrite B1, B2. split; apply idx_nth; rewrite nth_error_map, E; reflexivity.
Qed.
