(** unk.def: the entries of a category are the lines about it. *)
From Coq Require Import List NArith ZArith Bool Lia ZifyBool ZifyNat ZifyN.
From Verif Require Import MBase MUtf8 MText MCodec MUnk MLattice SUnk LBase LUtf8 LBuild LMatrix LCharDef.
Import ListNotations.
Local Open Scope list_scope.

Definition entry_of (u : unk_line) : unk_entry := UnkEntry (ul_name u) (ul_left u) (ul_right u) (ul_cost u).

Lemma reads_as_parse n line u : reads_as n line u -> parse_dictionary_entry (split_char 44%N line) n = Ok (entry_of u).
Proof.
  intros (L & f1 & f2 & f3 & rest & E & H1 & H2 & H3). unfold parse_dictionary_entry. rewrite L, Nat.eqb_refl. cbn [negb].
  rewrite E. cbn [idx nth_error bind]. rewrite H1, H2, H3. reflexivity.
Qed.

Lemma matching_sorted name us : forall i x, (x < i)%N -> above x (matching_from i us name).
Proof.
  induction us as [|u us IH]; intros i x L; cbn [matching_from]; [constructor|].
  destruct (str_eqb (ue_surface u) name); [constructor; [exact L|]|]; apply IH; lia.
Qed.

Lemma matching_in name us : forall i k, In k (matching_from i (map entry_of us) name) <->
  (i <= k)%N /\ exists u, nth_error us (N.to_nat (k - i)) = Some u /\ ul_name u = name.
Proof.
  induction us as [|u us IH]; intros i k; cbn [map matching_from].
  - split; [contradiction|]. intros (_ & u & E & _). destruct (N.to_nat (k - i)); discriminate.
  - assert (R : In k (matching_from (i + 1) (map entry_of us) name) <->
       (i < k)%N /\ exists v, nth_error (u :: us) (N.to_nat (k - i)) = Some v /\ ul_name v = name).
    { rewrite IH. split; intros (L & v & E & H); (split; [lia|]); exists v; (split; [|exact H]).
      - replace (N.to_nat (k - i)) with (S (N.to_nat (k - (i + 1)))) by lia. exact E.
      - replace (N.to_nat (k - i)) with (S (N.to_nat (k - (i + 1)))) in E by lia. exact E. }
    cbn [entry_of ue_surface]. destruct (str_eqb (ul_name u) name) eqn:E.
    + apply str_eqb_spec in E. cbn [In]. rewrite R. split.
      * intros [<-|(L & H)]; [split; [lia|]; exists u; rewrite N.sub_diag; auto|split; [lia|exact H]].
      * intros (L & H). destruct (N.eq_dec i k); [auto|right; split; [lia|exact H]].
    + rewrite R. split; intros (L & v & E2 & H); [split; [lia|]; eauto|]. split; [|eauto].
      destruct (N.eq_dec i k) as [->|]; [|lia]. rewrite N.sub_diag in E2. injection E2 as <-. subst name.
      rewrite str_eqb_refl in E. discriminate.
Qed.

Lemma unk_def_spec cats content n us : Forall2 (reads_as n) (lines content) us -> Forall fits us ->
  exists d, parse_unk cats content n = Ok d /\
    (forall c name, nth_error cats c = Some name -> exists ids, ud_lookup_word_ids d c = Ok ids /\ lines_about name us ids) /\
    (forall k u, nth_error us (N.to_nat k) = Some u -> exists e, ud_word_entry d k = Ok e /\
       we_cost e = ul_cost u /\ we_left e = ul_left u /\ we_right e = ul_right u /\ is_unknown (we_id e) = true /\ is_system (we_id e) = true).
Proof.
  intros F FI. exists (UnknownDictionary (make_category_references cats (map entry_of us)) (make_costs_array (map entry_of us))).
  split; [|split].
  - unfold parse_unk.
    assert (E : mapM (fun line => parse_dictionary_entry (split_char 44%N line) n) (lines content) = Ok (map entry_of us)).
    { clear FI. induction F as [|l u ls us R F IH]; cbn [mapM map]; [reflexivity|]. rewrite (reads_as_parse _ _ _ R). cbn [bind]. rewrite IH. reflexivity. }
    rewrite E. reflexivity.
  - intros c name E. exists (get_entry_id_matching_surface (map entry_of us) name). split.
    + unfold ud_lookup_word_ids, make_category_references. cbn [ud_references]. apply idx_nth. rewrite nth_error_map, E. reflexivity.
    + unfold get_entry_id_matching_surface. split.
      * apply sorted_strictly. destruct (map entry_of us) as [|e es]; cbn [matching_from]; [exact I|].
        destruct (str_eqb (ue_surface e) name); cbn [sorted]; [apply matching_sorted; lia|].
        pose proof (matching_sorted name es (0 + 1) 0 ltac:(lia)) as A. destruct A; [exact I|assumption].
      * intros k. rewrite matching_in. rewrite N.sub_0_r. split; [intros (_ & H); exact H|intros H; split; [lia|exact H]].
  - intros k u E. rewrite Forall_forall in FI. specialize (FI u (nth_error_In _ _ E)). destruct FI as (F1 & F2 & F3).
    eexists. split.
    + unfold ud_word_entry, make_costs_array. cbn [ud_costs]. apply idx_nth. rewrite !nth_error_map, E. reflexivity.
    + cbn [we_cost we_left we_right we_id entry_of ue_cost ue_left ue_right].
      unfold is_u16 in F1, F2. rewrite wrap16_id by exact F3.
      rewrite !wrap_u_id by (change (2 ^ 16)%Z with 65536%Z; lia). rewrite !N2Z.id. auto.
Qed.
