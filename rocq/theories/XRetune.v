(** A tokenizer whose costs can be chosen, for the examples in PRetune.v. *)
From Coq Require Import List NArith ZArith Bool Lia ZifyBool ZifyNat ZifyN String.
From Verif Require Import MBase MUtf8 MText MCodec MDict MCharDef MUnk MLattice MTokenizer STok SRetune LBase LUtf8 LDict XSample.
Import ListNotations.
Local Open Scope string_scope.
Local Open Scope list_scope.

(* the system word abc of cost s, the user word ab of cost u, unknown words of cost n, connections of cost k *)
Definition tuned_unk (n : Z) : word_entry := WordEntry (WordId u32_max true) n 0 0.
Definition tuned (s u n k : Z) (m : mode) : tokenizer :=
  Tokenizer (Dictionary (PrefixDict [(utf8 (lit "abc"), 1%N)] (we_serialize (sample_entry 0 true s)) true) (ConnMatrix (i16_bytes k) 1) sample_chars
               (UnknownDictionary [[0%N]] [tuned_unk n]) [] [])
            (Some (UserDictionary (PrefixDict [(utf8 (lit "ab"), 1%N)] (we_serialize (sample_entry 0 false u)) false) [] [])) m.
Definition tuned_meaning (s u n k : Z) : adict :=
  ADict [(lit "abc", [sample_entry 0 true s])] [(lit "ab", [sample_entry 0 false u])] (fun _ => [0%nat]) (fun _ => false) (fun _ => true) (fun _ => [tuned_unk n]) (fun _ _ => k) 1 1.

Definition tuned_fine (s u n k : Z) : Prop :=
  (is_i16 s /\ is_i16 u /\ is_i16 n /\ is_i16 k) /\
  pd_entries (PrefixDict [(utf8 (lit "abc"), 1%N)] (we_serialize (sample_entry 0 true s)) true) 1 = Ok [sample_entry 0 true s] /\
  pd_entries (PrefixDict [(utf8 (lit "ab"), 1%N)] (we_serialize (sample_entry 0 false u)) false) 1 = Ok [sample_entry 0 false u] /\
  cm_cost (ConnMatrix (i16_bytes k) 1) 0 0 = Ok k.
Lemma tuned_represents s u n k m : tuned_fine s u n k -> represents (tuned s u n k m) (tuned_meaning s u n k).
Proof.
  intros ((B1 & B2 & B3 & B4) & H1 & H2 & H3). constructor.
  - apply dict_means_table. unfold da_of. cbn [tuned t_dictionary d_dict pd_da tuned_meaning a_sys]. constructor; [|constructor]. split; [reflexivity|]. split; [apply ascii_valid|exact H1].
  - cbn [tuned t_user u_dict tuned_meaning a_usr]. apply dict_means_table. unfold da_of. cbn [pd_da]. constructor; [|constructor]. split; [reflexivity|]. split; [apply ascii_valid|exact H2].
  - intros c V. unfold lookup_categories, lt_eval, lt_eval_with, binary_search.
    cbn [tuned t_dictionary d_chardef sample_chars cds_mapping lt_boundaries lt_values binary_search_from].
    destruct (0 =? c)%N; [reflexivity|]. destruct (c <? 0)%N eqn:E; [lia|]. reflexivity.
  - intros c j V [<-|[]]. exists 0%N. reflexivity.
  - intros c j V [<-|[]]. eexists. split; reflexivity.
  - intros f b F B. cbn [tuned_meaning a_fsize a_bsize] in *. assert (f = 0%N) by lia. assert (b = 0%N) by lia. subst. split; [exact H3|exact B4].
  - cbn. lia.
  - intros j e I. cbn [tuned_meaning a_sys entries_of] in I. destruct (str_eqb _ j); [|destruct I]; destruct I as [<-|[]]. unfold entry_ok. cbn. split; [lia|]. split; [lia|]. exact B1.
  - intros j e I. cbn [tuned_meaning a_usr entries_of] in I. destruct (str_eqb _ j); [|destruct I]; destruct I as [<-|[]]. unfold entry_ok. cbn. split; [lia|]. split; [lia|]. exact B2.
  - intros c j e V [<-|[]] [<-|[]]. unfold entry_ok. cbn. split; [lia|]. split; [lia|]. exact B3.
Qed.

Lemma tuned_distinct s u n k : distinct_entries (tuned_meaning s u n k).
Proof.
  constructor.
  - intros j. cbn [tuned_meaning a_usr a_sys entries_of]. destruct (str_eqb (lit "ab") j), (str_eqb (lit "abc") j); cbn [app]; repeat constructor; cbn; intuition discriminate.
  - intros j. repeat constructor. intros [].
  - intros c j j' e [<-|[]] [<-|[]] _ _. reflexivity.
  - intros j cat e I [<-|[]]. apply in_app_iff in I as [I|I]; cbn [tuned_meaning a_usr a_sys entries_of] in I; destruct (str_eqb _ j); try (destruct I; fail); destruct I as [I|[]]; discriminate I.
  - intros c. repeat constructor. intros [].
Qed.

Lemma tuned_retuned c s u n k s' u' n' k' : c (sample_entry 0 true s) = s' -> c (sample_entry 0 false u) = u' -> c (tuned_unk n) = n' ->
  retuned c (fun _ _ => k') (tuned_meaning s u n k) (tuned_meaning s' u' n' k').
Proof.
  intros <- <- <-. split; try reflexivity; intros j; cbn [tuned_meaning a_sys a_usr entries_of]; [destruct (str_eqb (lit "abc") j)|destruct (str_eqb (lit "ab") j)]; reflexivity.
Qed.

(* the costs used below *)
Ltac fine := split; [unfold is_i16; lia|]; vm_compute; auto.
Lemma tuned_base : tuned_fine 100 100 50 10. Proof. fine. Qed.
Lemma tuned_user : tuned_fine 100 (-100) 50 10. Proof. fine. Qed.
Lemma tuned_dear : tuned_fine 100 300 50 10. Proof. fine. Qed.
Lemma tuned_joins : tuned_fine 100 100 50 (-100). Proof. fine. Qed.
Lemma tuned_twice : tuned_fine 200 200 100 20. Proof. fine. Qed.
