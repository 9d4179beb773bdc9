(** A built dictionary with a user dictionary, and where tokens come from. *)
From Coq Require Import String.
From Coq Require Import List NArith ZArith Bool Lia ZifyBool ZifyNat ZifyN.
From Verif Require Import MBase MUtf8 MText MCodec MDict MCharDef MUnk MBincode MLattice MTokenizer MDetails MBuild MConfig MBuilders
  STok SBuild SMatrix SCharDef SUnk SData SBuilders LBase LUtf8 LBuild LSysDict LUserDict LCharDef LTok LProv LBuilders.
Import ListNotations.
Local Open Scope list_scope.

Lemma user_numbers_i16 o r c l rr : is_i16 (uo_simple_cost o) -> user_numbers o r = Some (c, l, rr) -> is_i16 c.
Proof.
  unfold user_numbers. intros K H. destruct (Nat.eqb _ _); [injection H as <- _ _; exact K|].
  destruct r as [|? [|f1 [|f2 [|f3 r]]]]; try discriminate.
  destruct (parse_i16 f3) as [c'|] eqn:P1; [|discriminate]. destruct (parse_u16 f1); [|discriminate]. destruct (parse_u16 f2); [|discriminate].
  injection H as <- _ _. eapply parse_i16_range. exact P1.
Qed.

Lemma user_added d A k rows ud C : (forall m, represents (Tokenizer d None m) A) -> a_fsize A = c_fsize C -> a_bsize A = c_bsize C ->
  build_user (kind_user_options k) rows = Ok ud -> user_room (kind_user_options k) rows -> user_ids_fit k rows C ->
  exists tbl, (forall m, represents (Tokenizer d (Some ud) m) (with_user A tbl)) /\
    forall s, found_of (user_found (kind_user_options k) ud) (user_rows_for s rows) (entries_of tbl s).
Proof.
  intros R F1 F2 B L IDS. destruct (user_built_any _ _ _ L B) as (tbl & DM & _ & _ & UF). exists tbl. split; [|exact UF].
  intros m. destruct (R m) as [R1 R2 R3 R4 R5 R6 R7 R8 R9 R10]. constructor; cbn [t_dictionary t_user with_user a_sys a_usr a_cats a_invoke a_group a_unk a_conn a_fsize a_bsize] in *; try assumption.
  intros s w I1. destruct (found_of_in _ _ _ _ (UF s) I1) as (r & I2 & (N & _)). unfold user_rows_for in I2. apply filter_In in I2.
  unfold user_ids_fit in IDS. rewrite Forall_forall in IDS. destruct (IDS r (proj1 I2) _ _ _ N) as [A1 A2].
  unfold entry_ok. cbn [with_user a_fsize a_bsize]. rewrite F1, F2. split; [exact A2|]. split; [exact A1|].
  eapply user_numbers_i16; [exact (proj1 (SBuild.ur_cost _ _ L))|exact N].
Qed.

Lemma says_marked k S C d A ud rows tbl : says k S C d A ->
  (forall s, found_of (user_found (kind_user_options k) ud) (user_rows_for s rows) (entries_of tbl s)) -> marked (with_user A tbl).
Proof.
  intros SY UF. constructor; cbn [with_user a_sys a_usr a_unk].
  - intros s w I1. destruct (found_of_in _ _ _ _ (sy_words _ _ _ _ _ SY s) I1) as (r & _ & (_ & X & Y & _)). auto.
  - intros s w I1. destruct (found_of_in _ _ _ _ (UF s) I1) as (r & _ & (_ & X & Y & _)). auto.
  - intros id w I1. destruct (nth_error (flat_map defines (c_char C)) id) as [[name x]|] eqn:E.
    + destruct (sy_definitions _ _ _ _ _ SY id name x E) as (_ & _ & G). destruct (Forall2_in_r _ _ _ _ G I1) as (l & _ & (_ & _ & _ & ->)). reflexivity.
    + rewrite (sy_undefined _ _ _ _ _ SY id E) in I1. destruct I1.
Qed.

(* the details of a token, and where they come from *)
Lemma token_comes_from k S C d A ud rows tbl m : says k S C d A -> represents (Tokenizer d (Some ud) m) (with_user A tbl) ->
  (forall s, found_of (user_found (kind_user_options k) ud) (user_rows_for s rows) (entries_of tbl s)) ->
  forall text ts tok, valid_str text -> tokenize (Tokenizer d (Some ud) m) text = Some (Ok ts) -> tiles text ts -> In tok ts ->
  exists ds, get_details d (Some ud) (tk_word tok) None = Ok (Some ds, Some ds) /\ comes_from k S C rows (tk_text tok) ds.
Proof.
  intros SY R UF text ts tok V T TI I1. pose proof (says_marked _ _ _ _ _ _ _ _ SY UF) as MK.
  destruct (token_source _ _ _ _ _ R MK V T I1) as (H1 & H2 & H3). unfold get_details.
  destruct (is_unknown (tk_word tok)) eqn:U.
  - exists UNK. split; [reflexivity|]. destruct (H1 eq_refl) as (e & c & r & ord & cat & _ & TX & HC & IE). rewrite TX.
    cbn [with_user a_unk a_cats] in *. unfold has_cat in HC. cbn [a_cats] in HC.
    assert (VC : valid_char c).
    { assert (X : exists pre rest, text = pre ++ (tk_text tok) ++ rest).
      { clear - TI I1. unfold tiles in TI. revert TI. generalize 0%nat at 1. generalize 0%nat. revert text. induction ts as [|t ts IH]; [destruct I1|].
        intros text p o (_ & _ & _ & _ & _ & rest & -> & TI). destruct I1 as [->|I1]; [exists [], rest; reflexivity|].
        destruct (IH I1 _ _ _ TI) as (pre & rest' & ->). exists (tk_text t ++ pre), rest'. rewrite <- app_assoc. reflexivity. }
      destruct X as (pre & rest & ->). rewrite TX in V. unfold valid_str in V. rewrite !Forall_app in V. destruct V as (_ & V & _). inversion V; assumption. }
    pose proof (sy_categories _ _ _ _ _ SY c VC) as F. apply nth_error_In in HC. destruct (Forall2_in_l _ _ _ _ F HC) as (name & I2 & x & E).
    destruct (sy_definitions _ _ _ _ _ SY cat name x E) as (_ & _ & G). destruct (Forall2_in_r _ _ _ _ G IE) as (l & I3 & _).
    apply filter_In in I3. destruct I3 as [I3 EQ]. apply str_eqb_true in EQ. subst name. eapply from_unknown; eassumption.
  - destruct (is_system (tk_word tok)) eqn:SYS.
    + destruct (H2 eq_refl SYS) as (e & IE & W). cbn [with_user a_sys] in IE.
      destruct (found_of_in _ _ _ _ (sy_words _ _ _ _ _ SY _) IE) as (r & I2 & (N & _ & _ & D)). rewrite W, D. cbn [bind]. eexists. split; [reflexivity|].
      unfold sys_rows_for in I2. apply filter_In in I2. destruct I2 as [I2 EQ]. rewrite N in EQ. apply str_eqb_true in EQ. rewrite <- EQ. apply from_system; [exact I2|congruence].
    + destruct (H3 eq_refl SYS) as (e & IE & W). cbn [with_user a_usr] in IE.
      destruct (found_of_in _ _ _ _ (UF _) IE) as (r & I2 & (N & _ & _ & ds & D1 & D2)). rewrite W, D2. cbn [bind]. exists ds. split; [reflexivity|].
      unfold user_rows_for in I2. apply filter_In in I2. destruct I2 as [I2 EQ]. apply str_eqb_true in EQ. rewrite <- EQ. eapply from_user; eassumption.
Qed.

Theorem user_meaning be e k dir S C urows ud : has_sources be k dir S -> readable k S C ->
  yada_works be e (system_words k (s_rows S)) -> be_compress be = false ->
  build_user (kind_user_options k) urows = Ok ud -> user_room (kind_user_options k) urows -> user_ids_fit k urows C ->
  exists files, build_dictionary be k dir = Ok files /\
    forall out, files_at e out files -> exists d A tbl, load_dictionary e out = Ok d /\ says k S C d A /\
      (forall s, found_of (user_found (kind_user_options k) ud) (user_rows_for s urows) (entries_of tbl s)) /\
      forall m, represents (Tokenizer d (Some ud) m) (with_user A tbl).
Proof.
  intros HS R Y NC B L IDS. destruct (built_dictionary be e k dir S C HS R Y NC) as (files & BD & LO). exists files. split; [exact BD|].
  intros out FA. destruct (LO out FA) as (d & A & LD & SY & RP). destruct (sy_sizes _ _ _ _ _ SY) as [S1 S2].
  destruct (user_added d A k urows ud C RP S1 S2 B L IDS) as (tbl & R' & UF). exists d, A, tbl. auto.
Qed.

Theorem tokens_come_from be e k dir S C urows ud : has_sources be k dir S -> readable k S C -> complete C ->
  yada_works be e (system_words k (s_rows S)) -> be_compress be = false ->
  build_user (kind_user_options k) urows = Ok ud -> user_room (kind_user_options k) urows -> user_ids_fit k urows C ->
  exists files, build_dictionary be k dir = Ok files /\
    forall out, files_at e out files -> exists d, load_dictionary e out = Ok d /\
      forall m text, valid_str text -> exists ts, tokenize (Tokenizer d (Some ud) m) text = Some (Ok ts) /\ tiles text ts /\
        forall tok, In tok ts -> exists ds, get_details d (Some ud) (tk_word tok) None = Ok (Some ds, Some ds) /\ comes_from k S C urows (tk_text tok) ds.
Proof.
  intros HS R CO Y NC B L IDS. destruct (user_meaning be e k dir S C urows ud HS R Y NC B L IDS) as (files & BD & LO). exists files. split; [exact BD|].
  intros out FA. destruct (LO out FA) as (d & A & tbl & LD & SY & UF & RP). exists d. split; [exact LD|]. intros m text V. pose proof (RP m) as R'.
  assert (CV : covered (with_user A tbl) text) by exact (says_covered _ _ _ _ _ _ SY V CO).
  destruct (tokenize_tiles _ _ R' text V CV) as (ts & T & TI). exists ts. split; [exact T|]. split; [exact TI|].
  intros tok I1. exact (token_comes_from k S C d A ud urows tbl m SY R' UF text ts tok V T TI I1).
Qed.
