(** Debug builds with a built dictionary and a user dictionary. *)
From Coq Require Import List NArith ZArith Bool Lia ZifyBool ZifyNat ZifyN.
From Verif Require Import MBase MUtf8 MText MCodec MDict MCharDef MUnk MLattice MTokenizer MLattice32 MDebug MBuild MConfig MBuilders.
From Verif Require Import STok SWork SCast SDebug SBuild SBuilders LUtf8 LTok LCast LDebug LSysDict LBuilders LWhole.
Import ListNotations.

Lemma built_small be e k dir S C : has_sources be k dir S -> readable k S C -> yada_works be e (system_words k (s_rows S)) -> be_compress be = false ->
  exists files, build_dictionary be k dir = Ok files /\ forall out, files_at e out files -> exists d A, load_dictionary e out = Ok d /\ says k S C d A /\
    (forall m, represents (Tokenizer d None m) A) /\ small_matrix (d_matrix d) A.
Proof.
  intros HS R Y NC. destruct (build_written be e k dir S C HS R Y NC) as (cd & u & f & da & mb & m & B & CD & CR & U & UR & BD & DA & _ & ML & MB & MC).
  destruct (built_dictionary be e k dir S C HS R Y NC) as (files & B' & LO). exists files. split; [exact B'|]. intros out FA. destruct (LO out FA) as (d & A & LD & SY & RP).
  exists d, A. split; [exact LD|]. split; [exact SY|]. split; [exact RP|]. rewrite B in B'. injection B' as <-. rewrite (files_load e out cd u f da mb m FA CR UR DA ML) in LD. injection LD as <-.
  unfold small_matrix. cbn [sys_dictionary d_matrix]. destruct (sy_sizes _ _ _ _ _ SY) as [-> ->]. rewrite MB. destruct (rd_sizes _ _ _ R) as [Z1 Z2].
  assert (Z.of_N (c_fsize C - 1) * Z.of_N (c_bsize C) <= 32767 * 32767)%Z by (apply Z.mul_le_mono_nonneg; lia). lia.
Qed.

Theorem built_user_agrees be e k dir S C urows ud :
  has_sources be k dir S -> readable k S C -> yada_works be e (system_words k (s_rows S)) -> be_compress be = false ->
  build_user (kind_user_options k) urows = Ok ud -> user_room (kind_user_options k) urows -> user_ids_fit k urows C ->
  exists files, build_dictionary be k dir = Ok files /\ forall out, files_at e out files -> exists d A tbl, load_dictionary e out = Ok d /\ says k S C d A /\
    (forall s, found_of (user_found (kind_user_options k) ud) (user_rows_for s urows) (entries_of tbl s)) /\
    forall m text ss, valid_str text -> sentences text ss -> Forall (fits_i32 m) ss -> Forall (fits_u32 (with_user A tbl)) ss ->
      tokenize_debug (Tokenizer d (Some ud) m) text = tokenize (Tokenizer d (Some ud) m) text /\
      tokenize32 (Tokenizer d (Some ud) m) text = tokenize (Tokenizer d (Some ud) m) text.
Proof.
  intros HS R Y NC B L IDS. destruct (built_small be e k dir S C HS R Y NC) as (files & BD & LO). exists files. split; [exact BD|]. intros out FA.
  destruct (LO out FA) as (d & A & LD & SY & RP & SM). destruct (sy_sizes _ _ _ _ _ SY) as [F1 F2].
  destruct (user_added d A k urows ud C RP F1 F2 B L IDS) as (tbl & RU & UF). exists d, A, tbl. split; [exact LD|]. split; [exact SY|]. split; [exact UF|].
  intros m text ss V SS FI FU. exact (all_agree (Tokenizer d (Some ud) m) (with_user A tbl) (RU m) SM text ss V SS FI FU).
Qed.
