(** Lemmas about whole builds in a debug build. *)
From Coq Require Import String.
From Coq Require Import List NArith ZArith Bool Lia.
From Coq Require Import ZifyBool ZifyNat ZifyN.
From Verif Require Import MBase MUtf8 MText MCodec MDict MCharDef MUnk MBincode MTokenizer MBuild MConfig MBuilders MBuildDebug MBuildersDebug
  SBuild SMatrix SBuilders SBuildDebug LMatrix LBuild LBuilders LUserFile LBuildDebug.
Import ListNotations.
Local Open Scope string_scope.
Local Open Scope list_scope.

Lemma sop_unwrapped {A} k (a b : res A) : same_or_panic a b -> same_or_panic (unwrapped k a) (unwrapped k b).
Proof. intros [->| ->]; [left; destruct k; reflexivity|right; reflexivity]. Qed.
Lemma chardef_file_same be k dir : build_chardef_file_debug be k dir = build_chardef_file be k dir.
Proof. unfold build_chardef_file_debug, build_chardef_file. destruct (read_text _ _ _) as [t| |]; cbn [bind]; try reflexivity. rewrite chardef_same. reflexivity. Qed.

Theorem build_sop be k dir : same_or_panic (build_dictionary_debug be k dir) (build_dictionary be k dir).
Proof.
  unfold build_dictionary_debug, build_dictionary. rewrite chardef_file_same. apply sop_bind; [apply sop_refl|intros [cd chardef]]. apply sop_bind; [apply sop_refl|intros unk].
  apply sop_bind; [apply sop_unwrapped|intros dict].
  { unfold build_dict_files_debug, build_dict_files. apply sop_bind; [apply sop_refl|intros rows]. apply sop_bind; [apply dict_sop|intros f; apply sop_refl]. }
  apply sop_bind; [apply sop_unwrapped|intros; apply sop_refl]. unfold build_matrix_file_debug, build_matrix_file. apply sop_bind; [apply sop_refl|intros t].
  apply sop_bind; [apply matrix_sop|intros; apply sop_refl].
Qed.
Theorem build_same be k dir S fsize bsize entries : has_sources be k dir S -> matrix_def (s_matrix S) fsize bsize entries -> cells_fit fsize bsize entries ->
  (N.of_nat (List.length (s_rows S)) < 4294967296)%N -> build_dictionary_debug be k dir = build_dictionary be k dir.
Proof.
  intros HS M F L. unfold build_dictionary_debug, build_dictionary. rewrite chardef_file_same.
  replace (build_dict_files_debug be k dir) with (build_dict_files be k dir); [replace (build_matrix_file_debug be k dir) with (build_matrix_file be k dir); [reflexivity|]|].
  - unfold build_matrix_file_debug, build_matrix_file. rewrite (text_read _ _ _ _ _ (hs_matrix _ _ _ _ HS)). cbn [bind]. rewrite (proj1 (matrix_exact _ _ _ _ M) F). reflexivity.
  - unfold build_dict_files_debug, build_dict_files. rewrite (rows_read _ _ _ _ HS). cbn [bind]. rewrite (dict_same _ _ L). reflexivity.
Qed.
(* after the other files, the matrix is the only step that can differ *)
Theorem build_panics be k dir S fsize bsize entries : has_sources be k dir S -> matrix_def (s_matrix S) fsize bsize entries -> ~ cells_fit fsize bsize entries ->
  forall files, build_dictionary_debug be k dir <> Ok files.
Proof.
  intros HS M F files. unfold build_dictionary_debug. destruct (unwrapped k (build_chardef_file_debug be k dir)) as [[cd chardef]| |]; cbn [bind]; try discriminate.
  destruct (unwrapped k (build_unk_file be k dir cd)); cbn [bind]; try discriminate. destruct (unwrapped k (build_dict_files_debug be k dir)); cbn [bind]; try discriminate.
  unfold build_matrix_file_debug. rewrite (text_read _ _ _ _ _ (hs_matrix _ _ _ _ HS)). cbn [bind]. rewrite (proj2 (matrix_exact _ _ _ _ M) F). cbn [bind].
  destruct k; discriminate.
Qed.
Theorem build_readable be e k dir S C : has_sources be k dir S -> readable k S C -> yada_works be e (system_words k (s_rows S)) -> be_compress be = false ->
  exists files, build_dictionary_debug be k dir = Ok files /\ build_dictionary be k dir = Ok files.
Proof.
  intros HS R Y NC. destruct (build_written _ _ _ _ _ _ HS R Y NC) as (cd & u & f & da & mb & m & E & _). eexists. split; [|exact E]. rewrite <- E.
  destruct (rd_sizes _ _ _ R) as [[_ Z1] [_ Z2]].
  apply (build_same _ _ _ _ _ _ _ HS (rd_matrix _ _ _ R)); [|pose proof (sr_count _ _ (rd_rows _ _ _ R)); lia].
  split; [nia|]. eapply Forall_impl; [|exact (rd_entries _ _ _ R)]. intros [[x y] c] (L1 & L2 & _). nia.
Qed.

Theorem user_file_sop be k path : same_or_panic (build_user_file_debug be k path) (build_user_file be k path).
Proof.
  unfold build_user_file_debug, build_user_file, build_user_dict. destruct (read_file (be_env be) path) as [b| |]; cbn [bind]; try apply sop_refl.
  destruct (csv_rows (be_env be) (kind_user_flexible k) b) as [rows| |]; cbn [bind]; try apply sop_refl. apply sop_bind; [apply user_sop|intros; apply sop_refl].
Qed.
Theorem user_file_same be k path : (forall b rows, e_read (be_env be) path = Some b -> e_csv (be_env be) b = Ok rows -> (N.of_nat (List.length rows) < 4294967296)%N) ->
  build_user_file_debug be k path = build_user_file be k path.
Proof.
  intros H. unfold build_user_file_debug, build_user_file, build_user_dict, read_file, csv_rows. destruct (e_read (be_env be) path) as [b|] eqn:E; cbn [ok_or bind]; try reflexivity.
  destruct (e_csv (be_env be) b) as [rows| |] eqn:R; cbn [bind]; try reflexivity. destruct (_ || _); cbn [bind]; try reflexivity. rewrite (user_same _ _ (H _ _ eq_refl R)). reflexivity.
Qed.
