(** C110: dictionary builders in debug builds and release builds. *)
From Coq Require Import String.
From Coq Require Import List NArith ZArith Bool Lia.
From Verif Require Import MBase MUtf8 MText MCodec MDict MCharDef MBuild MTokenizer MDebug MBuildDebug SMatrix SBuildDebug LMatrix LBuildDebug.
Import ListNotations.
Local Open Scope list_scope.

(** C110: whatever the source files, each step of a debug build panics or gives what a release build gives *)
Theorem C110_agrees :
  (forall content, build_matrix_debug content = Panic \/ build_matrix_debug content = build_matrix content) /\
  (forall o rows, build_dict_debug o rows = Panic \/ build_dict_debug o rows = build_dict o rows) /\
  (forall o rows, build_user_debug o rows = Panic \/ build_user_debug o rows = build_user o rows) /\
  (forall content, char_def_of_debug content = char_def_of content).
Proof. split; [exact matrix_sop|]. split; [exact dict_sop|]. split; [exact user_sop|exact chardef_same]. Qed.
Print Assumptions C110_agrees.

(* the matrix: the same exactly if all cell numbers fit 32 bits, a panic otherwise *)
Theorem C110_matrix : forall content fsize bsize entries, matrix_def content fsize bsize entries ->
  (cells_fit fsize bsize entries -> build_matrix_debug content = build_matrix content) /\
  (~ cells_fit fsize bsize entries -> build_matrix_debug content = Panic).
Proof. exact matrix_exact. Qed.
Print Assumptions C110_matrix.

(* a matrix with at most 32767 ids on each side and no other ids on its lines fits *)
Theorem C110_matrix_usual : forall content fsize bsize entries, matrix_def content fsize bsize entries -> (fsize <= 32767)%N -> (bsize <= 32767)%N ->
  entries_fit fsize bsize entries -> exists bytes, build_matrix_debug content = Ok bytes /\ build_matrix content = Ok bytes.
Proof. exact matrix_usual. Qed.
Print Assumptions C110_matrix_usual.

(* words: fewer than 2^32 rows *)
Theorem C110_words : forall rows, (N.of_nat (List.length rows) < 4294967296)%N ->
  (forall o, build_dict_debug o rows = build_dict o rows) /\ (forall o, build_user_debug o rows = build_user o rows).
Proof. intros rows L. split; intros o; [apply dict_same, L|apply user_same, L]. Qed.
Print Assumptions C110_words.

(* they do not always agree: a release build makes an empty matrix of a matrix.def that claims 65536 ids on each side *)
Theorem C110_matrix_differs : exists content bytes m, matrix_def content 65536 65536 [] /\ build_matrix content = Ok bytes /\ cm_load bytes = Ok m /\ cm_data m = [] /\
  build_matrix_debug content = Panic.
Proof.
  exists (lit "65536 65536"). eexists. eexists. split; [|split; [vm_compute; reflexivity|split; [vm_compute; reflexivity|split; vm_compute; reflexivity]]].
  exists (lit "65536 65536"), []. split; [vm_compute; reflexivity|]. split; [|constructor]. exists []. unfold line_numbers.
  replace (split_whitespace (lit "65536 65536")) with [lit "65536"; lit "65536"] by (vm_compute; reflexivity). repeat constructor; vm_compute; reflexivity.
Qed.
Print Assumptions C110_matrix_differs.

Example C110_matrix_ex : exists bytes, matrix_def (lit "1 1
0 0 7") 1 1 [(0, 0, 7%Z)]%N /\ cells_fit 1 1 [(0, 0, 7%Z)]%N /\ build_matrix_debug (lit "1 1
0 0 7") = Ok bytes.
Proof.
  eexists. split; [|split; [split; [reflexivity|repeat constructor]|vm_compute; reflexivity]].
  exists (lit "1 1"), [lit "0 0 7"]. split; [vm_compute; reflexivity|]. split.
  - exists []. unfold line_numbers. replace (split_whitespace (lit "1 1")) with [lit "1"; lit "1"] by (vm_compute; reflexivity). repeat constructor; vm_compute; reflexivity.
  - constructor; [|constructor]. exists []. unfold line_numbers. replace (split_whitespace (lit "0 0 7")) with [lit "0"; lit "0"; lit "7"] by (vm_compute; reflexivity). repeat constructor; vm_compute; reflexivity.
Qed.
Example C110_words_ex : exists u, build_user_debug (kind_user_options IPADIC) [[lit "b"; lit "n"; lit "B"]; [lit "a"; lit "n"; lit "A"]; [lit "b"; lit "v"; lit "B"]] = Ok u /\
  pd_da (u_dict u) = [(utf8 (lit "a"), 1%N); (utf8 (lit "b"), 34%N)].
Proof. eexists. split; vm_compute; reflexivity. Qed.
Example C110_chardef_ex : exists cd, char_def_of_debug (lit "DEFAULT 0 1 0
0xFFFF DEFAULT") = Ok cd.
Proof. eexists. vm_compute. reflexivity. Qed.
