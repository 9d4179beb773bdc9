(** Property C101: rows that say the same build the same dictionary. *)
From Coq Require Import String.
From Coq Require Import List NArith ZArith Bool Lia.
From Verif Require Import MBase MUtf8 MText MDict MBuild MConfig MBuilders SBuild SMeaning LMeaning XBuild XBuilders XConfig XData.
Import ListNotations.
Local Open Scope list_scope.

Theorem C101_user_rows : forall o rows rows', Forall2 (same_user_row o) rows rows' -> build_user o rows' = build_user o rows.
Proof. exact build_same_user. Qed.
Print Assumptions C101_user_rows.
Theorem C101_written_out_means_same : forall k r, List.length r = 3 -> same_user_row (kind_user_options k) r (written_out k r).
Proof. exact written_out_same. Qed.
Print Assumptions C101_written_out_means_same.
Theorem C101_written_out : forall k rows rows', Forall2 (fun r r' => r' = r \/ (List.length r = 3 /\ r' = written_out k r)) rows rows' ->
  build_user (kind_user_options k) rows' = build_user (kind_user_options k) rows.
Proof. exact written_out_some. Qed.
Print Assumptions C101_written_out.
Theorem C101_written_out_file : forall be k path path' bytes bytes' rows, e_read (be_env be) path = Some bytes -> e_csv (be_env be) bytes = Ok rows ->
  e_read (be_env be) path' = Some bytes' -> e_csv (be_env be) bytes' = Ok (map (written_out k) rows) -> Forall (fun r : row => List.length r = 3) rows ->
  load_user_dictionary_from_csv (be_env be) k path' = load_user_dictionary_from_csv (be_env be) k path /\ build_user_file be k path' = build_user_file be k path.
Proof. exact written_out_file. Qed.
Print Assumptions C101_written_out_file.
Theorem C101_system_rows : forall o rows rows', Forall2 (same_sys_row o) rows rows' -> build_dict o rows' = build_dict o rows.
Proof. exact build_same_sys. Qed.
Print Assumptions C101_system_rows.
Theorem C101_system_files : forall be k dir dir' rows rows', system_rows be k dir = Ok rows -> system_rows be k dir' = Ok rows' ->
  Forall2 (same_sys_row (kind_dict_options k)) rows rows' -> build_dict_files be k dir' = build_dict_files be k dir.
Proof. exact same_sys_files. Qed.
Print Assumptions C101_system_files.

Definition meaning_rows : list row := [[lit "sky"; lit "noun"; lit "SKY"]; [lit "a"; lit "x"; lit ""]].
Example C101_ex :
  written_out IPADIC (hd [] meaning_rows) = map lit ["sky"; "0"; "0"; "-10000"; "noun"; "*"; "*"; "*"; "*"; "*"; "sky"; "SKY"; "*"]%string /\
  written_out KoDic (hd [] meaning_rows) = map lit ["sky"; "0"; "0"; "-10000"; "noun"; "*"; "*"; "SKY"; "*"; "*"; "*"; "*"]%string /\
  Forall (fun k => (exists d, build_user (kind_user_options k) meaning_rows = Ok d) /\
                   List.length (written_out k (hd [] meaning_rows)) = full_fields k) [IPADIC; IPADICNEologd; UniDic; KoDic; CcCedict].
Proof.
  split; [vm_compute; reflexivity|]. split; [vm_compute; reflexivity|]. repeat constructor; try (eexists; vm_compute; reflexivity).
Qed.
(* numbers with blanks and a plus sign, and a wave dash that is unified for IPADIC *)
Definition meaning_sys : row := [[0x301C%N]; lit "1"; lit "2"; lit "-3"; lit "a"].
Definition meaning_sys' : row := [[0xFF5E%N]; lit " +1"; lit "02"; lit "-3 "; lit "a"].
Example C101_system_ex : same_sys_row (kind_dict_options IPADIC) meaning_sys meaning_sys' /\ meaning_sys <> meaning_sys' /\
  (exists f, build_dict (kind_dict_options IPADIC) [meaning_sys] = Ok f) /\
  build_dict (kind_dict_options IPADIC) [meaning_sys] = build_dict (kind_dict_options IPADIC) [meaning_sys'] /\
  build_dict (kind_dict_options UniDic) [meaning_sys] <> build_dict (kind_dict_options UniDic) [meaning_sys'].
Proof.
  split; [right; vm_compute; repeat split; lia|]. split; [discriminate|]. split; [eexists; vm_compute; reflexivity|].
  split; [vm_compute; reflexivity|]. vm_compute. discriminate.
Qed.
(* two files, the simple rows and the rows written out *)
Definition meaning_env : build_env :=
  let e := sample_env in
  BuildEnv (Env (e_parse e) (e_pretty e) (e_regex e) (e_graphemes e) (e_form e) (e_lower e) (e_upper e) (e_kana e) (e_block e) (e_embedded e)
    (fun p => if str_eqb p (lit "simple.csv") then Some [1%N] else if str_eqb p (lit "full.csv") then Some [2%N] else None) (e_da e)
    (fun bytes => if str_eqb bytes [1%N] then Ok meaning_rows else Ok (map (written_out UniDic) meaning_rows)))
    (fun _ b => b) (fun b => b) (fun _ => Ok []) sample_yada codecs_sample false.
Example C101_file_ex : exists d, load_user_dictionary_from_csv (be_env meaning_env) UniDic (lit "simple.csv") = Ok d /\
  load_user_dictionary_from_csv (be_env meaning_env) UniDic (lit "full.csv") = Ok d.
Proof. eexists. split; vm_compute; reflexivity. Qed.
