(** What goes wrong when a dictionary is built: C82. *)
From Coq Require Import String.
From Coq Require Import List NArith ZArith Bool Lia.
From Verif Require Import MBase MUtf8 MText MCodec MDict MCharDef MUnk MBincode MLattice MTokenizer MDetails MBuild MConfig MBuilders
  STok SBuild SMatrix SCharDef SUnk SData SConfig SBuilders SText SSource SAccept SBlame
  LBase LBuild LText LSource LAccept LBlame XSample XBuild XData XConfig XBuilders.
Import ListNotations.
Local Open Scope string_scope.
Local Open Scope list_scope.

(** C82 *)
Theorem C82_outcome : forall be k dir, always_writes be -> match build_dictionary be k dir with
  | Ok _ => (forall er, ~ build_blame be k dir er) /\ ~ build_crash be k dir
  | Err er => reports_errors k /\ (build_blame be k dir er \/ (er = EIo /\ trie_blame be k dir))
  | Panic => build_crash be k dir \/ (~ reports_errors k /\ ((exists er, build_blame be k dir er) \/ trie_blame be k dir))
  end.
Proof. exact build_outcome. Qed.
Print Assumptions C82_outcome.
Theorem C82_user : forall be k path, match build_user_file be k path with
  | Ok _ => (forall er, ~ user_blame (be_env be) k path er) /\ ~ user_crash (be_env be) k path
  | Err er => user_blame (be_env be) k path er \/ (er = EIo /\ user_trie_blame be k path)
  | Panic => user_crash (be_env be) k path
  end.
Proof. exact user_file_outcome. Qed.
Print Assumptions C82_user.
Theorem C82_char : forall content, match char_def_of content with
  | Ok _ => (exists ds, char_file content ds) /\ forall er, ~ first_line line_says char_blame content er
  | Err er => first_line line_says char_blame content er
  | Panic => False
  end.
Proof. exact char_outcome. Qed.
Print Assumptions C82_char.
Theorem C82_unk : forall categories content n, 4 <= n -> match parse_unk categories content n with
  | Ok _ => (exists us, unk_file n content us) /\ forall er, ~ first_line (unk_says n) (unk_blame n) content er
  | Err er => first_line (unk_says n) (unk_blame n) content er
  | Panic => False
  end.
Proof. exact unk_outcome. Qed.
Print Assumptions C82_unk.
Theorem C82_rows : forall k rows, match build_dict (kind_dict_options k) rows with
  | Ok _ => Forall (accepted_row k) rows /\ (forall er, ~ rows_blame k rows er) /\ ~ rows_crash rows
  | Err er => rows_blame k rows er
  | Panic => rows_crash rows
  end.
Proof. exact kind_rows_outcome. Qed.
Print Assumptions C82_rows.
Theorem C82_matrix : forall content, match build_matrix content with
  | Ok _ => (forall er, ~ matrix_blame content er) /\ ~ matrix_crash content
  | Err er => matrix_blame content er
  | Panic => matrix_crash content
  end.
Proof. exact matrix_outcome. Qed.
Print Assumptions C82_matrix.

(* the sample sources with one file changed *)
Definition with_file (name : string) (content : str) : build_env :=
  src_env false ((lit name, content) :: filter (fun f => negb (str_eqb (fst f) (lit name))) src_files).
Definition built (be : build_env) (k : dictionary_kind) : res unit := do _ <- build_dictionary be k (lit "in"); Ok tt.
Example C82_ex : built (src_env false src_files) IPADIC = Ok tt /\
  built (with_file "in/char.def" (lit "DEFAULT 0 1")) IPADIC = Err EContent /\
  built (with_file "in/char.def" (lit "DEFAULT 0 1 x")) IPADIC = Err EParse /\
  built (with_file "in/char.def" (lit "0x61..0x62..0x63 DEFAULT")) IPADIC = Err EContent /\
  built (with_file "in/char.def" (lit "0x61..q DEFAULT")) IPADIC = Err EParse /\
  built (with_file "in/unk.def" (lit "DEFAULT,0,0,100")) IPADIC = Err EContent /\
  built (with_file "in/unk.def" (lit "DEFAULT,0,-1,100,*,*,*,*,*,*,*")) IPADIC = Err EParse /\
  built (with_file "in/words.csv" [9%N]) IPADIC = Err EParse /\
  built (with_file "in/matrix.def" []) IPADIC = Err EContent /\
  built (with_file "in/matrix.def" (lit "2 x")) IPADIC = Err EParse /\
  built (with_file "in/matrix.def" (lit "2")) IPADIC = Panic /\
  built (with_file "in/matrix.def" (text ["2 2"; "0 0"])) IPADIC = Panic /\
  built (with_file "in/matrix.def" (text ["2 2"; "1 2 7"])) IPADIC = Panic /\
  built (with_file "in/matrix.def" (text ["2 2"; "0 2 7"])) IPADIC = Ok tt /\
  built (with_file "in/matrix.def" []) KoDic = Panic.
Proof. repeat split; vm_compute; reflexivity. Qed.

(* the hypotheses hold, and so do the fault and the crash *)
Lemma sample_fine content : let be := with_file "in/matrix.def" content in char_fine be IPADIC (lit "in") /\ unk_fine be IPADIC (lit "in") /\ rows_fine be IPADIC (lit "in").
Proof.
  cbv zeta. split; [|split].
  - exists src_char, (c_char src_content). split; [eexists; split; vm_compute; reflexivity|]. apply char_file_spec. vm_compute. reflexivity.
  - exists src_unk, (c_unk src_content). split; [eexists; split; vm_compute; reflexivity|]. apply unk_file_spec. exact src_unk_lines.
  - exists src_rows. split.
    + exists [lit "words.csv"], [src_rows]. split; [reflexivity|]. split; [|reflexivity]. constructor; [|constructor]. exists [1%N]. split; [vm_compute; reflexivity|]. split; [reflexivity|]. right. exists 5. repeat constructor.
    + apply build_dict_accepts. eexists. vm_compute. reflexivity.
Qed.
Example C82_ex_fault : always_writes (with_file "in/matrix.def" []) /\ build_blame (with_file "in/matrix.def" []) IPADIC (lit "in") EContent /\
  built (with_file "in/matrix.def" []) IPADIC = Err EContent.
Proof.
  split; [intros H; discriminate H|]. split; [|vm_compute; reflexivity]. destruct (sample_fine []) as (C & U & R).
  eapply blame_matrix; [exact C|exact U|exact R|eexists; split; vm_compute; reflexivity|]. apply blame_empty. reflexivity.
Qed.
Example C82_ex_crash : build_crash (with_file "in/matrix.def" (lit "2")) IPADIC (lit "in") /\ built (with_file "in/matrix.def" (lit "2")) IPADIC = Panic.
Proof.
  split; [|vm_compute; reflexivity]. destruct (sample_fine (lit "2")) as (C & U & R). eapply crash_matrix; [exact C|exact U|exact R|eexists; split; vm_compute; reflexivity|].
  assert (N : numbers_on (lit "2") [2%Z]) by (apply parse_matrix_line_spec; vm_compute; reflexivity).
  exists (lit "2"), []. split; [apply lines_spec; vm_compute; reflexivity|]. split; [constructor; [eauto|constructor]|]. left. exists [2%Z]. split; [exact N|cbn; lia].
Qed.

(* rows: the number of an accepted row, a row without one, a short row *)
Example C82_ex_rows : rows_blame IPADIC [[lit "a"; lit "0"; lit "0"; lit "x"]] EParse /\
  build_dict (kind_dict_options IPADIC) [[lit "a"; lit "0"; lit "0"; lit "x"]] = Err EParse /\
  (exists f, build_dict (kind_dict_options CcCedict) [[lit "a"; lit "0"; lit "0"; lit "x"]] = Ok f) /\
  rows_crash [[lit "a"; lit "0"; lit "0"]] /\ build_dict (kind_dict_options CcCedict) [[lit "a"; lit "0"; lit "0"]] = Panic.
Proof.
  split; [|split; [vm_compute; reflexivity|split; [eexists; vm_compute; reflexivity|split; [|vm_compute; reflexivity]]]].
  - apply (blame_row_number _ _ [lit "a"; lit "0"; lit "0"; lit "x"]); [discriminate|left; reflexivity|cbn; lia|]. intros c l rr W. apply word_row_spec in W. vm_compute in W. discriminate W.
  - left. cbn. lia.
Qed.
(* one file whose rows are given *)
Definition one_csv (rows : list row) : build_env :=
  let e := sample_env in
  BuildEnv (Env (e_parse e) (e_pretty e) (e_regex e) (e_graphemes e) (e_form e) (e_lower e) (e_upper e) (e_kana e) (e_block e) (e_embedded e)
    (fun p => if str_eqb p (lit "u.csv") then Some [] else None) (read_keys []) (fun _ => Ok rows))
    (fun _ b => b) (fun b => b) (fun _ => Ok []) sample_yada codecs_sample false.
Definition user_built (rows : list row) (k : dictionary_kind) (path : string) : res unit := do _ <- build_user_file (one_csv rows) k (lit path); Ok tt.
Example C82_ex_user : let bad := [lit "a"; lit "0"; lit " 0"; lit "5"] in
  user_built [[lit "a"; lit "b"; lit "c"]] IPADIC "u.csv" = Ok tt /\ user_built [[lit "a"; lit "b"; lit "c"]] IPADIC "v.csv" = Err EIo /\
  user_built [bad] IPADIC "u.csv" = Err EParse /\ user_blame (be_env (one_csv [bad])) IPADIC (lit "u.csv") EParse /\
  user_built [[lit "a"; lit "0"; lit "0"; lit "5"]] IPADIC "u.csv" = Err EContent /\
  user_built [[lit "a"; lit "b"; lit "c"]; bad] KoDic "u.csv" = Err EContent /\
  user_built [[lit "a"; lit "b"]] IPADIC "u.csv" = Panic /\ user_crash (be_env (one_csv [[lit "a"; lit "b"]])) IPADIC (lit "u.csv").
Proof.
  cbv zeta. repeat (split; [first [vm_compute; reflexivity|idtac]|]).
  - eapply blame_user_rows; [exists []; split; [vm_compute; reflexivity|]; split; [reflexivity|left; reflexivity]|].
    eapply blame_user_number; [left; reflexivity|cbn; lia|]. intros c l rr W. apply (user_row_spec IPADIC) in W. vm_compute in W. discriminate W.
  - right. exists [[lit "a"; lit "b"]]. split; [exists []; split; [vm_compute; reflexivity|]; split; [reflexivity|left; reflexivity]|]. left. cbn. lia.
Qed.
