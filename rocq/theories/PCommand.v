(** Property C92: what goes wrong with the options of the program. *)
From Coq Require Import String.
From Coq Require Import List NArith ZArith Bool Lia.
From Verif Require Import MBase MUtf8 MText MCodec MDict MLattice MTokenizer MBuild MCharFilter MAnalyzer MTokenFilter MConfig MBuilders MCli
  STokenFilter SText SConfig SFault SCommand LCli LCommand XSample XBuild XData XConfig XBuilders.
Import ListNotations.
Local Open Scope string_scope.
Local Open Scope list_scope.

Theorem C92_options : forall filters t args, read_args filters t = Some args <-> options_mean filters t args.
Proof. exact read_args_iff. Qed.
Print Assumptions C92_options.
Theorem C92_setup : forall e args input,
  match cli_setup e args with
  | Ok (d, f) => command_analyzer e args d f /\ fine_before e args input AtInput
  | Err er => exists s, s <> AtInput /\ command_fault e args input s er /\ fine_before e args input s
  | Panic => exists s, command_panic e args s /\ fine_before e args input s
  end.
Proof. exact setup_outcome. Qed.
Print Assumptions C92_setup.
Theorem C92_run : forall e args input,
  (exists d f bytes, input = Some bytes /\ command_analyzer e args d f /\ (forall s, fine_at e args input s) /\
     cli_run e args input = cli_tokenize e (analyzer_of e d) f bytes) \/
  (exists s er, command_fault e args input s er /\ fine_before e args input s /\ cli_run e args input = Some ([], Err er)) \/
  (exists s, command_panic e args s /\ fine_before e args input s /\ cli_run e args input = Some ([], Panic)).
Proof. exact run_outcome. Qed.
Print Assumptions C92_run.
(* the whole program *)
Theorem C92_tokenize : forall be filters stdin t,
  (cli_main be filters stdin (CmdTokenize t) = Usage <-> forall args, ~ options_mean filters t args) /\
  forall args, options_mean filters t args ->
    let input := match ty_input_file t with Some path => e_read (be_env be) path | None => Some stdin end in
    cli_main be filters stdin (CmdTokenize t) = match cli_run (be_env be) args input with Some (out, r) => Ended out [] r | None => Endless end.
Proof. exact main_tokenize. Qed.
Print Assumptions C92_tokenize.
Theorem C92_build : forall be filters stdin user name src dest,
  (cli_main be filters stdin (CmdBuild user name src dest) = Usage <-> forall k, ~ names_kind name k) /\
  forall k, names_kind name k -> cli_main be filters stdin (CmdBuild user name src dest) =
    match cli_build be user k src dest with Ok files => Ended [] files (Ok tt) | Err er => Ended [] [] (Err er) | Panic => Ended [] [] Panic end.
Proof. exact main_build. Qed.
Print Assumptions C92_build.
(* the first stage with a fault decides *)
Theorem C92_first : forall e args input s, fine_before e args input s -> ~ fine_at e args input s ->
  (exists er, command_fault e args input s er /\ cli_run e args input = Some ([], Err er)) \/ (command_panic e args s /\ cli_run e args input = Some ([], Panic)).
Proof. exact run_first. Qed.
Print Assumptions C92_first.

(* one fault after the other; the earlier stage is reported *)
Definition typed (dic mode format user : option string) (chars tokens : list string) (input : option string) : typed_args :=
  TypedArgs (option_map lit dic) None (option_map lit user) (option_map lit mode) (option_map lit format) (map lit chars) (map lit tokens) (option_map lit input).
Definition sample_build : build_env := BuildEnv sample_env (fun _ b => b) (fun b => b) (fun _ => Ok []) sample_yada codecs_sample false.
Definition run_typed (filters : bool) (t : typed_args) : ending := cli_main sample_build filters (lit "zz") (CmdTokenize t).
Example C92_ex :
  run_typed true (typed (Some "ipadic") None None None [] ["uppercase:{}"] None) = Ended (as_lines [lit "ZZ" ++ [9%N] ++ lit "UNK"; lit "EOS"]) [] (Ok tt) /\
  run_typed false (typed (Some "ipadic") None None None ["no such filter"] ["uppercase:{}"] None) = Ended (as_lines [lit "zz" ++ [9%N] ++ lit "UNK"; lit "EOS"]) [] (Ok tt) /\
  run_typed true (typed (Some "ipadic") (Some "decompose") (Some "wakati") None [] [] None) = Ended (as_lines [lit "zz"]) [] (Ok tt) /\
  run_typed true (typed (Some "IPADIC") None None None [] [] None) = Usage /\
  run_typed true (typed (Some "ipadic") (Some "search") None None [] [] None) = Usage /\
  run_typed true (typed None None (Some "xml") (Some "u.txt") ["?"] [] None) = Ended [] [] (Err EArgs) /\
  run_typed true (typed (Some "ipadic") None (Some "xml") (Some "u.bin") ["?"] [] None) = Ended [] [] (Err EIo) /\
  run_typed true (typed (Some "ipadic") None (Some "xml") None ["?"] [] None) = Ended [] [] (Err EArgs) /\
  run_typed true (typed (Some "ipadic") None None None ["?"] ["lower_case:{}"] None) = Ended [] [] (Err EContent) /\
  run_typed true (typed (Some "ipadic") None None None [] ["lower_case:{}"] (Some "missing")) = Ended [] [] (Err EDeserialize) /\
  run_typed true (typed (Some "ipadic") None None None [] [] (Some "missing")) = Ended [] [] (Err EIo).
Proof. repeat split; vm_compute; reflexivity. Qed.
Example C92_ex_list : cli_main sample_build true [] CmdList = Ended (lit "ipadic" ++ [10%N]) [] (Ok tt) /\
  cli_main sample_build true [] (CmdBuild false (lit "ipadic2") [] []) = Usage /\
  cli_main sample_build true [] (CmdBuild true (lit "ipadic") (lit "..") (lit "out")) = Ended [] [] (Err EIo).
Proof. repeat split; vm_compute; reflexivity. Qed.
(* all hypotheses of the first stage *)
Definition bad_format : tokenize_args := TokenizeArgs (Some IPADIC) None None Normal (lit "xml") [lit "?"] [].
Example C92_ex_first : fine_before sample_env bad_format None AtFormat /\ ~ fine_at sample_env bad_format None AtFormat /\
  ~ fine_at sample_env bad_format None AtCharFilters /\ cli_run sample_env bad_format None = Some ([], Err EArgs).
Proof.
  split; [|split; [|split]].
  - pose proof (C92_setup sample_env bad_format None) as H.
    assert (NF : forall f, ~ names_format (lit "xml") f) by (intros f N; inversion N).
    replace (cli_setup sample_env bad_format) with (@Err (analyzer_def * format) EArgs) in H by (vm_compute; reflexivity). destruct H as (s & _ & H & B).
    destruct s; try exact B.
    + exfalso. inversion H as [er D| | | | |]; subst. inversion D as [|k p E| | | |]; subst. vm_compute in E. discriminate E.
    + inversion H; discriminate.
    + intros s' L. apply B. cbn in *. lia.
    + intros s' L. apply B. cbn in *. lia.
    + inversion H.
  - intros [H _]. apply (H EArgs). constructor. intros f N. inversion N.
  - intros [H _]. apply (H EContent). constructor. exists [], (lit "?"), []. split; [reflexivity|]. split; [constructor|].
    exists (lit "?"), []. split; [right; split; [|auto]; intros [X|[]]; discriminate X|left; split; reflexivity].
  - vm_compute. reflexivity.
Qed.
