(** C85: the commands [tokenize] and [list]. *)
From Coq Require Import String.
From Coq Require Import List Sorted NArith ZArith Bool Lia.
From Verif Require Import MBase MUtf8 MText MCodec MDict MLattice MTokenizer MBuild MCharFilter MAnalyzer MTokenFilter MConfig STokenFilter SText SConfig.
From Verif Require Import LUtf8 LText LCli XSample XConfig.
Import ListNotations.
Local Open Scope list_scope.

Theorem C85_output : forall e f tokens, output e f (map token_info tokens) = (printed (e_pretty e) f tokens, Ok tt).
Proof. exact output_printed. Qed.
Print Assumptions C85_output.

Theorem C85_text : forall e a f text lines tss, valid_str text -> input_lines text lines ->
  Forall2 (fun line ts => analyze a (trim line) = Some (Ok ts)) lines tss ->
  cli_tokenize e a f (utf8 text) = Some (flat_map (printed (e_pretty e) f) tss, Ok tt).
Proof. exact cli_text. Qed.
Print Assumptions C85_text.

Theorem C85_session : forall e a f bytes ls, input_lines bytes ls -> forall out r,
  cli_tokenize e a f bytes = Some (out, r) <-> session (analyze a) (printed (e_pretty e) f) ls out r.
Proof. exact cli_session_iff. Qed.
Print Assumptions C85_session.

Theorem C85_command : forall e args input out r, cli_run e args input = Some (out, r) <->
  (exists k, cli_setup e args = Err k /\ out = [] /\ r = Err k) \/ (cli_setup e args = Panic /\ out = [] /\ r = Panic) \/
  (exists d f, cli_setup e args = Ok (d, f) /\
     ((input = None /\ out = [] /\ r = Err EIo) \/
      (exists bytes ls, input = Some bytes /\ input_lines bytes ls /\ session (analyze (analyzer_of e d)) (printed (e_pretty e) f) ls out r))).
Proof. exact cli_run_iff. Qed.
Print Assumptions C85_command.

Theorem C85_list : forall e, exists ks, cli_list e = as_lines (map kind_text ks) /\
  StronglySorted (fun a b => kind_number a < kind_number b) ks /\ forall k, In k ks <-> load_dictionary_from_kind e k <> Err EArgs.
Proof. exact cli_list_names. Qed.
Print Assumptions C85_list.

(* the second line is empty, the last one has no newline *)
Example C85_lines_ex : input_lines (lit " zz" ++ [10%N; 10%N] ++ lit "q") [lit " zz" ++ [10%N]; [10%N]; lit "q"].
Proof. apply input_lines_split. reflexivity. Qed.

Definition cli_analyzer : analyzer := analyzer_of sample_env (AnalyzerDef [] (sample Normal [sample_unk]) []).
Example C85_text_ex : cli_tokenize sample_env cli_analyzer FWakati (lit " zz" ++ [10%N; 10%N] ++ lit "q") =
  Some (lit "zz" ++ [10%N] ++ lit "q" ++ [10%N], Ok tt).
Proof. vm_compute. reflexivity. Qed.
(* 255 is no byte of UTF-8: what was printed stays, the third line is not read *)
Example C85_bytes_ex : cli_tokenize sample_env cli_analyzer FMecab (lit "q" ++ [10%N; 255%N; 10%N] ++ lit "q") =
  Some (as_lines [lit "q" ++ [9%N] ++ lit "UNK"; lit "EOS"], Err EIo).
Proof. vm_compute. reflexivity. Qed.
Example C85_json_ex : json_token (FToken (lit "a") 2 3 1 1 (WordId 7 true) [lit "N"; lit "x"]) =
  VObj [(lit "byte_end", VInt 3); (lit "byte_start", VInt 2); (lit "details", VArr [VStr (lit "N"); VStr (lit "x")]);
        (lit "text", VStr (lit "a")); (lit "word_id", VArr [VInt 7; VBool true])].
Proof. reflexivity. Qed.
Example C85_list_ex : cli_list sample_env = lit "ipadic" ++ [10%N].
Proof. vm_compute. reflexivity. Qed.
Definition cli_args (form : string) : tokenize_args := TokenizeArgs (Some IPADIC) None None Normal (lit form) [] [lit "uppercase:{}"].
Example C85_command_ex : cli_run sample_env (cli_args "wakati") (Some (lit "zz")) = Some (lit "ZZ" ++ [10%N], Ok tt) /\
  cli_run sample_env (cli_args "wakati") None = Some ([], Err EIo) /\
  (exists k, cli_run sample_env (cli_args "xml") (Some (lit "zz")) = Some ([], Err k)).
Proof. split; [vm_compute; reflexivity|]. split; [vm_compute; reflexivity|]. eexists. vm_compute. reflexivity. Qed.
