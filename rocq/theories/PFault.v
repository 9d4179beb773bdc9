(** What goes wrong with a configuration: C81. *)
From Coq Require Import String.
From Coq Require Import List NArith ZArith Bool Lia.
From Verif Require Import MBase MUtf8 MText MCodec MDict MBincode MLattice MTokenizer MDetails MBuild MCharFilter MAnalyzer MTokenFilter MConfig
  STokenFilter SConfig SBuilders SAccept SFault LFault XSample XConfig.
Import ListNotations.
Local Open Scope string_scope.
Local Open Scope list_scope.

(** C81 *)
Theorem C81_outcome : forall e top, distinct_settings top -> (forall fs, has top "tokenizer" (VObj fs) -> object_structs fs) ->
  match analyzer_from_config e (VObj top) with
  | Ok _ => (forall er, ~ config_fault e top er) /\ ~ config_panic e top
  | Err er => config_fault e top er
  | Panic => config_panic e top
  end.
Proof. exact config_outcome. Qed.
Print Assumptions C81_outcome.
Theorem C81_order : forall e top, distinct_settings top -> (forall fs, has top "tokenizer" (VObj fs) -> object_structs fs) ->
  let result := analyzer_from_config e (VObj top) in
  let good_chars := forall er, ~ filter_fault (load_char_filter e) top "character_filters" er in
  (forall er, filter_fault (load_char_filter e) top "character_filters" er ->
     exists er', result = Err er' /\ filter_fault (load_char_filter e) top "character_filters" er') /\
  (good_chars -> (forall fs tc, has top "tokenizer" (VObj fs) -> ~ tokenizer_described fs tc) -> result = Err EDeserialize) /\
  (good_chars -> forall fs tc, has top "tokenizer" (VObj fs) -> tokenizer_described fs tc ->
     (((exists er, dictionary_fault e (tc_dictionary tc) er) \/ dictionary_panic e (tc_dictionary tc)) ->
        (exists er, result = Err er /\ dictionary_fault e (tc_dictionary tc) er) \/ (result = Panic /\ dictionary_panic e (tc_dictionary tc))) /\
     ((forall er, ~ dictionary_fault e (tc_dictionary tc) er) -> ~ dictionary_panic e (tc_dictionary tc) ->
        forall u, tc_user tc = Some u -> ((exists er, user_fault e u er) \/ user_panic e u) ->
        (exists er, result = Err er /\ user_fault e u er) \/ (result = Panic /\ user_panic e u))).
Proof. exact config_order. Qed.
Print Assumptions C81_order.
Theorem C81_no_object : forall e v, (forall top, v <> VObj top) -> analyzer_from_config e v = Err EDeserialize.
Proof. exact config_no_object. Qed.
Print Assumptions C81_no_object.
Theorem C81_extension : forall path ext, extension path = Some ext <-> path_extension path ext.
Proof. exact extension_iff. Qed.
Print Assumptions C81_extension.

Ltac no_dup := repeat (constructor; [cbn [In map fst]; intros X; repeat (destruct X as [X|X]; [vm_compute in X; discriminate X|]); exact X|]); constructor.

(* one wrong thing after the other *)
Definition only_tokenizer (dictionary : list (string * value)) (more : list (string * value)) : list (str * value) :=
  [(lit "tokenizer", obj ([("dictionary", obj dictionary); ("mode", VStr (lit "normal"))] ++ more))].
Definition with_user (user : list (string * value)) : list (str * value) := only_tokenizer [("kind", VStr (lit "ipadic"))] [("user_dictionary", obj user)].
Definition with_mode (mode : value) : list (str * value) :=
  [(lit "tokenizer", obj [("dictionary", obj [("kind", VStr (lit "ipadic"))]); ("mode", mode)])].
Definition outcome (top : list (str * value)) : res unit := do _ <- analyzer_from_config sample_env (VObj top); Ok tt.
Definition penalties (z : value) : value :=
  obj [("decompose", obj [("kanji_penalty_length_threshold", VInt 2); ("kanji_penalty_length_penalty", z);
                          ("other_penalty_length_threshold", VInt 7); ("other_penalty_length_penalty", VInt 1700)])].
Example C81_ex : outcome (only_tokenizer [("kind", VStr (lit "ipadic"))] []) = Ok tt /\
  outcome (only_tokenizer [("kind", VStr (lit "unidic"))] []) = Err EArgs /\
  outcome (only_tokenizer [("kind", VStr (lit "mine"))] []) = Err EDeserialize /\
  outcome (only_tokenizer [("path", VStr (lit "out"))] []) = Err EIo /\
  outcome (only_tokenizer [] []) = Err EArgs /\ outcome [] = Err EDeserialize /\
  outcome (with_user [("path", VStr (lit "u.txt"))]) = Err EArgs /\
  outcome (with_user [("path", VStr (lit "u.csv"))]) = Err EArgs /\
  outcome (with_user [("path", VStr (lit "u.csv")); ("kind", VStr (lit "ipadic"))]) = Err EDictionaryBuild /\
  outcome (with_user [("path", VStr (lit "u.bin"))]) = Err EIo /\
  outcome (with_mode (penalties (VInt 3000))) = Ok tt /\ outcome (with_mode (penalties (VStr (lit "3000")))) = Err EDeserialize /\
  outcome (with_mode (penalties (VInt 2147483648))) = Err EDeserialize /\
  outcome (only_tokenizer [("kind", VStr (lit "ipadic"))] [] ++
    [(lit "token_filters", VArr [obj [("kind", VStr (lit "japanese_stop_tags")); ("args", obj [("tags", VArr [VStr (lit "a,b,c,d,e")])])]])]) = Panic.
Proof. repeat split; vm_compute; reflexivity. Qed.

(* a configuration with distinct keys whose user dictionary is missing: the hypotheses hold and so does the fault *)
Definition missing_user : list (str * value) := with_user [("path", VStr (lit "dir.d/u.bin/./"))].
Example C81_ex_fault : distinct_settings missing_user /\ (forall fs, has missing_user "tokenizer" (VObj fs) -> object_structs fs) /\
  config_fault sample_env missing_user EIo /\ outcome missing_user = Err EIo.
Proof.
  set (fs := map (fun kv : string * value => (lit (fst kv), snd kv)) ([("dictionary", obj [("kind", VStr (lit "ipadic"))]); ("mode", VStr (lit "normal"))] ++
    [("user_dictionary", obj [("path", VStr (lit "dir.d/u.bin/./"))])])).
  assert (HT : has missing_user "tokenizer" (VObj fs)) by (left; reflexivity).
  assert (OS : object_structs fs).
  { split; [no_dup|]. split.
    - intros v [H|H]; (destruct H as [H|[H|[H|[]]]]; try (vm_compute in H; discriminate H); injection H as <-; split; [intros fs' X; injection X as <-; no_dup|discriminate]).
    - intros v w H E. subst v. repeat (destruct H as [H|H]; [vm_compute in H; discriminate H|]). destruct H. }
  split. { split; [no_dup|]. intros key v [H|[]]. injection H as <- <-. split; [|discriminate]. intros fs' E. injection E as <-. no_dup. }
  split. { intros fs' [H|[]]. injection H as <-. exact OS. }
  split; [|vm_compute; reflexivity].
  apply (fault_user sample_env missing_user fs (TokenizerConfig (DictionaryConfig (Some IPADIC) None) (Some (UserDictionaryConfig (lit "dir.d/u.bin/./") None)) Normal)
    (UserDictionaryConfig (lit "dir.d/u.bin/./") None)); [exact HT| |reflexivity|].
  - apply LConfigRound.de_tokenizer_config_iff; [exact OS|]. vm_compute. reflexivity.
  - apply fault_bin_missing; [|reflexivity]. exists [lit "dir.d"], (lit "u"), [lit "."; []]. split; [reflexivity|].
    split; [constructor; [vm_compute; intuition discriminate|constructor]|]. split; [constructor; [right; reflexivity|constructor; [left; reflexivity|constructor]]|].
    split; [discriminate|]. repeat split; try (vm_compute; intuition discriminate).
Qed.
Example C81_ex_extension : path_extension (lit "a/.b.c.csv") (lit "csv") /\ extension (lit ".csv") = None /\ extension (lit "a.csv/b") = None /\
  extension (lit "a..") = Some [] /\ extension (lit "..") = None.
Proof.
  split; [|repeat split].
  exists [lit "a"], (lit ".b.c"), []. split; [reflexivity|]. split; [constructor; [vm_compute; intuition discriminate|constructor]|]. split; [constructor|].
  split; [discriminate|]. repeat split; try (vm_compute; intuition discriminate).
Qed.
