(** What can be wrong with the options of the command [tokenize]. *)
From Coq Require Import String.
From Coq Require Import List NArith ZArith Bool.
From Verif Require Import MBase MUtf8 MText MCodec MDict MLattice MTokenizer MBuild MCharFilter MAnalyzer MTokenFilter MConfig MCli STokenFilter SConfig SFault.
Import ListNotations.
Local Open Scope string_scope.
Local Open Scope list_scope.

(** ** The options *)

Inductive names_mode : str -> mode -> Prop :=
| names_normal : names_mode (lit "normal") Normal
| names_decompose : names_mode (lit "decompose") (Decompose (Penalty 2 3000 7 1700)).
Definition names_kind (s : str) (k : dictionary_kind) : Prop := s = kind_text k.

(* a value that is given, or the default *)
Definition given {A} (names : str -> A -> Prop) (default : A) (o : option str) (a : A) : Prop :=
  match o with Some s => names s a | None => a = default end.

Record options_mean (filters : bool) (t : typed_args) (args : tokenize_args) : Prop := {
  om_kind : given (fun s o => exists k, o = Some k /\ names_kind s k) None (ty_dic_type t) (ta_dic_type args);
  om_dir : ta_dic_dir args = ty_dic_dir t;
  om_user : ta_user_dic_file args = ty_user_dic_file t;
  om_mode : given names_mode Normal (ty_mode t) (ta_mode args);
  om_format : given eq (lit "mecab") (ty_output_format t) (ta_output_format args);
  om_chars : ta_character_filters args = (if filters then ty_character_filters t else []);
  om_tokens : ta_token_filters args = (if filters then ty_token_filters t else [])
}.

(** ** The stages *)

Inductive stage := AtDictionary | AtUser | AtFormat | AtCharFilters | AtTokenFilters | AtInput.
Definition stage_number (s : stage) : nat :=
  match s with AtDictionary => 0 | AtUser => 1 | AtFormat => 2 | AtCharFilters => 3 | AtTokenFilters => 4 | AtInput => 5 end.

(* the name of a filter ends at the first colon; without a colon all of the flag is the name *)
Definition flag_parts (flag name json : str) : Prop := at_first_colon flag name json \/ (~ In 58%N flag /\ name = flag /\ json = []).

Section Flags.
Context {A : Type} (parse : str -> option value) (load : str -> value -> res A).
Definition flag_gives (flag : str) (f : A) : Prop := exists name json v, flag_parts flag name json /\ parse json = Some v /\ load name v = Ok f.
Definition flag_fault (flag : str) (er : error_kind) : Prop :=
  exists name json, flag_parts flag name json /\ ((parse json = None /\ er = EContent) \/ exists v, parse json = Some v /\ load name v = Err er).
Definition flag_panic (flag : str) : Prop := exists name json v, flag_parts flag name json /\ parse json = Some v /\ load name v = Panic.
(* the first flag that gives no filter *)
Definition first_wrong (wrong : str -> Prop) (flags : list str) : Prop :=
  exists before flag after, flags = before ++ flag :: after /\ Forall (fun x => exists f, flag_gives x f) before /\ wrong flag.
End Flags.

Inductive command_fault (e : env) (args : tokenize_args) (input : option (list N)) : stage -> error_kind -> Prop :=
| fault_at_dictionary er : dictionary_fault e (DictionaryConfig (ta_dic_type args) (ta_dic_dir args)) er -> command_fault e args input AtDictionary er
| fault_at_user path er : ta_user_dic_file args = Some path -> user_fault e (UserDictionaryConfig path (ta_dic_type args)) er -> command_fault e args input AtUser er
| fault_at_format : (forall f, ~ names_format (ta_output_format args) f) -> command_fault e args input AtFormat EArgs
| fault_at_chars er : first_wrong (e_parse e) (load_char_filter e) (fun x => flag_fault (e_parse e) (load_char_filter e) x er) (ta_character_filters args) ->
    command_fault e args input AtCharFilters er
| fault_at_tokens er : first_wrong (e_parse e) load_token_filter (fun x => flag_fault (e_parse e) load_token_filter x er) (ta_token_filters args) ->
    command_fault e args input AtTokenFilters er
| fault_at_input : input = None -> command_fault e args input AtInput EIo.

Inductive command_panic (e : env) (args : tokenize_args) : stage -> Prop :=
| panic_at_dictionary : dictionary_panic e (DictionaryConfig (ta_dic_type args) (ta_dic_dir args)) -> command_panic e args AtDictionary
| panic_at_user path : ta_user_dic_file args = Some path -> user_panic e (UserDictionaryConfig path (ta_dic_type args)) -> command_panic e args AtUser
| panic_at_chars : first_wrong (e_parse e) (load_char_filter e) (flag_panic (e_parse e) (load_char_filter e)) (ta_character_filters args) -> command_panic e args AtCharFilters
| panic_at_tokens : first_wrong (e_parse e) load_token_filter (flag_panic (e_parse e) load_token_filter) (ta_token_filters args) -> command_panic e args AtTokenFilters.

Definition fine_at (e : env) (args : tokenize_args) (input : option (list N)) (s : stage) : Prop :=
  (forall er, ~ command_fault e args input s er) /\ ~ command_panic e args s.
Definition fine_before (e : env) (args : tokenize_args) (input : option (list N)) (s : stage) : Prop :=
  forall s', stage_number s' < stage_number s -> fine_at e args input s'.

(* the analyzer and the format that the options describe *)
Inductive command_analyzer (e : env) (args : tokenize_args) : analyzer_def -> format -> Prop :=
| command_analyzer_is d u cfs tfs f :
    load_dictionary_from_config e (DictionaryConfig (ta_dic_type args) (ta_dic_dir args)) = Ok d ->
    match ta_user_dic_file args, u with
    | Some path, Some ud => load_user_dictionary_from_config e (UserDictionaryConfig path (ta_dic_type args)) = Ok ud
    | None, None => True
    | _, _ => False
    end ->
    names_format (ta_output_format args) f ->
    Forall2 (flag_gives (e_parse e) (load_char_filter e)) (ta_character_filters args) cfs ->
    Forall2 (flag_gives (e_parse e) load_token_filter) (ta_token_filters args) tfs ->
    command_analyzer e args (AnalyzerDef cfs (Tokenizer d u (ta_mode args)) tfs) f.
