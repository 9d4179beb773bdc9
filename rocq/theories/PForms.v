(** Properties C47, C48 and C52 for arguments that are not objects. *)
From Coq Require Import String.
From Coq Require Import List NArith ZArith Bool.
From Verif Require Import MBase MUtf8 MText MCodec MLattice MBuild MCharFilter MAnalyzer MTokenFilter MConfig
  STokenFilter SConfig SForms LForms XSample XConfig.
Import ListNotations.
Local Open Scope string_scope.
Local Open Scope list_scope.

(** C47: an array has the values of the fields in order; a filter that needs no arguments takes anything *)
Theorem C47_arrays : forall name l,
  (forall fields, In (name, fields) token_filter_fields ->
    (List.length l = List.length fields -> load_token_filter name (VArr l) = load_token_filter name (VObj (combine fields l))) /\
    (List.length l <> List.length fields ->
       load_token_filter name (VArr l) = if str_eqb name (lit "japanese_katakana_stem") && match l with [] => true | _ => false end then Ok (TFStem 3) else Err EDeserialize)) /\
  ((forall fields, ~ In (name, fields) token_filter_fields) -> load_token_filter name (VArr l) = load_token_filter name VNull).
Proof. intros name l. split; [intros fields I; split; [exact (token_array name fields l I)|exact (token_array_length name fields l I)]|exact (token_array_other name l)]. Qed.
Print Assumptions C47_arrays.
Theorem C47_scalars : forall name v, scalar v -> load_token_filter name v = load_token_filter name VNull.
Proof. exact token_scalar. Qed.
Print Assumptions C47_scalars.
Example C47_forms_ex : load_token_filter (lit "length") (VArr [VInt 2; VNull]) = Ok (TFLength (Some 2%N) None) /\
  load_token_filter (lit "length") (VArr [VInt 2]) = Err EDeserialize /\
  load_token_filter (lit "japanese_katakana_stem") (VArr []) = Ok (TFStem 3) /\ load_token_filter (lit "japanese_katakana_stem") (VArr [VInt 5]) = Ok (TFStem 5) /\
  load_token_filter (lit "keep_words") (VArr [VArr [VStr (lit "a")]]) = Ok (TFKeepWords [lit "a"]) /\
  load_token_filter (lit "japanese_keep_tags") (VArr [VArr [VStr (lit "a")]]) = Err EDeserialize /\
  load_token_filter (lit "lowercase") (VArr [VNull]) = Ok TFLowercase /\ load_token_filter (lit "lowercase") (VInt 7) = Ok TFLowercase /\
  load_token_filter (lit "length") (VStr (lit "2")) = Err EDeserialize.
Proof. repeat split. Qed.

(** C48 *)
Theorem C48_arrays : forall e name fields l, In (name, fields) char_filter_fields ->
  load_char_filter e name (VArr l) = if Nat.eqb (List.length l) (List.length fields) then load_char_filter e name (VObj (combine fields l)) else Err EDeserialize.
Proof. exact char_array. Qed.
Print Assumptions C48_arrays.
Theorem C48_scalars : forall e name v, scalar v -> load_char_filter e name v = Err EDeserialize.
Proof. exact char_scalar. Qed.
Print Assumptions C48_scalars.
Example C48_forms_ex : load_char_filter sample_env (lit "japanese_iteration_mark") (VArr [VBool true; VBool false]) = Ok (CFIteration (IterationConfig true false)) /\
  load_char_filter sample_env (lit "japanese_iteration_mark") (VArr [VBool true]) = Err EDeserialize /\
  load_char_filter sample_env (lit "unicode_normalize") (VStr (lit "nfc")) = Err EDeserialize.
Proof. repeat split. Qed.

(** C52: a penalty given as an array *)
Theorem C52_decompose_array : forall l, de_mode (VObj [(lit "decompose", VArr l)]) =
  if Nat.eqb (List.length l) 4 then de_mode (VObj [(lit "decompose", VObj (combine penalty_fields l))]) else Err EDeserialize.
Proof. exact mode_array. Qed.
Print Assumptions C52_decompose_array.
Example C52_forms_ex : de_mode (VObj [(lit "decompose", VArr [VInt 2; VInt 3000; VInt 7; VInt 1700])]) = Ok (Decompose (Penalty 2 3000 7 1700)) /\
  de_mode (VObj [(lit "decompose", VArr [VInt 2])]) = Err EDeserialize.
Proof. repeat split. Qed.

(** C49: the dictionaries given as arrays *)
Theorem C49_arrays : forall l,
  de_dictionary_config (VArr l) = (if Nat.eqb (List.length l) 2 then de_dictionary_config (VObj (combine (map lit ["kind"; "path"]) l)) else Err EDeserialize) /\
  de_user_dictionary_config (VArr l) = (if Nat.eqb (List.length l) 2 then de_user_dictionary_config (VObj (combine (map lit ["path"; "kind"]) l)) else Err EDeserialize).
Proof. intros l. split; [apply dictionary_array|apply user_dictionary_array]. Qed.
Print Assumptions C49_arrays.
Example C49_forms_ex : de_tokenizer_config [(lit "dictionary", VArr [VStr (lit "unidic"); VNull]); (lit "user_dictionary", VArr [VStr (lit "u.csv"); VStr (lit "unidic")])] =
  Ok (TokenizerConfig (DictionaryConfig (Some UniDic) None) (Some (UserDictionaryConfig (lit "u.csv") (Some UniDic))) Normal).
Proof. reflexivity. Qed.
