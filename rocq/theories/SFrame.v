(** Words that do not occur in the text. *)
From Coq Require Import List NArith ZArith Bool.
From Verif Require Import MBase MUtf8 MText MCodec MDict MCharDef MUnk MLattice MTokenizer MDetails MBuild MCharFilter MAnalyzer MTokenFilter MConfig MBuilders
  STok SBuild SBuilders.
Import ListNotations.
Local Open Scope list_scope.

(* s is a piece of the text *)
Definition part_of (s text : str) : Prop := exists a b, text = a ++ s ++ b.

(** ** Outcomes that agree *)

(* both results, related; or the same error; or both panic *)
Definition agree {A B} (P : A -> B -> Prop) (r : res A) (r' : res B) : Prop :=
  match r, r' with
  | Ok a, Ok b => P a b
  | Err k, Err k' => k = k'
  | Panic, Panic => True
  | _, _ => False
  end.
(* the same, where both may run forever *)
Definition agree_run {A B} (P : A -> B -> Prop) (o : option (res A)) (o' : option (res B)) : Prop :=
  match o, o' with
  | Some r, Some r' => agree P r r'
  | None, None => True
  | _, _ => False
  end.

(** ** Words that agree up to their numbers *)

Section Words.
Variable R : word_id -> word_id -> Prop.

(* the same cost and context ids, and related word ids *)
Definition alike (e e' : word_entry) : Prop :=
  we_cost e = we_cost e' /\ we_left e = we_left e' /\ we_right e = we_right e' /\ R (we_id e) (we_id e').
Definition found_alike (p p' : nat * word_entry) : Prop := fst p = fst p' /\ alike (snd p) (snd p').

(* a look-up where no dictionary means no words *)
Definition words_at (d : option prefix_dict) (s : str) : res (list (nat * word_entry)) :=
  match d with Some d => pd_prefix d s | None => Ok [] end.
Definition same_words (text : str) (d d' : option prefix_dict) : Prop :=
  forall s, part_of s text -> agree (Forall2 found_alike) (words_at d s) (words_at d' s).

(* two tokenizers that differ only in words that are not in the text, and in how the words are numbered *)
Record same_in (text : str) (t t' : tokenizer) : Prop := {
  si_mode : t_mode t = t_mode t';
  si_matrix : d_matrix (t_dictionary t) = d_matrix (t_dictionary t');
  si_chardef : d_chardef (t_dictionary t) = d_chardef (t_dictionary t');
  si_unknown : d_unknown (t_dictionary t) = d_unknown (t_dictionary t');
  si_unknown_ids : forall i e, ud_word_entry (d_unknown (t_dictionary t)) i = Ok e -> R (we_id e) (we_id e);
  si_words : same_words text (Some (d_dict (t_dictionary t))) (Some (d_dict (t_dictionary t')));
  si_user : same_words text (option_map u_dict (t_user t)) (option_map u_dict (t_user t'))
}.

(* the same token but for the number of its word *)
Definition same_token (a b : token) : Prop :=
  tk_text a = tk_text b /\ tk_start a = tk_start b /\ tk_end a = tk_end b /\
  tk_position a = tk_position b /\ tk_position_length a = tk_position_length b /\ R (tk_word a) (tk_word b).
End Words.

(** ** Sources *)

(* the same rows, in the same order, for every piece of the text; not so many that they are lost *)
Definition same_rows (rows_for : str -> list row) (rows_for' : str -> list row) (text : str) : Prop :=
  forall s, part_of s text -> rows_for s = rows_for' s /\ length (rows_for s) <= 31.

Record same_sources (k : dictionary_kind) (text : str) (S S' : sources) : Prop := {
  ss_char : s_char S = s_char S';
  ss_unk : s_unk S = s_unk S';
  ss_matrix : s_matrix S = s_matrix S';
  ss_rows : same_rows (fun s => sys_rows_for (source_options k) s (s_rows S)) (fun s => sys_rows_for (source_options k) s (s_rows S')) text
}.

(* the user dictionary for some rows: none without rows *)
Definition user_from (k : dictionary_kind) (rows : list row) (u : option user_dictionary) : Prop :=
  match u with
  | None => rows = []
  | Some ud => build_user (kind_user_options k) rows = Ok ud /\ user_room (kind_user_options k) rows
  end.

(* the dictionary d was built from S and read back *)
Definition loaded_from (k : dictionary_kind) (S : sources) (d : dictionary) : Prop :=
  exists be e dir out files, has_sources be k dir S /\ (exists C, readable k S C) /\ yada_works be e (system_words k (s_rows S)) /\
    be_compress be = false /\ build_dictionary be k dir = Ok files /\ files_at e out files /\ load_dictionary e out = Ok d.

(* the details of the two words are the same *)
Definition details_agree (d : dictionary) (u : option user_dictionary) (d' : dictionary) (u' : option user_dictionary) (w w' : word_id) : Prop :=
  get_details d u w None = get_details d' u' w' None.

(** ** Analyzers *)

(* the same token after the token filters but for the number of its word *)
Definition same_ftoken (a b : ftoken) : Prop :=
  ft_text a = ft_text b /\ ft_start a = ft_start b /\ ft_end a = ft_end b /\ ft_position a = ft_position b /\
  ft_position_length a = ft_position_length b /\ ft_details a = ft_details b.

(* n is what the character filters make of the text *)
Definition filtered (e : env) (fs : list char_filter_def) (text n : str) : Prop :=
  exists vecs, apply_char_filters (map (run_char_filter e) fs) text [] = Some (Ok (n, vecs)).
