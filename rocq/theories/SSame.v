(** Settings that say the same, and filters whose order does not matter. *)
From Coq Require Import String.
From Coq Require Import List NArith ZArith Bool Permutation.
From Verif Require Import MBase MUtf8 MText MDetails MBuild MCharFilter MAnalyzer MTokenFilter MConfig SConfig.
Import ListNotations.
Local Open Scope list_scope.

(** ** Settings *)

(* a list of strings counts as a set, an object of strings as a map *)
Inductive same_value : value -> value -> Prop :=
| same_itself v : same_value v v
| same_set l l' : (forall x, In x l <-> In x l') -> same_value (VArr (map VStr l)) (VArr (map VStr l'))
| same_map m m' : NoDup (map fst m) -> Permutation m m' ->
    same_value (VObj (map (fun kv => (fst kv, VStr (snd kv))) m)) (VObj (map (fun kv => (fst kv, VStr (snd kv))) m')).
(* the same fields in any order *)
Definition same_settings (fs fs' : list (str * value)) : Prop :=
  exists mid, Permutation fs mid /\ Forall2 (fun a b => fst a = fst b /\ same_value (snd a) (snd b)) mid fs'.

(* a filter's entry: equal, or of the same kind with arguments that say the same *)
Inductive same_entry : value -> value -> Prop :=
| same_entry_itself s : same_entry s s
| same_entry_args fs fs' name args args' :
    NoDup (map fst fs) -> NoDup (map fst fs') -> NoDup (map fst args) ->
    has fs "kind" (VStr name) -> has fs "args" (VObj args) -> has fs' "kind" (VStr name) -> has fs' "args" (VObj args') ->
    same_settings args args' -> same_entry (VObj fs) (VObj fs').
(* the lists of filters: absent in both, or the same entries in the same order *)
Definition same_filters (top top' : list (str * value)) (key : string) : Prop :=
  ((forall l, ~ has top key (VArr l)) /\ (forall l, ~ has top' key (VArr l))) \/
  exists l l', has top key (VArr l) /\ has top' key (VArr l') /\ Forall2 same_entry l l'.
Definition same_analyzer (top top' : list (str * value)) : Prop :=
  (forall v, has top "tokenizer" v <-> has top' "tokenizer" v) /\
  same_filters top top' "character_filters" /\ same_filters top top' "token_filters".

(** ** Kinds of filters *)

(* filters that keep or drop tokens by their details alone *)
Inductive by_details : token_filter_def -> Prop :=
| bd_keep ts : by_details (TFKeepTags ts)
| bd_stop ts : by_details (TFStopTags ts)
| bd_korean_keep ts : by_details (TFKoreanKeepTags ts)
| bd_korean_stop ts : by_details (TFKoreanStopTags ts).
(* by their text alone *)
Inductive by_text : token_filter_def -> Prop :=
| bt_keep ws : by_text (TFKeepWords ws)
| bt_stop ws : by_text (TFStopWords ws)
| bt_length a b : by_text (TFLength a b).
(* filters that replace the text of every token, looking at no other token *)
Inductive rewrites : token_filter_def -> Prop :=
| rw_base k : rewrites (TFBaseForm k)
| rw_reading k : rewrites (TFReadingForm k)
| rw_korean : rewrites TFKoreanReadingForm
| rw_kana k : rewrites (TFKana k)
| rw_lower : rewrites TFLowercase
| rw_upper : rewrites TFUppercase
| rw_mapping f : rewrites (TFMapping f)
| rw_stem n : rewrites (TFStem n)
| rw_number ts : rewrites (TFNumber ts).
(* filters that show a detail: the dictionary's base form or reading *)
Inductive shows_detail : token_filter_def -> Prop :=
| sd_base k : In k [IPADIC; IPADICNEologd; UniDic] -> shows_detail (TFBaseForm k)
| sd_reading k : In k [IPADIC; IPADICNEologd; UniDic] -> shows_detail (TFReadingForm k)
| sd_korean : shows_detail TFKoreanReadingForm.
(* filters that keep what the other drops *)
Inductive opposite : token_filter_def -> token_filter_def -> Prop :=
| op_tags ts : opposite (TFKeepTags ts) (TFStopTags ts)
| op_korean ts : opposite (TFKoreanKeepTags ts) (TFKoreanStopTags ts)
| op_words ws : opposite (TFKeepWords ws) (TFStopWords ws).
(* two filters that one filter can replace *)
Definition both (a b c : list str) : Prop := forall x, In x c <-> In x a /\ In x b.
Definition either (a b c : list str) : Prop := forall x, In x c <-> In x a \/ In x b.
Inductive merged : token_filter_def -> token_filter_def -> token_filter_def -> Prop :=
| mg_keep_tags a b c : both a b c -> merged (TFKeepTags a) (TFKeepTags b) (TFKeepTags c)
| mg_stop_tags a b c : either a b c -> merged (TFStopTags a) (TFStopTags b) (TFStopTags c)
| mg_korean_keep a b c : both a b c -> merged (TFKoreanKeepTags a) (TFKoreanKeepTags b) (TFKoreanKeepTags c)
| mg_korean_stop a b c : either a b c -> merged (TFKoreanStopTags a) (TFKoreanStopTags b) (TFKoreanStopTags c)
| mg_keep_words a b c : both a b c -> merged (TFKeepWords a) (TFKeepWords b) (TFKeepWords c)
| mg_stop_words a b c : either a b c -> merged (TFStopWords a) (TFStopWords b) (TFStopWords c)
| mg_length a b : merged (TFLength (Some a) None) (TFLength None (Some b)) (TFLength (Some a) (Some b)).

(* one filter after the other *)
Definition then_run (e : env) (d d' : token_filter_def) (ts : list ftoken) : res (list ftoken) :=
  match run_token_filter e d ts with Ok mid => run_token_filter e d' mid | Err k => Err k | Panic => Panic end.
