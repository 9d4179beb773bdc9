(** Configurations that cannot fail on any text. *)
From Coq Require Import String.
From Coq Require Import List NArith ZArith Bool.
From Verif Require Import MBase MUtf8 MText MCodec MDict MTokenizer MDetails MBuild MCharFilter MAnalyzer MConfig STok SBuild SCharFilter STokenFilter SConfig.
Import ListNotations.
Local Open Scope list_scope.

(* the functions of other crates give valid texts, and matches that lie in the text one after the other *)
Record env_sound (e : env) : Prop := {
  es_lower : forall s, valid_str s -> valid_str (e_lower e s);
  es_upper : forall s, valid_str s -> valid_str (e_upper e s);
  es_kana : forall k s, valid_str s -> valid_str (e_kana e k s);
  es_graphemes : forall s, valid_str s -> Forall valid_str (e_graphemes e s);
  es_form : forall k s, valid_str s -> valid_str (e_form e k s);
  es_matches : forall p rx s, e_regex e p = Some rx -> valid_str s -> exists ps tail, s = whole ps tail /\ rx_find_iter rx s = match_spans 0 ps;
  es_expand : forall p rx s m r, e_regex e p = Some rx -> valid_str s -> valid_str r -> valid_str (rx_expand rx s m r)
}.

(* details from which the filters may take number n-1: unknown words have the detail UNK instead *)
Definition good_details (n : nat) (ds : list str) : Prop :=
  Forall valid_str ds /\ ds <> [] /\ (hd [] ds = lit "UNK" \/ n <= List.length ds).
Definition good_token (n : nat) (tk : ftoken) : Prop := valid_str (ft_text tk) /\ good_details n (ft_details tk).

(* every text is cut into tokens with such details *)
Definition serves (n : nat) (t : tokenizer) : Prop :=
  forall text, valid_str text -> exists ts, tokenize t text = Some (Ok ts) /\
    Forall (fun tok => valid_str (tk_text tok) /\
      exists ds, get_details (t_dictionary t) (t_user t) (tk_word tok) None = Ok (Some ds, Some ds) /\ good_details n ds) ts.

(* arguments of a character filter: keys for which a trie can be built, and valid texts *)
Record harmless_char (name : str) (fs : list (str * value)) : Prop := {
  hc_mapping : name = lit "mapping" -> forall v m, has fs "mapping" v -> means_map v m -> mapping_keys_ok m /\ Forall (fun kv => valid_str (snd kv)) m;
  hc_regex : name = lit "regex" -> forall r, has fs "replacement" (VStr r) -> valid_str r
}.

(* arguments of a token filter that needs at most n details; the number and stem filters panic on some texts *)
Record harmless (n : nat) (name : str) (fs : list (str * value)) : Prop := {
  hm_number : name <> lit "japanese_number";
  hm_stem : name <> lit "japanese_katakana_stem";
  hm_base : name = lit "japanese_base_form" -> forall v k i, has fs "kind" v -> means_name kind_names v k -> base_place k = Some i -> i < n;
  hm_reading : name = lit "japanese_reading_form" -> forall v k i, has fs "kind" v -> means_name kind_names v k -> reading_place k = Some i -> i < n;
  hm_korean : name = lit "korean_reading_form" -> 3 < n;
  hm_compound : name = lit "japanese_compound_word" -> forall v k, has fs "kind" v -> means_name kind_names v k -> n <= match k with UniDic => 17 | _ => 9 end;
  hm_new_tag : name = lit "japanese_compound_word" -> forall t, has fs "new_tag" (VStr t) -> valid_str t;
  hm_mapping : name = lit "mapping" -> forall v m, has fs "mapping" v -> means_map v m -> mapping_keys_ok m /\ Forall (fun kv => valid_str (snd kv)) m
}.

(* the details that the rows of a dictionary of one kind have, at least *)
Definition kind_details (k : dictionary_kind) : nat := match k with IPADIC | IPADICNEologd => 9 | UniDic => 17 | KoDic | CcCedict => 8 end.
