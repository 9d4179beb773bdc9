(** From source files and a configuration to tokens. *)
From Coq Require Import String.
From Coq Require Import List NArith ZArith Bool Lia.
From Verif Require Import MBase MUtf8 MText MCodec MDict MCharDef MUnk MBincode MLattice MTokenizer MDetails MBuild MCharFilter MAnalyzer MTokenFilter MConfig MBuilders
  STok SBuild SMatrix SCharDef SUnk SData SCharFilter SAnalyzer STokenFilter SConfig SBuilders SSafe SFull
  LBase LCharDef LConfig LConfigMore LConfigRound LCli LBuilders LKinds LUserFile LText LEmbedded LWhole LSafe.
Import ListNotations.
Local Open Scope list_scope.

(** * Filters *)

Lemma fine_settings {A} (load : str -> value -> res A) (fine : str -> list (str * value) -> Prop) (bare : str -> Prop) (ok : str -> list (str * value) -> Prop) l :
  (forall name fs, NoDup (map fst fs) -> fine name fs -> (exists d, load name (VObj fs) = Ok d) /\ ok name fs) ->
  (forall name a, bare name -> exists d, load name a = Ok d /\ load name (VObj []) = Ok d /\ ok name []) ->
  Forall (fine_entry fine bare) l ->
  exists ds cs, settings_loaded load l ds /\ Forall2 (fun '(name, fs) d => NoDup (map fst fs) /\ load name (VObj fs) = Ok d) cs ds /\
    Forall (fun '(name, fs) => ok name fs) cs.
Proof.
  intros LF LB F. induction F as [|s l E F IH].
  - exists [], []. repeat constructor.
  - destruct IH as (ds & cs & L & F2 & O). destruct E as [SK|name fs K A1 ND FI|name a K A1 B].
    + exists ds, cs. split; [apply settings_skip; assumption|auto].
    + destruct (LF name fs ND FI) as [[d D] O1]. exists (d :: ds), ((name, fs) :: cs). split; [eapply settings_filter; eassumption|]. split; [constructor; auto|constructor; auto].
    + destruct (LB name a B) as (d & D & D' & O1). exists (d :: ds), ((name, []) :: cs). split; [eapply settings_filter; eassumption|].
      split; [constructor; [split; [constructor|exact D']|exact F2]|constructor; auto].
Qed.

Lemma array_dec (v : value) : {l | v = VArr l} + {forall l, v <> VArr l}.
Proof. destruct v; try (right; discriminate). left. eexists. reflexivity. Qed.
Lemma has_array_dec top key : (exists l, has top key (VArr l)) \/ (forall l, ~ has top key (VArr l)).
Proof.
  unfold has. induction top as [|[k v] top IH]; [right; intros l []|].
  destruct IH as [[l H]|H]; [left; exists l; right; exact H|].
  destruct (str_eqb k (lit key)) eqn:E.
  - apply str_eqb_true in E. subst k. destruct (array_dec v) as [[l ->]|N]; [left; exists l; left; reflexivity|].
    right. intros l [X|X]; [injection X as X; exact (N l X)|exact (H l X)].
  - right. intros l [X|X]; [injection X as X _; subst k; assert (Y : str_eqb (lit key) (lit key) = true) by (apply str_eqb_true; reflexivity); congruence|exact (H l X)].
Qed.

Lemma fine_top {A} (load : str -> value -> res A) (fine : str -> list (str * value) -> Prop) (bare : str -> Prop) (ok : str -> list (str * value) -> Prop) top key :
  (forall name fs, NoDup (map fst fs) -> fine name fs -> (exists d, load name (VObj fs) = Ok d) /\ ok name fs) ->
  (forall name a, bare name -> exists d, load name a = Ok d /\ load name (VObj []) = Ok d /\ ok name []) ->
  fine_filters fine bare top key ->
  exists ds cs, filters_loaded load top key ds /\ Forall2 (fun '(name, fs) d => NoDup (map fst fs) /\ load name (VObj fs) = Ok d) cs ds /\
    Forall (fun '(name, fs) => ok name fs) cs.
Proof.
  intros LF LB F. destruct (has_array_dec top key) as [[l H]|H].
  - destruct (fine_settings load fine bare ok l LF LB (F l H)) as (ds & cs & L & X). exists ds, cs. split; [left; exists l; auto|exact X].
  - exists [], []. split; [right; auto|]. split; constructor.
Qed.

Lemma fine_char_loads e name fs : NoDup (map fst fs) -> fine_char e name fs -> (exists d, load_char_filter e name (VObj fs) = Ok d) /\ harmless_char name fs.
Proof. intros ND [[d D] H]. split; [|exact H]. exists d. apply load_char_filter_iff; assumption. Qed.
Lemma fine_token_loads n name fs : NoDup (map fst fs) -> fine_token n name fs -> (exists d, load_token_filter name (VObj fs) = Ok d) /\ harmless n name fs.
Proof. intros ND [[d D] H]. split; [|exact H]. exists d. apply load_token_filter_iff; assumption. Qed.
Lemma bare_token_loads n name a : bare_token n name -> exists d, load_token_filter name a = Ok d /\ load_token_filter name (VObj []) = Ok d /\ harmless n name [].
Proof.
  intros [->|[->|[-> N]]]; eexists; (split; [reflexivity|split; [reflexivity|]]); constructor; try discriminate; intros E; try (vm_compute in E; discriminate E); exact N.
Qed.

(** * Dictionaries *)

Definition with_read (read : str -> option (list N)) (e : env) : env :=
  Env (e_parse e) (e_pretty e) (e_regex e) (e_graphemes e) (e_form e) (e_lower e) (e_upper e) (e_kana e) (e_block e) (e_embedded e) read (e_da e) (e_csv e).

(* files under their own names *)
Lemma own_names e (files : list (str * list N)) : NoDup (map fst files) ->
  files_at (with_read (fun name => option_map snd (find (fun f => str_eqb (fst f) name) files)) e) [] files.
Proof.
  intros ND name bytes I. unfold with_read. cbn [e_read]. unfold join_path. cbn [is_nil orb app].
  induction files as [|[n b] files IH]; [destruct I|]. cbn [find fst]. inversion ND as [|? ? N1 N2]; subst. destruct I as [I|I].
  - injection I as -> ->. rewrite (proj2 (str_eqb_true name name) eq_refl). reflexivity.
  - destruct (str_eqb n name) eqn:E; [|apply IH; assumption]. apply str_eqb_true in E. subst n. exfalso. apply N1. change name with (fst (name, bytes)). apply in_map. exact I.
Qed.

Lemma embedded_loads be feature k dir files plain : codecs_inverse (be_codecs be) -> codecs_bytes (be_codecs be) ->
  build_dictionary (with_compress feature be) k dir = Ok files -> build_dictionary (with_compress false be) k dir = Ok plain -> byte_files plain ->
  forall e get, contents get files -> exists e', e_da e' = e_da e /\ files_at e' [] plain /\
    embedded_dictionary e (be_codecs be) feature get = load_dictionary e' [].
Proof.
  intros CI CB H P BF e get CO. destruct (embedded_same be feature k dir files CI CB H) as (plain' & P' & EQ). rewrite P in P'. injection P' as <-.
  assert (ND : NoDup (map fst plain)).
  { destruct (build_parts be false k dir plain P) as (cd & u & w & wi & da & v & m & P2 & _). rewrite P in P2. injection P2 as ->. cbn [map combine fst].
    repeat (constructor; [cbn [In]; intros X; repeat (destruct X as [X|X]; [vm_compute in X; discriminate X|]); exact X|]). constructor. }
  pose proof (own_names e plain ND) as FA. exists (with_read (fun name => option_map snd (find (fun f => str_eqb (fst f) name) plain)) e). split; [reflexivity|]. split; [exact FA|].
  rewrite <- (EQ BF _ [] get FA CO). reflexivity.
Qed.

(* yada is all that building and reading need from the environment *)
Lemma yada_works_other be e e' ws feature : e_da e' = e_da e -> yada_works be e ws -> yada_works (with_compress feature be) e' ws.
Proof. intros E Y ks T F. rewrite E. exact (Y ks T F). Qed.
Lemma has_sources_compress be feature k dir S : has_sources be k dir S -> has_sources (with_compress feature be) k dir S.
Proof.
  intros [H1 H2 H3 H4]. constructor; assumption.
Qed.

Definition loads_user (e : env) (u : option user_dictionary_config) (r : option user_dictionary) : Prop :=
  match u, r with
  | None, None => True
  | Some c, Some d => load_user_dictionary_from_config e c = Ok d
  | _, _ => False
  end.

Lemma finds_user_rows be e k C u : finds_user be e k C u ->
  (u = None /\ loads_user e u None) \/
  exists rows ud, loads_user e u (Some ud) /\ build_user (kind_user_options k) rows = Ok ud /\ user_room (kind_user_options k) rows /\ user_ids_fit k rows C.
Proof.
  intros [|path rows FE UR FIT|source path rows kind UR FIT Y YB FE RD].
  - left. repeat constructor.
  - right. destruct UR as [UC UL LE UA]. destruct (proj1 (kind_build_outcome k rows LE) UA) as (d & B). exists rows, d.
    split; [|auto]. cbn [loads_user]. rewrite (proj1 (user_dictionary_csv e path k FE)). unfold load_user_dictionary_from_csv. rewrite (user_rows_read _ _ _ _ UC), B. reflexivity.
  - right. destruct (user_file_loads be e k source rows UR Y YB) as (d & file & B1 & _ & B2 & B3). exists rows, d.
    split; [|split; [exact B1|split; [apply UR|exact FIT]]]. cbn [loads_user]. rewrite (user_dictionary_bin e path kind FE). apply B3, RD, B2.
Qed.

Lemma serves_config n be e k dir S C dc u : good_sources n be e k dir S C -> finds_dictionary be e k dir dc -> finds_user be e k C u ->
  exists d ud, load_dictionary_from_config e dc = Ok d /\ loads_user e u ud /\ forall m, serves n (Tokenizer d ud m).
Proof.
  intros [HS R CO P LR Y] FD FU.
  assert (G : forall e', e_da e' = e_da e -> exists files ud, build_dictionary (with_compress false be) k dir = Ok files /\ loads_user e u ud /\
    forall out, files_at e' out files -> exists d, load_dictionary e' out = Ok d /\ forall m, serves n (Tokenizer d ud m)).
  { intros e' E. pose proof (yada_works_other be e e' _ false E Y) as Y'. pose proof (has_sources_compress be false k dir S HS) as HS'.
    destruct (finds_user_rows be e k C u FU) as [[-> L]|(rows & ud & L & B & RO & FIT)].
    - destruct (built_serves_alone n _ e' k dir S C HS' R CO (proj1 P) LR Y' eq_refl) as (files & BD & LO). exists files, None. auto.
    - destruct (built_serves n _ e' k dir S C rows ud HS' R CO P LR Y' eq_refl B RO FIT) as (files & BD & LO). exists files, (Some ud). auto. }
  destruct FD as [out NC FA|feature files get path CI CB BF CT BY EM].
  - destruct (G e eq_refl) as (files & ud & BD & L & LO). assert (EQ : with_compress false be = be) by (destruct be; unfold with_compress; cbn in *; subst; reflexivity).
    rewrite EQ in BD. destruct (LO out (FA files BD)) as (d & LD & SV). exists d, ud. auto.
  - destruct (G e eq_refl) as (plain & _ & BD & _). destruct (embedded_loads be feature k dir files plain CI CB BF BD (BY plain BD) e get CT) as (e' & E & FA & EQ).
    destruct (G e' E) as (plain' & ud & BD' & L & LO). rewrite BD in BD'. injection BD' as <-. destruct (LO [] FA) as (d & LD & SV).
    exists d, ud. split; [|auto]. unfold load_dictionary_from_config, load_dictionary_from_kind. cbn [dc_kind]. rewrite EM, EQ, LD. reflexivity.
Qed.

(** * The analyzer *)

Theorem configured_analyzer n be e k dir S C top fs tc : env_sound e -> good_sources n be e k dir S C ->
  distinct_settings top -> has top "tokenizer" (VObj fs) -> object_structs fs -> tokenizer_described fs tc ->
  finds_dictionary be e k dir (tc_dictionary tc) -> finds_user be e k C (tc_user tc) ->
  fine_filters (fine_char e) (fun _ => False) top "character_filters" -> fine_filters (fine_token n) (bare_token n) top "token_filters" ->
  exists d, analyzer_from_config e (VObj top) = Ok d /\
    forall text, valid_str text -> exists tokens, analyze (analyzer_of e d) text = Some (Ok tokens) /\ Forall (good_token n) tokens.
Proof.
  intros ES GS DS HT OS TD FD FU FC FT. destruct (serves_config n be e k dir S C _ _ GS FD FU) as (d & ud & LD & LU & SV).
  destruct (fine_top (load_char_filter e) (fine_char e) (fun _ => False) harmless_char top "character_filters" (fine_char_loads e) ltac:(intros ? ? []) FC) as (cds & cs & L1 & F1 & H1).
  destruct (fine_top load_token_filter (fine_token n) (bare_token n) (harmless n) top "token_filters" (fine_token_loads n) (bare_token_loads n) FT) as (tds & ts & L2 & F2 & H2).
  exists (AnalyzerDef cds (Tokenizer d ud (tc_mode tc)) tds). split.
  - apply analyzer_from_config_iff; [exact DS|]. cbn [ad_char_filters ad_tokenizer ad_token_filters]. split; [exact L1|]. split; [|exact L2].
    exists fs, tc. split; [exact HT|]. split; [apply de_tokenizer_config_iff; assumption|]. unfold tokenizer_from_config. rewrite LD. cbn [bind].
    destruct (tc_user tc) as [uc|], ud as [ud|]; cbn [loads_user] in LU; [rewrite LU; reflexivity|destruct LU|destruct LU|reflexivity].
  - exact (analyzer_total e n _ cs cds ts tds ES (SV _) F1 F2 H1 H2).
Qed.

(** * The command line *)

Lemma fine_flags {A} (load : str -> value -> res A) (load_flag : str -> res A) (fine ok : str -> list (str * value) -> Prop) e flags :
  (forall flag, load_flag flag = do '(kind, args) <- parse_cli_flag e flag; load kind args) ->
  (forall name fs, NoDup (map fst fs) -> fine name fs -> (exists d, load name (VObj fs) = Ok d) /\ ok name fs) ->
  Forall (fine_flag e fine) flags ->
  exists ds cs, mapM load_flag flags = Ok ds /\ Forall2 (fun '(name, fs) d => NoDup (map fst fs) /\ load name (VObj fs) = Ok d) cs ds /\
    Forall (fun '(name, fs) => ok name fs) cs.
Proof.
  intros LF LO F. induction F as [|flag l (name & fs & (json & AT & PA) & ND & FI) F (ds & cs & M & F2 & O)].
  - exists [], []. repeat constructor.
  - destruct (LO name fs ND FI) as [[d D] O1]. exists (d :: ds), ((name, fs) :: cs). split; [|split; constructor; auto].
    cbn [mapM]. rewrite LF, (parse_cli_flag_colon e flag _ json AT), PA. cbn [bind fst snd]. rewrite D. cbn [bind]. rewrite M. reflexivity.
Qed.

Lemma valid_trim s : valid_str s -> valid_str (trim s).
Proof.
  intros V. assert (G : forall x, valid_str x -> valid_str (trim_start x)).
  { intros x W. destruct (trim_start_split x) as (a & E & _). rewrite E in W. apply Forall_app in W. apply W. }
  unfold trim. apply Forall_rev, G, Forall_rev, G, V.
Qed.

Theorem cli_total n be e k dir S C args : env_sound e -> good_sources n be e k dir S C ->
  finds_dictionary be e k dir (DictionaryConfig (ta_dic_type args) (ta_dic_dir args)) ->
  finds_user be e k C (option_map (fun path => UserDictionaryConfig path (ta_dic_type args)) (ta_user_dic_file args)) ->
  In (ta_output_format args) (map fst format_names) ->
  Forall (fine_flag e (fine_char e)) (ta_character_filters args) -> Forall (fine_flag e (fine_token n)) (ta_token_filters args) ->
  exists d f, cli_setup e args = Ok (d, f) /\
    forall text lines, valid_str text -> input_lines text lines ->
      exists tss, Forall2 (fun line ts => analyze (analyzer_of e d) (trim line) = Some (Ok ts)) lines tss /\
        cli_tokenize e (analyzer_of e d) f (utf8 text) = Some (flat_map (printed (e_pretty e) f) tss, Ok tt).
Proof.
  intros ES GS FD FU FO FC FT. destruct (serves_config n be e k dir S C _ _ GS FD FU) as (d & ud & LD & LU & SV).
  destruct (fine_flags (load_char_filter e) (load_char_filter_flag e) (fine_char e) harmless_char e _ ltac:(reflexivity) (fine_char_loads e) FC) as (cds & cs & L1 & F1 & H1).
  destruct (fine_flags load_token_filter (load_token_filter_flag e) (fine_token n) (harmless n) e _ ltac:(reflexivity) (fine_token_loads n) FT) as (tds & ts & L2 & F2 & H2).
  apply in_map_iff in FO. destruct FO as ([s f] & FE & FI). cbn [fst] in FE. subst s. apply format_from_str_iff in FI.
  exists (AnalyzerDef cds (Tokenizer d ud (ta_mode args)) tds), f. split.
  - unfold cli_setup. rewrite LD. cbn [bind]. rewrite FI, L1, L2.
    destruct (ta_user_dic_file args) as [p|], ud as [ud|]; cbn [option_map loads_user] in LU; [rewrite LU; reflexivity|destruct LU|destruct LU|reflexivity].
  - intros text lines V0 IL. pose proof (input_lines_valid _ _ IL V0) as V. pose proof (analyzer_total e n _ cs cds ts tds ES (SV (ta_mode args)) F1 F2 H1 H2) as T.
    assert (X : exists tss, Forall2 (fun line ts => analyze (analyzer_of e (AnalyzerDef cds (Tokenizer d ud (ta_mode args)) tds)) (trim line) = Some (Ok ts)) lines tss).
    { clear IL. induction V as [|line l V F (tss & IH)]; [exists []; constructor|]. destruct (T (trim line) (valid_trim line V)) as (toks & A & _). exists (toks :: tss). constructor; assumption. }
    destruct X as (tss & X). exists tss. split; [exact X|]. exact (cli_text _ _ _ _ _ _ V0 IL X).
Qed.
