(** Lemmas: what the command prints spells its input. *)
From Coq Require Import String.
From Coq Require Import List NArith ZArith Bool Lia.
From Verif Require Import MBase MUtf8 MText MCodec MDict MBincode MTokenizer MDetails MBuild MCharFilter MAnalyzer MTokenFilter MConfig MBuilders
  STok SBuild SMatrix SCharDef SUnk SData SCharFilter STokenFilter SText SConfig SBuilders SSafe SFull SSpell
  LBase LUtf8 LTok LText LConfig LCli LBuilders LWhole LSafe LFull.
Import ListNotations.
Local Open Scope list_scope.

(** * Dictionaries from a configuration cut every text *)

Definition cuts (t : tokenizer) : Prop := forall text, valid_str text -> exists ts, tokenize t text = Some (Ok ts) /\ tiles text ts.

Lemma built_cuts_alone be e k dir S C : has_sources be k dir S -> readable k S C -> complete C ->
  yada_works be e (system_words k (s_rows S)) -> be_compress be = false ->
  exists files, build_dictionary be k dir = Ok files /\
    forall out, files_at e out files -> exists d, load_dictionary e out = Ok d /\ forall m, cuts (Tokenizer d None m).
Proof.
  intros HS R CO Y NC. destruct (built_tokenizer be e k dir S C HS R Y NC CO) as (files & B & L). exists files. split; [exact B|].
  intros out FA. destruct (L out FA) as (d & LD & T). exists d. split; [exact LD|]. intros m text V. exact (T m text V).
Qed.

Lemma built_cuts be e k dir S C urows ud : has_sources be k dir S -> readable k S C -> complete C ->
  yada_works be e (system_words k (s_rows S)) -> be_compress be = false ->
  build_user (kind_user_options k) urows = Ok ud -> user_room (kind_user_options k) urows -> user_ids_fit k urows C ->
  exists files, build_dictionary be k dir = Ok files /\
    forall out, files_at e out files -> exists d, load_dictionary e out = Ok d /\ forall m, cuts (Tokenizer d (Some ud) m).
Proof.
  intros HS R CO Y NC B L IDS. destruct (tokens_come_from be e k dir S C urows ud HS R CO Y NC B L IDS) as (files & BD & LO). exists files. split; [exact BD|].
  intros out FA. destruct (LO out FA) as (d & LD & T). exists d. split; [exact LD|]. intros m text V. destruct (T m text V) as (ts & TS & TI & _). exists ts. auto.
Qed.

Lemma cuts_config n be e k dir S C dc u : good_sources n be e k dir S C -> finds_dictionary be e k dir dc -> finds_user be e k C u ->
  exists d ud, load_dictionary_from_config e dc = Ok d /\ loads_user e u ud /\ forall m, cuts (Tokenizer d ud m).
Proof.
  intros [HS R CO P LR Y] FD FU.
  assert (G : forall e', e_da e' = e_da e -> exists files ud, build_dictionary (with_compress false be) k dir = Ok files /\ loads_user e u ud /\
    forall out, files_at e' out files -> exists d, load_dictionary e' out = Ok d /\ forall m, cuts (Tokenizer d ud m)).
  { intros e' E. pose proof (yada_works_other be e e' _ false E Y) as Y'. pose proof (has_sources_compress be false k dir S HS) as HS'.
    destruct (finds_user_rows be e k C u FU) as [[-> L]|(rows & ud & L & B & RO & FIT)].
    - destruct (built_cuts_alone _ e' k dir S C HS' R CO Y' eq_refl) as (files & BD & LO). exists files, None. auto.
    - destruct (built_cuts _ e' k dir S C rows ud HS' R CO Y' eq_refl B RO FIT) as (files & BD & LO). exists files, (Some ud). auto. }
  destruct FD as [out NC FA|feature files get path CI CB BF CT BY EM].
  - destruct (G e eq_refl) as (files & ud & BD & L & LO). assert (EQ : with_compress false be = be) by (destruct be; unfold with_compress; cbn in *; subst; reflexivity).
    rewrite EQ in BD. destruct (LO out (FA files BD)) as (d & LD & SV). exists d, ud. auto.
  - destruct (G e eq_refl) as (plain & _ & BD & _). destruct (embedded_loads be feature k dir files plain CI CB BF BD (BY plain BD) e get CT) as (e' & E & FA & EQ).
    destruct (G e' E) as (plain' & ud & BD' & L & LO). rewrite BD in BD'. injection BD' as <-. destruct (LO [] FA) as (d & LD & SV).
    exists d, ud. split; [|auto]. unfold load_dictionary_from_config, load_dictionary_from_kind. cbn [dc_kind]. rewrite EM, EQ, LD. reflexivity.
Qed.

Lemma loads_user_same e u a b : loads_user e u a -> loads_user e u b -> a = b.
Proof. destruct u, a, b; cbn [loads_user]; intros H1 H2; try contradiction; congruence. Qed.

(** * Tokens without filters *)

Lemma correct_nothing tokens : mapM (correct_token []) tokens = Ok tokens.
Proof. induction tokens as [|[? ? ? ? ? ? ?] ts IH]; [reflexivity|]. cbn [mapM]. unfold correct_token at 1. cbn. rewrite IH. reflexivity. Qed.

Lemma plain_analyze e t text ts : tokenize t text = Some (Ok ts) ->
  analyze (analyzer_of e (AnalyzerDef [] t [])) text = Some (mapM (analyzed_token t) ts).
Proof.
  intros T. unfold analyze, analyzer_of. cbn [an_char_filters an_tokenizer an_token_filters ad_char_filters ad_tokenizer ad_token_filters map apply_char_filters]. rewrite T.
  unfold analyze_normalized. cbn [an_tokenizer an_token_filters foldM]. destruct (mapM (analyzed_token t) ts); cbn [bind]; [rewrite correct_nothing|..]; reflexivity.
Qed.

Lemma tiles_cut t ts : forall tokens off pos text, mapM (analyzed_token t) ts = Ok tokens -> tiles_from off pos text ts ->
  concat (map ft_text tokens) = text /\
  forall a tk b, tokens = a ++ tk :: b ->
    ft_text tk <> [] /\ ft_start tk = N.of_nat (off + blen (concat (map ft_text a))) /\
    ft_end tk = (ft_start tk + N.of_nat (blen (ft_text tk)))%N /\ ft_position tk = (pos + List.length a)%nat /\ ft_position_length tk = 1%nat.
Proof.
  induction ts as [|x ts IH]; intros tokens off pos text M T.
  - cbn [mapM] in M. injection M as <-. cbn [tiles_from] in T. subst text. split; [reflexivity|]. intros [|? a] tk b E; discriminate.
  - cbn [mapM] in M. apply bind_ok in M. destruct M as (y & Y & M). apply bind_ok in M. destruct M as (l & L & M). injection M as <-.
    cbn [tiles_from] in T. destruct T as (NE & ST & EN & PO & PL & rest & -> & T). destruct (IH l (tk_end x) (S pos) rest L T) as [C A].
    unfold analyzed_token in Y. apply bind_ok in Y. destruct Y as ([ds c] & _ & Y). apply bind_ok in Y. destruct Y as (ds' & _ & Y). injection Y as <-.
    split; [cbn [map concat ft_text]; rewrite C; reflexivity|]. intros [|z a] tk b E.
    + injection E as <- <-. cbn. rewrite ST, EN, PO, PL, Nat.add_0_r, Nat.add_0_r.
      repeat split; [exact NE|lia].
    + injection E as <- E. destruct (A a tk b E) as (A1 & A2 & A3 & A4 & A5). split; [exact A1|]. split; [|split; [exact A3|split; [|exact A5]]].
      * rewrite A2, EN, ST. cbn [map concat ft_text]. rewrite blen_app. lia.
      * rewrite A4. cbn [List.length]. lia.
Qed.

(** * What can be seen *)

Lemma white_dec c : white c \/ ~ white c.
Proof. unfold white. destruct (in_dec N.eq_dec c [9; 10; 11; 12; 13; 32; 0x85; 0xA0; 0x1680; 0x2000; 0x2001; 0x2002; 0x2003; 0x2004; 0x2005; 0x2006; 0x2007; 0x2008; 0x2009; 0x200A;
        0x2028; 0x2029; 0x202F; 0x205F; 0x3000]%N); auto. Qed.
Lemma ink_app a i b j : ink a i -> ink b j -> ink (a ++ b) (i ++ j).
Proof. intros H K. induction H; cbn [app]; [exact K|apply ink_white; assumption|apply ink_char; assumption]. Qed.
Lemma ink_exists s : exists i, ink s i.
Proof. induction s as [|c s [i IH]]; [exists []; constructor|]. destruct (white_dec c); eexists; [apply ink_white|apply ink_char]; eassumption. Qed.
Lemma ink_unique s i j : ink s i -> ink s j -> i = j.
Proof. intros H. revert j. induction H as [|c s i W H IH|c s i W H IH]; intros j K; inversion K; subst; try contradiction; [reflexivity|auto|f_equal; auto]. Qed.
Lemma ink_blank s : Forall white s -> ink s [].
Proof. induction 1; [constructor|apply ink_white; assumption]. Qed.

Lemma ink_trimmed s t i : trimmed s t -> ink t i -> ink s i.
Proof.
  intros (a & b & -> & A & B & _) H. rewrite <- (app_nil_l i). apply ink_app; [apply ink_blank, A|]. rewrite <- (app_nil_r i). apply ink_app; [exact H|apply ink_blank, B].
Qed.
Lemma white_blank : white 32%N. Proof. unfold white. cbn [In]. tauto. Qed.
Lemma white_newline : white 10%N. Proof. unfold white. cbn [In]. tauto. Qed.
Lemma ink_spaced ws i : ink (concat ws) i -> ink (spaced ws) i.
Proof.
  revert i. induction ws as [|w ws IH]; intros i H; [exact H|]. cbn [concat] in H. destruct (ink_exists w) as [x X]. destruct (ink_exists (concat ws)) as [y Y].
  rewrite (ink_unique _ _ _ H (ink_app _ _ _ _ X Y)). specialize (IH y Y). destruct ws as [|w' ws].
  - inversion Y; subst. apply ink_app; [exact X|]. apply ink_white; [exact white_newline|constructor].
  - change (spaced (w :: w' :: ws)) with (w ++ 32%N :: spaced (w' :: ws)). apply ink_app; [exact X|]. apply ink_white; [exact white_blank|exact IH].
Qed.

Lemma join_spaced ws : ws <> [] -> join [32%N] ws ++ [10%N] = spaced ws.
Proof.
  induction ws as [|w ws IH]; intros N; [congruence|]. destruct ws as [|w' ws]; [reflexivity|].
  specialize (IH ltac:(discriminate)). cbn [join] in *. cbn [spaced] in *. rewrite <- IH, <- !app_assoc. reflexivity.
Qed.

Lemma input_lines_concat T ls : input_lines T ls -> concat ls = T.
Proof. induction 1 as [|l N1 N2|l t ls N H IH]; cbn [concat]; [reflexivity|apply app_nil_r|rewrite IH, <- app_assoc; reflexivity]. Qed.

(** * The command *)

Theorem cli_spells n be e k dir S C args f : good_sources n be e k dir S C ->
  finds_dictionary be e k dir (DictionaryConfig (ta_dic_type args) (ta_dic_dir args)) ->
  finds_user be e k C (option_map (fun path => UserDictionaryConfig path (ta_dic_type args)) (ta_user_dic_file args)) ->
  In (ta_output_format args, f) format_names -> ta_character_filters args = [] -> ta_token_filters args = [] ->
  forall text lines, valid_str text -> input_lines text lines ->
    exists tss, Forall2 (fun line ts => exists words, trimmed line words /\ cut_into words ts) lines tss /\
      cli_run e args (Some (utf8 text)) = Some (flat_map (printed (e_pretty e) f) tss, Ok tt).
Proof.
  intros GS FD FU FO FC FT. destruct (serves_config n be e k dir S C _ _ GS FD FU) as (d & ud & LD & LU & SV).
  destruct (cuts_config n be e k dir S C _ _ GS FD FU) as (d' & ud' & LD' & LU' & CU). rewrite LD in LD'. injection LD' as <-. rewrite <- (loads_user_same _ _ _ _ LU LU') in CU. clear ud' LU'.
  assert (SU : cli_setup e args = Ok (AnalyzerDef [] (Tokenizer d ud (ta_mode args)) [], f)).
  { unfold cli_setup. rewrite LD. cbn [bind]. apply format_from_str_iff in FO. rewrite FO, FC, FT.
    destruct (ta_user_dic_file args) as [p|], ud as [ud|]; cbn [option_map loads_user] in LU; [rewrite LU; reflexivity|destruct LU|destruct LU|reflexivity]. }
  intros text lines V0 IL. pose proof (input_lines_valid _ _ IL V0) as V.
  assert (X : exists tss, Forall2 (fun line ts => analyze (analyzer_of e (AnalyzerDef [] (Tokenizer d ud (ta_mode args)) [])) (trim line) = Some (Ok ts)) lines tss /\
    Forall2 (fun line ts => exists words, trimmed line words /\ cut_into words ts) lines tss).
  { clear IL. induction V as [|line l V F (tss & IH1 & IH2)]; [exists []; split; constructor|]. pose proof (valid_trim line V) as VT.
    destruct (SV (ta_mode args) _ VT) as (ts & T & D). destruct (CU (ta_mode args) _ VT) as (ts' & T' & TI). assert (ts' = ts) by congruence. subst ts'.
    destruct (details_good n _ ts D) as (toks & M & _). exists (toks :: tss). split; constructor; [|exact IH1| |exact IH2].
    - rewrite (plain_analyze e _ _ _ T), M. reflexivity.
    - exists (trim line). split; [apply trim_spec; reflexivity|]. exact (tiles_cut _ _ _ _ _ _ M TI). }
  destruct X as (tss & X1 & X2). exists tss. split; [exact X2|]. unfold cli_run. rewrite SU. exact (cli_text _ _ _ _ _ _ V0 IL X1).
Qed.

Theorem cli_wakati n be e k dir S C args : good_sources n be e k dir S C ->
  finds_dictionary be e k dir (DictionaryConfig (ta_dic_type args) (ta_dic_dir args)) ->
  finds_user be e k C (option_map (fun path => UserDictionaryConfig path (ta_dic_type args)) (ta_user_dic_file args)) ->
  ta_output_format args = lit "wakati" -> ta_character_filters args = [] -> ta_token_filters args = [] ->
  forall text lines, valid_str text -> input_lines text lines ->
    exists wss, Forall2 (fun line ws => trimmed line (concat ws) /\ Forall (fun w => w <> []) ws) lines wss /\
      cli_run e args (Some (utf8 text)) = Some (flat_map spaced wss, Ok tt).
Proof.
  intros GS FD FU FO FC FT text lines V IL.
  destruct (cli_spells n be e k dir S C args FWakati GS FD FU ltac:(rewrite FO; right; left; reflexivity) FC FT text lines V IL) as (tss & F & R).
  exists (map (map ft_text) tss). split.
  - clear R IL V. induction F as [|line ts l tss (words & T & E & A) F IH]; constructor; [|exact IH]. split; [rewrite E; exact T|].
    apply Forall_map, Forall_forall. intros tk I. apply in_split in I. destruct I as (a & b & I). apply (A a tk b I).
  - rewrite R. do 2 f_equal. clear. induction tss as [|ts tss IH]; [reflexivity|]. cbn [flat_map map]. rewrite IH. f_equal. cbn [printed].
    destruct ts as [|tk ts]; [reflexivity|]. apply join_spaced. discriminate.
Qed.

Theorem cli_wakati_ink n be e k dir S C args : good_sources n be e k dir S C ->
  finds_dictionary be e k dir (DictionaryConfig (ta_dic_type args) (ta_dic_dir args)) ->
  finds_user be e k C (option_map (fun path => UserDictionaryConfig path (ta_dic_type args)) (ta_user_dic_file args)) ->
  ta_output_format args = lit "wakati" -> ta_character_filters args = [] -> ta_token_filters args = [] ->
  forall text, valid_str text -> exists out i, cli_run e args (Some (utf8 text)) = Some (out, Ok tt) /\ ink text i /\ ink out i.
Proof.
  intros GS FD FU FO FC FT text V. assert (X : exists lines, input_lines text lines) by (eexists; apply input_lines_split; reflexivity). destruct X as (lines & IL).
  destruct (cli_wakati n be e k dir S C args GS FD FU FO FC FT text _ V IL) as (wss & F & R). apply input_lines_concat in IL.
  rewrite R. clear R V. exists (flat_map spaced wss).
  assert (X : exists i, ink (concat lines) i /\ ink (flat_map spaced wss) i).
  { clear IL. induction F as [|line ws l wss (T & _) F (i & I1 & I2)]; [exists []; split; constructor|]. destruct (ink_exists (concat ws)) as [j J]. exists (j ++ i).
    split; apply ink_app; [exact (ink_trimmed _ _ _ T J)|exact I1|apply ink_spaced, J|exact I2]. }
  replace text with (concat lines) by exact IL. destruct X as (i & X). exists i. auto.
Qed.

Theorem cli_mecab n be e k dir S C args : good_sources n be e k dir S C ->
  finds_dictionary be e k dir (DictionaryConfig (ta_dic_type args) (ta_dic_dir args)) ->
  finds_user be e k C (option_map (fun path => UserDictionaryConfig path (ta_dic_type args)) (ta_user_dic_file args)) ->
  ta_output_format args = lit "mecab" -> ta_character_filters args = [] -> ta_token_filters args = [] ->
  forall text lines, valid_str text -> input_lines text lines ->
    exists wss, Forall2 (fun line ws => trimmed line (concat (map fst ws)) /\ Forall (fun w : str * list str => fst w <> []) ws) lines wss /\
      cli_run e args (Some (utf8 text)) =
        Some (flat_map (fun ws => as_lines (map (fun '(w, ds) => w ++ [9%N] ++ join [44%N] ds) ws ++ [lit "EOS"])) wss, Ok tt).
Proof.
  intros GS FD FU FO FC FT text lines V IL.
  destruct (cli_spells n be e k dir S C args FMecab GS FD FU ltac:(rewrite FO; left; reflexivity) FC FT text lines V IL) as (tss & F & R).
  exists (map (map (fun tk => (ft_text tk, ft_details tk))) tss). split.
  - clear R IL V. induction F as [|line ts l tss (words & T & E & A) F IH]; constructor; [|exact IH]. split; [rewrite map_map; rewrite <- E in T; exact T|].
    apply Forall_map, Forall_forall. intros tk I. apply in_split in I. destruct I as (a & b & I). apply (A a tk b I).
  - rewrite R. do 2 f_equal. clear. induction tss as [|ts tss IH]; [reflexivity|]. cbn [flat_map map]. rewrite IH. f_equal. cbn [printed]. rewrite map_map. reflexivity.
Qed.
