(** Lemmas about the command line. *)
From Coq Require Import String.
From Coq Require Import List Sorted NArith ZArith Bool Lia ZifyBool ZifyNat ZifyN.
From Verif Require Import MBase MUtf8 MText MCodec MDict MLattice MTokenizer MBuild MCharFilter MAnalyzer MTokenFilter MConfig STokenFilter SText SConfig.
From Verif Require Import LBase LUtf8 LText LTokenFilter LConfig LConfigMore LConfigRound.
Import ListNotations.
Local Open Scope list_scope.

Lemma split_once_some c s a b : split_once c s = Some (a, b) <-> s = a ++ [c] ++ b /\ ~ In c a.
Proof.
  revert a. induction s as [|x s IH]; intros a; cbn [split_once].
  - split; [discriminate|]. intros [H _]. destruct a; discriminate.
  - destruct (x =? c)%N eqn:E.
    + apply N.eqb_eq in E. subst x. split.
      * intros H. injection H as <- <-. split; [reflexivity | intros []].
      * intros [H1 H2]. destruct a as [|y a]; [injection H1 as ->; reflexivity|]. injection H1 as <- H1. exfalso. apply H2. left. reflexivity.
    + apply N.eqb_neq in E. split.
      * destruct (split_once c s) as [[a' b']|] eqn:S; [|discriminate]. intros H. injection H as <- <-.
        destruct (proj1 (IH a') eq_refl) as [H1 H2]. split; [rewrite H1; reflexivity|]. intros [H|H]; [congruence | exact (H2 H)].
      * intros [H1 H2]. destruct a as [|y a]; cbn in H1; injection H1 as -> H1; [congruence|].
        rewrite (proj2 (IH a)); [reflexivity|]. split; [exact H1|]. intros H. apply H2. right. exact H.
Qed.
Lemma split_once_none c s : split_once c s = None <-> ~ In c s.
Proof.
  induction s as [|x s IH]; cbn [split_once]; [split; [intros _ [] | reflexivity]|].
  destruct (x =? c)%N eqn:E.
  - apply N.eqb_eq in E. subst. split; [discriminate|]. intros H. exfalso. apply H. left. reflexivity.
  - apply N.eqb_neq in E. destruct (split_once c s) as [[a b]|].
    + split; [discriminate|]. intros H. exfalso. assert (X : ~ In c s) by (intros H1; apply H; right; exact H1). apply IH in X. discriminate.
    + split; [|reflexivity]. intros _ [H|H]; [congruence|]. exact (proj1 IH eq_refl H).
Qed.

Lemma parse_cli_flag_colon e flag kind json : at_first_colon flag kind json ->
  parse_cli_flag e flag = match e_parse e json with Some v => Ok (kind, v) | None => Err EContent end.
Proof. intros H. apply split_once_some in H. unfold parse_cli_flag. rewrite H. destruct (e_parse e json); reflexivity. Qed.
Lemma parse_cli_flag_no_colon e flag : ~ In 58%N flag ->
  parse_cli_flag e flag = match e_parse e [] with Some v => Ok (flag, v) | None => Err EContent end.
Proof. intros H. apply split_once_none in H. unfold parse_cli_flag. rewrite H. destruct (e_parse e []); reflexivity. Qed.

(** Output *)

Lemma token_info_json tk : token_info tk = json_token tk.
Proof. reflexivity. Qed.
Lemma info_text_token tk : info_text (token_info tk) = Ok (ft_text tk).
Proof. unfold info_text, token_info, index, get. cbn [lookup]. lits. reflexivity. Qed.
Lemma mecab_token_line tk : mecab_token (token_info tk) = Ok (mecab_line tk ++ [10%N]).
Proof.
  unfold mecab_token. rewrite info_text_token. cbn [bind]. unfold token_info, index, get. cbn [lookup]. lits. cbn [ser_strings as_array ok_or bind].
  assert (H : forall ds, mapM (fun d => match as_str d with Some s => Ok s | None => Panic end) (map VStr ds) = Ok ds).
  { induction ds as [|d ds IH]; [reflexivity|]. cbn [map mapM as_str bind]. rewrite IH. reflexivity. }
  rewrite H. cbn [bind]. unfold mecab_line. rewrite <- !app_assoc. reflexivity.
Qed.

Lemma wakati_join tokens : tokens <> [] -> wakati_output (map token_info tokens) = (join [32%N] (map ft_text tokens) ++ [10%N], Ok tt).
Proof.
  induction tokens as [|tk r IH]; [congruence|]. intros _. destruct r as [|tk2 r].
  - cbn [map wakati_output]. rewrite info_text_token. rewrite app_nil_r. reflexivity.
  - change (wakati_output (map token_info (tk :: tk2 :: r))) with
      (match info_text (token_info tk) with
       | Ok text => let '(out, res) := wakati_output (map token_info (tk2 :: r)) in (text ++ [32%N] ++ out, res)
       | Err k => ([], Err k)
       | Panic => ([], Panic)
       end).
    rewrite info_text_token.
    rewrite IH by discriminate. cbn [map join]. rewrite <- !app_assoc. reflexivity.
Qed.

Lemma mecab_lines tokens : mecab_output (map token_info tokens) = (as_lines (map mecab_line tokens ++ [lit "EOS"]), Ok tt).
Proof.
  induction tokens as [|tk r IH]; [reflexivity|]. cbn [map mecab_output]. rewrite mecab_token_line, IH. reflexivity.
Qed.

Lemma output_printed e f tokens : output e f (map token_info tokens) = (printed (e_pretty e) f tokens, Ok tt).
Proof.
  destruct f; cbn [output printed]; [apply mecab_lines | destruct tokens; [reflexivity | apply wakati_join; discriminate] |].
  unfold json_output. rewrite (map_ext _ _ token_info_json). reflexivity.
Qed.

Lemma prefix_unique (c : N) (a b x y : list N) : ~ In c a -> ~ In c b -> a ++ c :: x = b ++ c :: y -> a = b /\ x = y.
Proof.
  revert b. induction a as [|p a IH]; intros [|q b] Ha Hb E; cbn in E.
  - injection E as ->. auto.
  - injection E as -> _. exfalso. apply Hb. left. reflexivity.
  - injection E as -> _. exfalso. apply Ha. left. reflexivity.
  - injection E as -> E. destruct (IH b) as [-> ->]; [intros H; apply Ha; right; exact H | intros H; apply Hb; right; exact H | exact E | auto].
Qed.

Lemma as_lines_inj (ls ls' : list str) : Forall (fun l => ~ In 10%N l) ls -> Forall (fun l => ~ In 10%N l) ls' -> as_lines ls = as_lines ls' -> ls = ls'.
Proof.
  intros H. revert ls'. unfold as_lines. induction H as [|l ls H1 H2 IH]; intros ls' H' E.
  - destruct ls' as [|l' ls']; [reflexivity|]. cbn in E. destruct l'; discriminate.
  - destruct H' as [|l' ls' H3 H4]; [destruct l; discriminate|]. cbn [flat_map] in E. rewrite <- !app_assoc in E.
    apply prefix_unique in E; [|exact H1 | exact H3]. destruct E as [-> E]. f_equal. apply IH; assumption.
Qed.

Lemma not_in_join c sep (ds : list str) : ~ In c sep -> Forall (fun d => ~ In c d) ds -> ~ In c (join sep ds).
Proof.
  intros S. induction 1 as [|d ds H1 H2 IH]; cbn [join]; [intros []|]. destruct ds as [|d2 ds]; [exact H1|].
  intros H. apply in_app_or in H. destruct H as [H|H]; [exact (H1 H)|]. apply in_app_or in H. destruct H as [H|H]; [exact (S H) | exact (IH H)].
Qed.

Lemma plain_line tk : plain_fields tk -> ~ In 10%N (mecab_line tk).
Proof.
  intros [_ [N [_ F]]] H. unfold mecab_line in H. apply in_app_or in H. destruct H as [H|H]; [exact (N H)|].
  apply in_app_or in H. destruct H as [H|H]; [destruct H as [H|[]]; discriminate|]. revert H. apply not_in_join.
  - intros [H|[]]; discriminate.
  - eapply Forall_impl; [|exact F]. intros d [_ X]. exact X.
Qed.

Lemma mecab_line_inj a b : plain_fields a -> plain_fields b -> mecab_line a = mecab_line b -> ft_text a = ft_text b /\ ft_details a = ft_details b.
Proof.
  intros [A1 [_ [A2 A3]]] [B1 [_ [B2 B3]]] E. unfold mecab_line in E. apply prefix_unique in E; [|exact A1 | exact B1].
  destruct E as [E1 E2]. split; [exact E1|].
  assert (forall ds, ds <> [] -> Forall (fun d => ~ In 44%N d /\ ~ In 10%N d) ds -> split_char 44%N (join [44%N] ds) = ds) as J.
  { intros ds NE F. apply split_join; [exact NE|]. eapply Forall_impl; [|exact F]. intros d [X _]. exact X. }
  rewrite <- (J (ft_details a) A2 A3), <- (J (ft_details b) B2 B3), E2. reflexivity.
Qed.

Lemma mecab_inj ts ts' : Forall plain_fields ts -> Forall plain_fields ts' -> mecab_output (map token_info ts) = mecab_output (map token_info ts') ->
  map (fun tk => (ft_text tk, ft_details tk)) ts = map (fun tk => (ft_text tk, ft_details tk)) ts'.
Proof.
  intros F F' E. rewrite !mecab_lines in E. injection E as E. apply as_lines_inj in E.
  - apply app_inj_tail in E. destruct E as [E _]. revert ts' F' E. induction F as [|tk ts H1 H2 IH]; intros ts' F' E.
    + destruct ts'; [reflexivity | discriminate].
    + destruct F' as [|tk' ts' H3 H4]; [discriminate|]. cbn [map] in E. injection E as E1 E2.
      destruct (mecab_line_inj tk tk' H1 H3 E1) as [X1 X2]. cbn [map]. rewrite X1, X2. f_equal. apply IH; assumption.
  - apply Forall_app. split; [|constructor; [|constructor]; cbn; intros H; decompose [or] H; try discriminate; contradiction].
    apply Forall_map. eapply Forall_impl; [|exact F]. apply plain_line.
  - apply Forall_app. split; [|constructor; [|constructor]; cbn; intros H; decompose [or] H; try discriminate; contradiction].
    apply Forall_map. eapply Forall_impl; [|exact F']. apply plain_line.
Qed.

(** The arguments and the JSON configuration *)

Lemma flags_load {A} e (load : str -> value -> res A) (load_flag : str -> res A) :
  (forall flag, load_flag flag = (do '(k, a) <- parse_cli_flag e flag; load k a)) ->
  forall flags fs, Forall2 (flag_of (e_parse e)) flags fs -> forall ds,
  mapM load_flag flags = Ok ds <-> load_filters load (Some (map setting fs)) = Ok ds.
Proof.
  intros LF flags fs F ds.
  assert (D : Forall distinct (map setting fs)).
  { apply Forall_map. apply Forall_forall. intros [k v] _ gs H. injection H as <-. cbn [map fst]. constructor; [|constructor; [intros []|constructor]].
    intros [H|[]]. discriminate. }
  rewrite load_filters_iff by exact D. rewrite mapM_ok. clear D.
  assert (L : forall flag f d, flag_of (e_parse e) flag f -> load_flag flag = Ok d <-> load (fst f) (snd f) = Ok d).
  { intros flag [k v] d [json [H1 H2]]. cbn [fst snd] in *. rewrite LF, (parse_cli_flag_colon e flag k json H1), H2. reflexivity. }
  assert (K : forall f, setting_kind (setting f) (fst f)) by (intros f; eexists; split; [reflexivity | left; reflexivity]).
  assert (KU : forall f n, setting_kind (setting f) n -> n = fst f).
  { intros f n [gs [H1 H2]]. injection H1 as <-. destruct H2 as [H2|[H2|[]]]; [congruence | discriminate]. }
  assert (AU : forall f a, setting_args (setting f) a -> a = snd f).
  { intros f a [gs [H1 H2]]. injection H1 as <-. destruct H2 as [[H2|[H2|[]]]|[H2 _]]; [discriminate | congruence |].
    exfalso. apply H2. right. left. reflexivity. }
  revert ds. induction F as [|flag f flags fs H1 H2 IH]; intros ds; cbn [map].
  - split; intros H; inversion H; constructor.
  - split; intros H.
    + inversion H as [|? d ? ds' G1 G2]; subst. eapply settings_filter; [apply K | | | apply IH; exact G2].
      * eexists. split; [reflexivity|]. left. right. left. reflexivity.
      * apply (L flag f d H1). exact G1.
    + inversion H as [|? ? ? N1 _|? name a d ? ds' K1 A1 L1 G1]; subst.
      * exfalso. exact (N1 (fst f) (K f)).
      * apply KU in K1. apply AU in A1. subst. constructor; [apply (L flag f d H1); exact L1 | apply IH; exact G1].
Qed.

Lemma cli_tokenizer_config dt dd u m : mode_fits m ->
  de_tokenizer_config ([(lit "dictionary", ser_dictionary_config (DictionaryConfig dt dd))]
    ++ match u with Some p => [(lit "user_dictionary", ser_user_dictionary_config (UserDictionaryConfig p dt))] | None => [] end
    ++ [(lit "mode", ser_mode m)]) =
  Ok (TokenizerConfig (DictionaryConfig dt dd) (option_map (fun p => UserDictionaryConfig p dt) u) m).
Proof.
  intros F. unfold de_tokenizer_config. destruct u as [p|]; cbn [app foldM tokenizer_field option_map]; lits;
    rewrite ser_dictionary_config_ok; cbn [bind tokenizer_field]; lits;
    [rewrite ser_user_dictionary_config_ok; cbn [bind tokenizer_field]; lits|]; rewrite (ser_mode_ok m F); reflexivity.
Qed.

Lemma cli_config_ser dt dd u m cfs tfs : cli_config dt dd u m cfs tfs =
  VObj [(lit "character_filters", VArr (map setting cfs));
        (lit "tokenizer", VObj ([(lit "dictionary", ser_dictionary_config (DictionaryConfig dt dd))]
            ++ match u with Some p => [(lit "user_dictionary", ser_user_dictionary_config (UserDictionaryConfig p dt))] | None => [] end
            ++ [(lit "mode", ser_mode m)]));
        (lit "token_filters", VArr (map setting tfs))].
Proof. destruct dt as [[]|], dd, u, m; reflexivity. Qed.

Lemma format_named s f : format_from_str s = Ok f <-> names_format s f.
Proof.
  split; [|intros []; reflexivity]. unfold format_from_str.
  destruct (str_eqb s (lit "mecab")) eqn:E1; [|destruct (str_eqb s (lit "wakati")) eqn:E2; [|destruct (str_eqb s (lit "json")) eqn:E3; [|discriminate]]];
    intros H; injection H as <-; [apply str_eqb_spec in E1|apply str_eqb_spec in E2|apply str_eqb_spec in E3]; subst s; constructor.
Qed.

Lemma cli_setup_iff e args cfs tfs d f :
  Forall2 (flag_of (e_parse e)) (ta_character_filters args) cfs -> Forall2 (flag_of (e_parse e)) (ta_token_filters args) tfs ->
  mode_fits (ta_mode args) ->
  cli_setup e args = Ok (d, f) <->
  names_format (ta_output_format args) f /\
  analyzer_from_config e (cli_config (ta_dic_type args) (ta_dic_dir args) (ta_user_dic_file args) (ta_mode args) cfs tfs) = Ok d.
Proof.
  intros FC FT MF. rewrite <- format_named, cli_config_ser. unfold cli_setup, analyzer_from_config, index, get. cbn [lookup]. lits. cbn [as_array as_object ok_or bind].
  rewrite (cli_tokenizer_config _ _ _ _ MF). cbn [bind].
  pose proof (flags_load e (load_char_filter e) (load_char_filter_flag e) (fun _ => eq_refl) _ _ FC) as LC.
  pose proof (flags_load e load_token_filter (load_token_filter_flag e) (fun _ => eq_refl) _ _ FT) as LT.
  unfold tokenizer_from_config. cbn [tc_dictionary tc_user tc_mode]. rewrite bind_ok. split.
  - intros [dic [H1 H]]. apply bind_ok in H. destruct H as [u [H2 H]]. apply bind_ok in H. destruct H as [f' [H3 H]].
    apply bind_ok in H. destruct H as [cs [H4 H]]. apply bind_ok in H. destruct H as [ts [H5 H]]. injection H as <- <-. split; [exact H3|].
    apply LC in H4. apply LT in H5. rewrite H4. cbn [bind]. rewrite H1. cbn [bind].
    destruct (ta_user_dic_file args) as [p|]; cbn [option_map]; rewrite H2; cbn [bind]; rewrite H5; reflexivity.
  - intros [H3 H]. apply bind_ok in H. destruct H as [cs [H4 H]]. apply bind_ok in H. destruct H as [t [H1 H]]. apply bind_ok in H. destruct H as [ts [H5 H]]. injection H as <-.
    apply bind_ok in H1. destruct H1 as [dic [H1 H6]]. apply bind_ok in H6. destruct H6 as [u [H6 H7]]. injection H7 as <-.
    exists dic. split; [exact H1|]. apply bind_ok. exists u. split; [destruct (ta_user_dic_file args); exact H6|].
    apply bind_ok. exists f. split; [exact H3|]. apply bind_ok. exists cs. split; [apply LC; exact H4|]. apply bind_ok. exists ts. split; [apply LT; exact H5 | reflexivity].
Qed.

(** File names *)

Lemma split_by_some f s : split_by f s <> [].
Proof. destruct s as [|c s]; cbn [split_by]; [discriminate|]. destruct (f c); [discriminate|]. destruct (split_by f s); discriminate. Qed.
Lemma split_by_none f s : Forall (fun c => f c = false) s -> split_by f s = [s].
Proof. induction 1 as [|c s H1 H2 IH]; cbn [split_by]; [reflexivity|]. rewrite H1, IH. reflexivity. Qed.
Lemma split_by_app f a c b : f c = true -> split_by f (a ++ c :: b) = split_by f a ++ split_by f b.
Proof.
  intros F. induction a as [|x a IH]; cbn [split_by app]; [rewrite F; reflexivity|].
  destruct (f x); [rewrite IH; reflexivity|]. rewrite IH. destruct (split_by f a) as [|p ps] eqn:E; [|reflexivity].
  exfalso. exact (split_by_some f a E).
Qed.
Lemma split_char_none (c : char) s : ~ In c s -> split_char c s = [s].
Proof. intros H. apply split_by_none. apply Forall_forall. intros x I. apply N.eqb_neq. intros ->. exact (H I). Qed.
Lemma split_char_app (c : char) a b : split_char c (a ++ c :: b) = split_char c a ++ split_char c b.
Proof. apply split_by_app. apply N.eqb_refl. Qed.

Lemma join_split (c : char) s : join [c] (split_char c s) = s.
Proof.
  unfold split_char. induction s as [|x s IH]; [reflexivity|]. cbn [split_by]. destruct (N.eqb c x) eqn:E.
  - apply N.eqb_eq in E. subst x. destruct (split_by (N.eqb c) s) as [|p ps] eqn:S.
    + exfalso. exact (split_by_some _ s S).
    + change (join [c] ([] :: p :: ps)) with (c :: join [c] (p :: ps)). rewrite IH. reflexivity.
  - destruct (split_by (N.eqb c) s) as [|p ps] eqn:S.
    + exfalso. exact (split_by_some _ s S).
    + transitivity (x :: join [c] (p :: ps)); [destruct ps; reflexivity|]. rewrite IH. reflexivity.
Qed.

Lemma last_error_app {A} (l : list A) x : last_error (l ++ [x]) = Some x.
Proof. unfold last_error. rewrite rev_app_distr. reflexivity. Qed.

Lemma file_name_of (dir name : str) : dir = [] \/ (exists d, dir = d ++ [47%N]) -> ~ In 47%N name -> 2 < List.length name ->
  file_name (dir ++ name) = Some name.
Proof.
  intros D N L. unfold file_name.
  assert (S : exists ps, split_char 47%N (dir ++ name) = ps ++ [name]).
  { destruct D as [->|[d ->]]; [exists []; apply split_char_none; exact N|]. exists (split_char 47%N d).
    rewrite <- app_assoc. cbn [app]. rewrite split_char_app, (split_char_none 47%N name) by exact N. reflexivity. }
  destruct S as [ps ->]. rewrite filter_app. cbn [filter].
  assert (E : negb (is_nil name || str_eqb name [46%N]) = true).
  { destruct name as [|a [|b name]]; cbn in L; try lia. cbn [is_nil orb]. destruct (str_eqb (a :: b :: name) [46%N]) eqn:X; [apply str_eqb_spec in X; discriminate | reflexivity]. }
  rewrite E, last_error_app. destruct (str_eqb name [46%N; 46%N]) eqn:X; [|reflexivity]. apply str_eqb_spec in X. subst. cbn in L. lia.
Qed.

Lemma extension_of path ext : file_with_extension path ext -> extension path = Some ext.
Proof.
  intros [dir [name [-> [D [N1 [N2 [N3 [N4 N5]]]]]]]].
  unfold extension. rewrite file_name_of.
  - change (name ++ [46%N] ++ ext) with (name ++ 46%N :: ext). rewrite split_char_app, (split_char_none 46%N ext) by exact N5.
    rewrite rev_app_distr. cbn [rev app]. destruct (rev (split_char 46%N name)) as [|p ps] eqn:R.
    + exfalso. apply (f_equal (@rev str)) in R. rewrite rev_involutive in R. pose proof (join_split 46%N name) as J. rewrite R in J. exact (N1 (eq_sym J)).
    + change (rev ps ++ [p]) with (rev (p :: ps)). rewrite <- R, rev_involutive, join_split. destruct name; [congruence | reflexivity].
  - exact D.
  - intros H. apply in_app_or in H. destruct H as [H|[H|H]]; [exact (N3 H) | discriminate | exact (N4 H)].
  - rewrite !app_length. cbn [List.length]. destruct name; [congruence|]. destruct ext; [congruence|]. cbn [List.length]. lia.
Qed.

Lemma extension_no_dot path : ~ In 46%N path -> extension path = None.
Proof.
  intros H. unfold extension. destruct (file_name path) as [name|] eqn:E; [|reflexivity].
  assert (I : forall c, In c name -> In c path).
  { unfold file_name in E. destruct (last_error _) as [p|] eqn:L; [|discriminate]. destruct (str_eqb p [46%N; 46%N]); [discriminate|]. injection E as ->.
    unfold last_error in L. destruct (rev (filter (fun p : list char => negb (is_nil p || str_eqb p [46%N])) (split_char 47%N path))) as [|q qs] eqn:R; [discriminate|]. injection L as ->.
    assert (IN : In name (split_char 47%N path)).
    { apply (filter_In (fun p => negb (is_nil p || str_eqb p [46%N]))). apply in_rev. rewrite R. left. reflexivity. }
    intros c Hc. rewrite <- (join_split 47%N path). revert IN. generalize (split_char 47%N path). clear - Hc.
    induction l as [|p ps IH]; [intros []|]. intros [->|IN].
    - destruct ps; [exact Hc|]. cbn [join]. apply in_or_app. left. exact Hc.
    - destruct ps as [|p2 ps]; [destruct IN|]. cbn [join]. apply in_or_app. right. right. apply IH. exact IN. }
  rewrite split_char_none; [reflexivity|]. intros X. exact (H (I _ X)).
Qed.

(** The loop *)

Definition line_tokens (a : analyzer) (line : str) (ts : list ftoken) : Prop := valid_str line /\ analyze a (trim line) = Some (Ok ts).

Lemma cli_loop_app e a f lines tss rest : Forall2 (line_tokens a) lines tss ->
  cli_loop e a f (map utf8 lines ++ rest) =
  match cli_loop e a f rest with Some (out, r) => Some (flat_map (printed (e_pretty e) f) tss ++ out, r) | None => None end.
Proof.
  induction 1 as [|line ts lines tss [V H] _ IH]; cbn [map app flat_map].
  - destruct (cli_loop e a f rest) as [[out r]|]; reflexivity.
  - cbn [cli_loop]. rewrite (decode_encode _ V), H, output_printed, IH. destruct (cli_loop e a f rest) as [[out r]|]; [rewrite <- app_assoc; reflexivity | reflexivity].
Qed.
Lemma analyzed_lines a lines tss : Forall valid_str lines -> Forall2 (fun line ts => analyze a (trim line) = Some (Ok ts)) lines tss -> Forall2 (line_tokens a) lines tss.
Proof. intros V H. induction H; [constructor|]. inversion V; subst. constructor; [split; assumption | auto]. Qed.
Lemma cli_loop_ok e a f lines tss : Forall valid_str lines -> Forall2 (fun line ts => analyze a (trim line) = Some (Ok ts)) lines tss ->
  cli_loop e a f (map utf8 lines) = Some (flat_map (printed (e_pretty e) f) tss, Ok tt).
Proof.
  intros V H. pose proof (cli_loop_app e a f lines tss [] (analyzed_lines _ _ _ V H)) as E. rewrite app_nil_r in E. rewrite E. cbn [cli_loop]. rewrite app_nil_r. reflexivity.
Qed.
Lemma cli_loop_err e a f lines tss line rest k : Forall valid_str lines -> valid_str line ->
  Forall2 (fun line ts => analyze a (trim line) = Some (Ok ts)) lines tss ->
  analyze a (trim line) = Some (Err k) -> cli_loop e a f (map utf8 lines ++ utf8 line :: rest) = Some (flat_map (printed (e_pretty e) f) tss, Err k).
Proof.
  intros V V1 H B. rewrite (cli_loop_app e a f lines tss _ (analyzed_lines _ _ _ V H)). cbn [cli_loop]. rewrite (decode_encode _ V1), B. rewrite app_nil_r. reflexivity.
Qed.

(** The input *)

Lemma input_lines_split B : forall ls, input_lines B ls <-> split_inclusive (N.eqb 10) B = ls.
Proof.
  assert (F : forall B ls, input_lines B ls -> split_inclusive (N.eqb 10) B = ls).
  { assert (O : forall l, ~ In 10%N l -> Forall (fun x => (10 =? x)%N = false) l).
    { intros l H. apply Forall_forall. intros x I. apply N.eqb_neq. intros <-. exact (H I). }
    induction 1 as [|l N1 N2|l t ls N1 H IH].
    - reflexivity.
    - apply split_inclusive_open; auto.
    - cbn [app]. rewrite split_inclusive_closed by (auto || reflexivity). rewrite IH. reflexivity. }
  assert (E : forall B, exists ls, input_lines B ls).
  { clear. intros B. induction B as [|c B (ls & IH)]; [exists []; constructor|]. destruct (N.eq_dec c 10) as [->|D].
    - exists ([10%N] :: ls). apply (il_line []); [intros [] | exact IH].
    - inversion IH as [E1 E2|l N1 N2 E1 E2|l t ls' N1 H E1 E2]; subst.
      + exists [[c]]. constructor; [discriminate | intros [H|[]]; congruence].
      + exists [c :: B]. constructor; [discriminate | intros [H|H]; [congruence | exact (N2 H)]].
      + exists ((c :: l ++ [10%N]) :: ls'). apply (il_line (c :: l)); [intros [X|X]; [congruence | exact (N1 X)] | exact H]. }
  intros ls. split; [apply F|]. intros <-. destruct (E B) as (ls & H). rewrite (F _ _ H). exact H.
Qed.

Lemma utf8_newline s : In 10%N (utf8 s) <-> In 10%N s.
Proof.
  induction s as [|c s IH]; [reflexivity|]. change (utf8 (c :: s)) with (utf8_char c ++ utf8 s). rewrite in_app_iff, IH. cbn [In].
  assert (X : In 10%N (utf8_char c) <-> c = 10%N); [|rewrite X; reflexivity]. unfold utf8_char.
  repeat match goal with |- context [(?x <? ?y)%N] => destruct (N.ltb_spec x y) end; cbn [In]; split; intros K;
    try lia; repeat (destruct K as [K|K]; [lia|]); try (destruct K).
Qed.
Lemma input_lines_utf8 T ls : input_lines T ls -> input_lines (utf8 T) (map utf8 ls).
Proof.
  induction 1 as [|l N1 N2|l t ls N1 H IH]; cbn [map].
  - constructor.
  - constructor; [intros E; apply N1; apply blen_0; rewrite <- blen_utf8, E; reflexivity | rewrite utf8_newline; exact N2].
  - rewrite !utf8_app. apply il_line; [rewrite utf8_newline; exact N1 | exact IH].
Qed.
Lemma input_lines_valid T ls : input_lines T ls -> valid_str T -> Forall valid_str ls.
Proof.
  induction 1 as [|l N1 N2|l t ls N1 H IH]; intros V; [constructor|constructor; [exact V | constructor]|].
  apply valid_str_app in V. destruct V as [V1 V2]. inversion V2; subst. constructor; [|apply IH; assumption].
  apply valid_str_app. split; [exact V1 | constructor; [assumption | constructor]].
Qed.

Lemma cli_text e a f T ls tss : valid_str T -> input_lines T ls -> Forall2 (fun line ts => analyze a (trim line) = Some (Ok ts)) ls tss ->
  cli_tokenize e a f (utf8 T) = Some (flat_map (printed (e_pretty e) f) tss, Ok tt).
Proof.
  intros V L H. unfold cli_tokenize. rewrite (proj1 (input_lines_split _ _) (input_lines_utf8 _ _ L)).
  apply cli_loop_ok; [exact (input_lines_valid _ _ L V) | exact H].
Qed.

Lemma cli_session_iff e a f B ls : input_lines B ls -> forall out r,
  cli_tokenize e a f B = Some (out, r) <-> session (analyze a) (printed (e_pretty e) f) ls out r.
Proof.
  intros L. unfold cli_tokenize. rewrite (proj1 (input_lines_split _ _) L). clear L B. intros out r. split.
  - revert out. induction ls as [|l ls IH]; intros out; cbn [cli_loop]; [intros H; injection H as <- <-; constructor|].
    destruct (utf8_decode l) as [t|] eqn:D.
    + apply decode_iff in D. destruct D as [V ->]. pose proof (proj1 (trim_spec t (trim t)) eq_refl) as T.
      destruct (analyze a (trim t)) as [[ts|k|]|] eqn:A; [| | |discriminate].
      * rewrite output_printed. destruct (cli_loop e a f ls) as [[out' r']|]; [|discriminate].
        intros H. injection H as <- <-. eapply session_line; [exact V | exact T | exact A | apply IH; reflexivity].
      * intros H. injection H as <- <-. eapply session_err; eassumption.
      * intros H. injection H as <- <-. eapply session_panic; eassumption.
    + intros H. injection H as <- <-. apply session_bytes. intros t V ->. rewrite (decode_encode t V) in D. discriminate.
  - induction 1 as [|line text ts ls out r V T A H IH|l ls N|line text ls k V T A|line text ls V T A]; cbn [cli_loop].
    + reflexivity.
    + apply trim_spec in T. subst text. rewrite (decode_encode _ V), A, output_printed, IH. reflexivity.
    + destruct (utf8_decode l) as [t|] eqn:D; [|reflexivity]. apply decode_iff in D. destruct D as [V ->]. exfalso. exact (N t V eq_refl).
    + apply trim_spec in T. subst text. rewrite (decode_encode _ V), A. reflexivity.
    + apply trim_spec in T. subst text. rewrite (decode_encode _ V), A. reflexivity.
Qed.

Lemma cli_run_iff e args input out r : cli_run e args input = Some (out, r) <->
  (exists k, cli_setup e args = Err k /\ out = [] /\ r = Err k) \/ (cli_setup e args = Panic /\ out = [] /\ r = Panic) \/
  (exists d f, cli_setup e args = Ok (d, f) /\
     ((input = None /\ out = [] /\ r = Err EIo) \/
      (exists bytes ls, input = Some bytes /\ input_lines bytes ls /\ session (analyze (analyzer_of e d)) (printed (e_pretty e) f) ls out r))).
Proof.
  unfold cli_run. destruct (cli_setup e args) as [[d f]|k|].
  - split.
    + intros H. right. right. exists d, f. split; [reflexivity|]. destruct input as [bytes|].
      * right. exists bytes, (split_inclusive (N.eqb 10) bytes). pose proof (proj2 (input_lines_split bytes _) eq_refl) as L.
        split; [reflexivity|]. split; [exact L|]. apply (cli_session_iff e _ f bytes _ L). exact H.
      * injection H as <- <-. auto.
    + intros [[k [H _]]|[[H _]|(d' & f' & H & [(-> & -> & ->)|(bytes & ls & -> & L & S)])]]; try discriminate; injection H as <- <-; [reflexivity|].
      apply (cli_session_iff e _ f bytes _ L). exact S.
  - split.
    + intros H. injection H as <- <-. left. exists k. auto.
    + intros [[k' [H (-> & ->)]]|[[H _]|(d' & f' & H & _)]]; [injection H as <-; reflexivity | discriminate | discriminate].
  - split.
    + intros H. injection H as <- <-. right. left. auto.
    + intros [[k' [H _]]|[[_ (-> & ->)]|(d' & f' & H & _)]]; [discriminate | reflexivity | discriminate].
Qed.

(** The names of the dictionaries *)

Lemma kind_name_inverse k : kind_from_str (kind_name k) = Ok k /\ kind_name k = kind_text k.
Proof. destruct k; split; reflexivity. Qed.
Lemma contained_iff e k : In k (contained_variants e) <-> load_dictionary_from_kind e k <> Err EArgs.
Proof.
  unfold contained_variants, load_dictionary_from_kind. rewrite filter_In. destruct (e_embedded e k) as [[d|k'|]|].
  - split; [discriminate|]. intros _. split; [|reflexivity]. destruct k; cbn; tauto.
  - split; [discriminate|]. intros _. split; [|reflexivity]. destruct k; cbn; tauto.
  - split; [discriminate|]. intros _. split; [|reflexivity]. destruct k; cbn; tauto.
  - split; [intros [_ H]; discriminate | congruence].
Qed.
Lemma cli_list_names e : exists ks, cli_list e = as_lines (map kind_text ks) /\
  StronglySorted (fun a b => kind_number a < kind_number b) ks /\ forall k, In k ks <-> load_dictionary_from_kind e k <> Err EArgs.
Proof.
  exists (contained_variants e). split; [|split; [|apply contained_iff]].
  - unfold cli_list, as_lines. generalize (contained_variants e). induction l as [|k l IH]; [reflexivity|]. cbn [flat_map map]. rewrite IH.
    destruct (kind_name_inverse k) as [_ ->]. reflexivity.
  - unfold contained_variants, kind_variants. cbn [filter].
    destruct (e_embedded e IPADIC), (e_embedded e IPADICNEologd), (e_embedded e UniDic), (e_embedded e KoDic), (e_embedded e CcCedict);
      repeat constructor.
Qed.

(** Dictionaries *)

Lemma user_dictionary_csv e path k : file_with_extension path (lit "csv") ->
  load_user_dictionary_from_config e (UserDictionaryConfig path (Some k)) = load_user_dictionary_from_csv e k path /\
  load_user_dictionary_from_config e (UserDictionaryConfig path None) = Err EArgs.
Proof. intros H. unfold load_user_dictionary_from_config. cbn [udc_path udc_kind]. rewrite (extension_of _ _ H). split; reflexivity. Qed.
Lemma user_dictionary_bin e path k : file_with_extension path (lit "bin") ->
  load_user_dictionary_from_config e (UserDictionaryConfig path k) = load_user_dictionary_from_bin e path.
Proof. intros H. unfold load_user_dictionary_from_config. cbn [udc_path udc_kind]. rewrite (extension_of _ _ H). reflexivity. Qed.
Lemma user_dictionary_other e path k :
  (exists ext, file_with_extension path ext /\ ext <> lit "csv" /\ ext <> lit "bin") \/ ~ In 46%N path ->
  load_user_dictionary_from_config e (UserDictionaryConfig path k) = Err EArgs.
Proof.
  intros [[ext [H [N1 N2]]]|H]; unfold load_user_dictionary_from_config; cbn [udc_path udc_kind].
  - rewrite (extension_of _ _ H). destruct (str_eqb ext (lit "csv")) eqn:E; [apply str_eqb_spec in E; contradiction|].
    destruct (str_eqb ext (lit "bin")) eqn:E2; [apply str_eqb_spec in E2; contradiction | reflexivity].
  - rewrite (extension_no_dot _ H). reflexivity.
Qed.

(* names *)
Lemma mode_string_normal s : de_mode (VStr s) = Ok Normal <-> mode_from_str s = Ok Normal.
Proof.
  unfold de_mode, mode_from_str. destruct (str_eqb s (lit "normal")); [tauto|]. destruct (str_eqb s (lit "decompose")); split; discriminate.
Qed.
