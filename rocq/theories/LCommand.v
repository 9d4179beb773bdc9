(** The options of the command line. *)
From Coq Require Import String.
From Coq Require Import List NArith ZArith Bool Lia.
From Verif Require Import MBase MUtf8 MText MCodec MDict MLattice MTokenizer MBuild MCharFilter MAnalyzer MTokenFilter MConfig MBuilders MCli
  STokenFilter SText SConfig SFault SCommand LBase LUtf8 LText LConfig LCli LFault.
Import ListNotations.
Local Open Scope string_scope.
Local Open Scope list_scope.

(** ** Names *)

Lemma kind_named s k : kind_from_str s = Ok k <-> names_kind s k.
Proof.
  unfold names_kind. split; [|intros ->; destruct k; reflexivity]. unfold kind_from_str.
  repeat (match goal with |- context[if str_eqb ?a ?b then _ else _] => destruct (str_eqb a b) eqn:? end; [intros H; injection H as <-; apply str_eqb_spec; assumption|]). discriminate.
Qed.
Lemma mode_named s m : mode_from_str s = Ok m <-> names_mode s m.
Proof.
  split; [|intros []; reflexivity]. unfold mode_from_str.
  destruct (str_eqb s (lit "normal")) eqn:E1; [|destruct (str_eqb s (lit "decompose")) eqn:E2; [|discriminate]];
    intros H; injection H as <-; [apply str_eqb_spec in E1|apply str_eqb_spec in E2]; subst s; constructor.
Qed.

Lemma read_args_iff filters t args : read_args filters t = Some args <-> options_mean filters t args.
Proof.
  unfold read_args. split.
  - intros H. destruct (ty_dic_type t) as [s|] eqn:TK.
    + destruct (kind_from_str s) as [k| |] eqn:K; cbn [bind] in H; try discriminate H. destruct (mode_from_str _) as [m| |] eqn:M; try discriminate H. injection H as <-.
      apply kind_named in K. apply mode_named in M. constructor; cbn; try reflexivity.
      * rewrite TK. cbn. exists k. auto.
      * destruct (ty_mode t); cbn; [exact M|]. inversion M; reflexivity.
      * destruct (ty_output_format t); reflexivity.
    + destruct (mode_from_str _) as [m| |] eqn:M; try discriminate H. injection H as <-. apply mode_named in M. constructor; cbn; try reflexivity.
      * rewrite TK. reflexivity.
      * destruct (ty_mode t); cbn; [exact M|]. inversion M; reflexivity.
      * destruct (ty_output_format t); reflexivity.
  - intros [H1 H2 H3 H4 H5 H6 H7]. destruct args as [k d u m f cs ts]. cbn [ta_dic_type ta_dic_dir ta_user_dic_file ta_mode ta_output_format ta_character_filters ta_token_filters] in *. subst d u cs ts.
    assert (M : mode_from_str (match ty_mode t with Some s => s | None => lit "normal" end) = Ok m) by (destruct (ty_mode t); cbn in H4; [apply mode_named, H4|subst m; reflexivity]).
    rewrite M. destruct (ty_output_format t); cbn in H5; subst f; (destruct (ty_dic_type t) as [s0|]; cbn in H1; [destruct H1 as (k' & -> & N); apply kind_named in N; rewrite N; reflexivity|subst k; reflexivity]).
Qed.

(** ** Flags *)

Lemma flag_parts_once flag name json : flag_parts flag name json <-> match split_once 58%N flag with Some p => p | None => (flag, []) end = (name, json).
Proof.
  unfold flag_parts. destruct (split_once 58%N flag) as [[a b]|] eqn:E.
  - pose proof (proj1 (split_once_some _ _ _ _) E) as K. split.
    + intros [H|(H & _)]; [|destruct K as [-> _]; destruct H; apply in_or_app; right; left; reflexivity].
      apply split_once_some in H. congruence.
    + intros H. injection H as <- <-. left. exact K.
  - pose proof (proj1 (split_once_none _ _) E) as K. split.
    + intros [[H _]|(_ & -> & ->)]; [|reflexivity]. destruct K. rewrite H. apply in_or_app. right. left. reflexivity.
    + intros H. injection H as <- <-. right. auto.
Qed.
Lemma flag_outcome {A} e (load : str -> value -> res A) flag :
  match (do '(kind, args) <- parse_cli_flag e flag; load kind args) with
  | Ok f => flag_gives (e_parse e) load flag f /\ (forall er, ~ flag_fault (e_parse e) load flag er) /\ ~ flag_panic (e_parse e) load flag
  | Err er => flag_fault (e_parse e) load flag er /\ (forall f, ~ flag_gives (e_parse e) load flag f)
  | Panic => flag_panic (e_parse e) load flag /\ (forall f, ~ flag_gives (e_parse e) load flag f)
  end.
Proof.
  unfold parse_cli_flag, flag_gives, flag_fault, flag_panic. destruct (match split_once 58%N flag with Some p => p | None => (flag, []) end) as [name json] eqn:E.
  pose proof (proj2 (flag_parts_once flag name json) E) as P.
  assert (U : forall name' json', flag_parts flag name' json' -> name' = name /\ json' = json).
  { intros n j H. apply flag_parts_once in H. rewrite E in H. injection H as <- <-. auto. }
  destruct (e_parse e json) as [v|] eqn:V; cbn [ok_or bind].
  - destruct (load name v) as [f|er|] eqn:L.
    + split; [exists name, json, v; auto|]. split.
      * intros er (n & j & H & D). destruct (U _ _ H) as [-> ->]. destruct D as [[D _]|(w & D & D2)]; congruence.
      * intros (n & j & w & H & D & D2). destruct (U _ _ H) as [-> ->]. congruence.
    + split; [exists name, json; split; [exact P|right; exists v; auto]|]. intros f (n & j & w & H & D & D2). destruct (U _ _ H) as [-> ->]. congruence.
    + split; [exists name, json, v; auto|]. intros f (n & j & w & H & D & D2). destruct (U _ _ H) as [-> ->]. congruence.
  - split; [exists name, json; split; [exact P|left; auto]|]. intros f (n & j & w & H & D & D2). destruct (U _ _ H) as [-> ->]. congruence.
Qed.

Section Flags.
Context {A : Type} (e : env) (load : str -> value -> res A).
Let run flag := do '(kind, args) <- parse_cli_flag e flag; load kind args.
Let gives := flag_gives (e_parse e) load.

Lemma flags_outcome flags :
  match mapM run flags with
  | Ok fs => Forall2 gives flags fs /\ (forall er, ~ first_wrong (e_parse e) load (fun x => flag_fault (e_parse e) load x er) flags) /\
             ~ first_wrong (e_parse e) load (flag_panic (e_parse e) load) flags
  | Err er => first_wrong (e_parse e) load (fun x => flag_fault (e_parse e) load x er) flags
  | Panic => first_wrong (e_parse e) load (flag_panic (e_parse e) load) flags
  end.
Proof.
  induction flags as [|x flags IH]; cbn [mapM].
  - split; [constructor|]. split; [intros er|]; intros (b & f & a & E & _); destruct b; discriminate E.
  - pose proof (flag_outcome e load x) as H. fold (run x) in H. destruct (run x) as [f|er|] eqn:R; cbn [bind].
    + destruct H as (G & NF & NP). destruct (mapM run flags) as [fs|er|]; cbn [bind].
      * destruct IH as (I1 & I2 & I3). split; [constructor; assumption|]. split.
        -- intros er (b & y & a & E & F & W). destruct b as [|z b]; cbn in E; injection E as <- ->; [exact (NF er W)|].
           apply (I2 er). exists b, y, a. split; [reflexivity|]. split; [inversion F; assumption|exact W].
        -- intros (b & y & a & E & F & W). destruct b as [|z b]; cbn in E; injection E as <- ->; [exact (NP W)|].
           apply I3. exists b, y, a. split; [reflexivity|]. split; [inversion F; assumption|exact W].
      * destruct IH as (b & y & a & -> & F & W). exists (x :: b), y, a. split; [reflexivity|]. split; [constructor; [exists f; exact G|exact F]|exact W].
      * destruct IH as (b & y & a & -> & F & W). exists (x :: b), y, a. split; [reflexivity|]. split; [constructor; [exists f; exact G|exact F]|exact W].
    + destruct H as (W & _). exists [], x, flags. split; [reflexivity|]. split; [constructor|exact W].
    + destruct H as (W & _). exists [], x, flags. split; [reflexivity|]. split; [constructor|exact W].
Qed.
End Flags.

(** ** The stages *)

Lemma stage_before s s' : stage_number s' < S (stage_number s) -> stage_number s' < stage_number s \/ s' = s.
Proof. intros H. destruct (Nat.eq_dec (stage_number s') (stage_number s)) as [E|E]; [right|left; lia]. destruct s, s'; cbn in E; try discriminate E; reflexivity. Qed.
Lemma fine_next e args input s t : stage_number t = S (stage_number s) -> fine_before e args input s -> fine_at e args input s -> fine_before e args input t.
Proof. intros E B F s' H. rewrite E in H. destruct (stage_before _ _ H) as [X| ->]; [exact (B s' X)|exact F]. Qed.

Theorem setup_outcome e args input :
  match cli_setup e args with
  | Ok (d, f) => command_analyzer e args d f /\ fine_before e args input AtInput
  | Err er => exists s, s <> AtInput /\ command_fault e args input s er /\ fine_before e args input s
  | Panic => exists s, command_panic e args s /\ fine_before e args input s
  end.
Proof.
  unfold cli_setup. pose proof (dictionary_outcome e (DictionaryConfig (ta_dic_type args) (ta_dic_dir args))) as HD.
  assert (B0 : fine_before e args input AtDictionary) by (intros s' H; inversion H).
  destruct (load_dictionary_from_config _ _) as [d|er|] eqn:D; cbn [bind];
    [|exists AtDictionary; split; [discriminate|]; split; [constructor; exact HD|exact B0]|exists AtDictionary; split; [constructor; exact HD|exact B0]].
  assert (B1 : fine_before e args input AtUser).
  { eapply fine_next; [|exact B0|]; [reflexivity|]. destruct HD as [H1 H2]. split; [intros er H|intros H]; inversion H; subst; [eapply H1|apply H2]; eassumption. }
  assert (HU : match (match ta_user_dic_file args with
          | Some path => do u <- load_user_dictionary_from_config e (UserDictionaryConfig path (ta_dic_type args)); Ok (Some u)
          | None => Ok None end) with
     | Ok u => match ta_user_dic_file args, u with
               | Some path, Some ud => load_user_dictionary_from_config e (UserDictionaryConfig path (ta_dic_type args)) = Ok ud
               | None, None => True | _, _ => False end /\ fine_at e args input AtUser
     | Err er => command_fault e args input AtUser er | Panic => command_panic e args AtUser end).
  { destruct (ta_user_dic_file args) as [path|] eqn:P.
    - pose proof (user_outcome e (UserDictionaryConfig path (ta_dic_type args))) as H. destruct (load_user_dictionary_from_config _ _) as [u|er|] eqn:L; cbn [bind].
      + split; [exact eq_refl|]. destruct H as [H1 H2]. split; [intros er X|intros X].
        * inversion X as [|p ? Q W| | | |]. rewrite P in Q. injection Q as <-. exact (H1 er W).
        * inversion X as [|p Q W| |]. rewrite P in Q. injection Q as <-. exact (H2 W).
      + eapply fault_at_user; eassumption.
      + eapply panic_at_user; eassumption.
    - split; [exact I|]. split; [intros er X|intros X]; inversion X; congruence. }
  destruct (match ta_user_dic_file args with Some path => _ | None => _ end) as [u|er|]; cbn [bind];
    [|exists AtUser; split; [discriminate|]; split; [exact HU|exact B1]|exists AtUser; split; [exact HU|exact B1]].
  destruct HU as [HU FU]. assert (B2 : fine_before e args input AtFormat) by (eapply fine_next; [|exact B1|exact FU]; reflexivity).
  destruct (format_from_str (ta_output_format args)) as [f|er|] eqn:F; cbn [bind].
  2: { exists AtFormat. split; [discriminate|]. split; [|exact B2].
    assert (er = EArgs) by (revert F; unfold format_from_str; repeat match goal with |- context[if ?b then _ else _] => destruct b end; congruence). subst er. constructor.
    intros f N. destruct N; discriminate F. }
  2: { exfalso. revert F. unfold format_from_str. repeat match goal with |- context[if ?b then _ else _] => destruct b end; discriminate. }
  assert (NF : names_format (ta_output_format args) f) by (apply format_named, F).
  assert (B3 : fine_before e args input AtCharFilters).
  { eapply fine_next; [|exact B2|]; [reflexivity|]. split; [intros er X; inversion X as [| |W| | |]; exact (W f NF)|intros X; inversion X]. }
  pose proof (flags_outcome e (load_char_filter e) (ta_character_filters args)) as HC.
  change (mapM (load_char_filter_flag e) (ta_character_filters args)) with (mapM (fun flag => do '(kind, args0) <- parse_cli_flag e flag; load_char_filter e kind args0) (ta_character_filters args)).
  destruct (mapM _ (ta_character_filters args)) as [cfs|er|]; cbn [bind];
    [|exists AtCharFilters; split; [discriminate|]; split; [constructor; exact HC|exact B3]|exists AtCharFilters; split; [constructor; exact HC|exact B3]].
  destruct HC as (GC & C1 & C2).
  assert (B4 : fine_before e args input AtTokenFilters).
  { eapply fine_next; [|exact B3|]; [reflexivity|]. split; [intros er X|intros X]; inversion X; subst; [eapply C1|apply C2]; eassumption. }
  pose proof (flags_outcome e load_token_filter (ta_token_filters args)) as HT.
  change (mapM (load_token_filter_flag e) (ta_token_filters args)) with (mapM (fun flag => do '(kind, args0) <- parse_cli_flag e flag; load_token_filter kind args0) (ta_token_filters args)).
  destruct (mapM _ (ta_token_filters args)) as [tfs|er|]; cbn [bind];
    [|exists AtTokenFilters; split; [discriminate|]; split; [constructor; exact HT|exact B4]|exists AtTokenFilters; split; [constructor; exact HT|exact B4]].
  destruct HT as (GT & T1 & T2). split.
  - constructor; assumption.
  - eapply fine_next; [|exact B4|]; [reflexivity|]. split; [intros er X|intros X]; inversion X; subst; [eapply T1|apply T2]; eassumption.
Qed.

Theorem run_outcome e args input :
  (exists d f bytes, input = Some bytes /\ command_analyzer e args d f /\ (forall s, fine_at e args input s) /\
     cli_run e args input = cli_tokenize e (analyzer_of e d) f bytes) \/
  (exists s er, command_fault e args input s er /\ fine_before e args input s /\ cli_run e args input = Some ([], Err er)) \/
  (exists s, command_panic e args s /\ fine_before e args input s /\ cli_run e args input = Some ([], Panic)).
Proof.
  pose proof (setup_outcome e args input) as H. unfold cli_run. destruct (cli_setup e args) as [[d f]|er|].
  - destruct H as [H B]. destruct input as [bytes|].
    + left. exists d, f, bytes. split; [reflexivity|]. split; [exact H|]. split; [|reflexivity]. intros s.
      destruct (Nat.eq_dec (stage_number s) 5) as [E|E]; [|apply B; destruct s; cbn in *; lia]. destruct s; try discriminate E. split; [intros er X|intros X]; inversion X; congruence.
    + right. left. exists AtInput, EIo. split; [constructor; reflexivity|]. auto.
  - destruct H as (s & _ & H & B). right. left. exists s, er. auto.
  - destruct H as (s & H & B). right. right. exists s. auto.
Qed.

Theorem run_first e args input s : fine_before e args input s -> ~ fine_at e args input s ->
  (exists er, command_fault e args input s er /\ cli_run e args input = Some ([], Err er)) \/ (command_panic e args s /\ cli_run e args input = Some ([], Panic)).
Proof.
  intros B N. assert (SAME : forall t, ~ fine_at e args input t -> fine_before e args input t -> t = s).
  { intros t NT BT. destruct (lt_eq_lt_dec (stage_number t) (stage_number s)) as [[L|E]|L].
    - destruct (NT (B t L)).
    - destruct s, t; try discriminate E; reflexivity.
    - destruct (N (BT s L)). }
  destruct (run_outcome e args input) as [(d & f & bytes & _ & _ & H & _)|[(t & er & H & BT & E)|(t & H & BT & E)]].
  - destruct (N (H s)).
  - assert (t = s) as -> by (apply SAME; [intros [X _]; exact (X er H)|exact BT]). left. exists er. auto.
  - assert (t = s) as -> by (apply SAME; [intros [_ X]; exact (X H)|exact BT]). right. auto.
Qed.

Theorem main_tokenize be filters stdin t :
  (cli_main be filters stdin (CmdTokenize t) = Usage <-> forall args, ~ options_mean filters t args) /\
  forall args, options_mean filters t args ->
    let input := match ty_input_file t with Some path => e_read (be_env be) path | None => Some stdin end in
    cli_main be filters stdin (CmdTokenize t) = match cli_run (be_env be) args input with Some (out, r) => Ended out [] r | None => Endless end.
Proof.
  cbn [cli_main]. cbv zeta. split.
  - destruct (read_args filters t) as [args|] eqn:E.
    + split; [destruct (cli_run _ _ _) as [[? ?]|]; discriminate|]. intros H. apply read_args_iff in E. destruct (H args E).
    + split; [|reflexivity]. intros _ args H. apply read_args_iff in H. congruence.
  - intros args H. apply read_args_iff in H. rewrite H. reflexivity.
Qed.

Theorem main_build be filters stdin user name src dest :
  (cli_main be filters stdin (CmdBuild user name src dest) = Usage <-> forall k, ~ names_kind name k) /\
  forall k, names_kind name k -> cli_main be filters stdin (CmdBuild user name src dest) =
    match cli_build be user k src dest with Ok files => Ended [] files (Ok tt) | Err er => Ended [] [] (Err er) | Panic => Ended [] [] Panic end.
Proof.
  cbn [cli_main]. split.
  - destruct (kind_from_str name) as [k|er|] eqn:E.
    + split; [destruct (cli_build _ _ _ _ _); discriminate|]. intros H. apply kind_named in E. destruct (H k E).
    + split; [|reflexivity]. intros _ k H. apply kind_named in H. congruence.
    + split; [|reflexivity]. intros _ k H. apply kind_named in H. congruence.
  - intros k H. apply kind_named in H. rewrite H. reflexivity.
Qed.
