(** Property C107: where the printed tokens stand in the input. *)
From Coq Require Import String.
From Coq Require Import List NArith ZArith Bool Lia.
From Verif Require Import MBase MUtf8 MText MCodec MDict MLattice MTokenizer MBuild MAnalyzer MConfig MBuilders
  SData SConfig SText SBuilders SSafe SFull SSpell SPlace LBase LUtf8 LText LCli LSpell LPlace XBuild XData XBuilders PFull PSpell.
Import ListNotations.
Local Open Scope string_scope.
Local Open Scope list_scope.

Theorem C107_places : forall n be e k dir S C args, good_sources n be e k dir S C ->
  finds_dictionary be e k dir (DictionaryConfig (ta_dic_type args) (ta_dic_dir args)) ->
  finds_user be e k C (option_map (fun path => UserDictionaryConfig path (ta_dic_type args)) (ta_user_dic_file args)) ->
  ta_output_format args = lit "json" -> ta_character_filters args = [] -> ta_token_filters args = [] ->
  forall text lines, valid_str text -> input_lines text lines -> exists tss, List.length tss = List.length lines /\
    cli_run e args (Some (utf8 text)) = Some (flat_map (fun ts => e_pretty e (map json_token ts) ++ [10%N]) tss, Ok tt) /\
    forall i line ts, nth_error lines i = Some line -> nth_error tss i = Some ts ->
      concat (map ft_text ts) = trim line /\
      exists lead, leading line lead /\ (forall tk, In tk ts -> stands text (N.of_nat (blen (concat (firstn i lines)) + blen lead)) tk) /\
        (ts <> [] -> ((forall tk, In tk ts -> stands line 0 tk) <-> lead = [])).
Proof. exact cli_places. Qed.
Print Assumptions C107_places.

(* for any analysis that cuts the trimmed line into words *)
Theorem C107_line : forall line words ts, trimmed line words -> cut_into words ts -> exists lead, leading line lead /\ (forall tk, In tk ts -> stands line (N.of_nat (blen lead)) tk) /\
  (ts <> [] -> ((forall tk, In tk ts -> stands line 0 tk) <-> lead = [])).
Proof. exact line_stands. Qed.
Print Assumptions C107_line.

(** The printed offsets are not places in the line, if the line begins with white space *)

Definition place_line : str := lit "  ab".
Lemma place_tokens ts : cut_into (lit "ab") ts -> ts <> [].
Proof. intros [C _] ->. discriminate C. Qed.
Theorem C107_offsets_refuted : ~ (forall n be e k dir S C args, good_sources n be e k dir S C ->
  finds_dictionary be e k dir (DictionaryConfig (ta_dic_type args) (ta_dic_dir args)) ->
  finds_user be e k C (option_map (fun path => UserDictionaryConfig path (ta_dic_type args)) (ta_user_dic_file args)) ->
  ta_output_format args = lit "json" -> ta_character_filters args = [] -> ta_token_filters args = [] ->
  forall text lines, valid_str text -> input_lines text lines -> exists tss,
    Forall2 (fun line ts => exists words, trimmed line words /\ cut_into words ts /\ forall tk, In tk ts -> stands line 0 tk) lines tss /\
    cli_run e args (Some (utf8 text)) = Some (flat_map (fun ts => e_pretty e (map json_token ts) ++ [10%N]) tss, Ok tt)).
Proof.
  intros H. destruct C102_ex as (GS & FD & FU & _).
  assert (V : valid_str place_line) by (apply Forall_forall; intros c I; apply valid_charb_iff; vm_compute in I; repeat (destruct I as [<-|I]; [reflexivity|]); destruct I).
  assert (IL : input_lines place_line [place_line]) by (apply input_lines_split; vm_compute; reflexivity).
  destruct (H 1 (src_env false src_files) path_env IPADIC (lit "in") src src_content (spell_args "json") GS FD FU eq_refl eq_refl eq_refl place_line [place_line] V IL) as (tss & F & _).
  inversion F as [|? ts ? ? (words & TR & CU & ST) _]; subst. assert (W : words = lit "ab") by (rewrite <- (proj2 (trim_spec place_line words) TR); vm_compute; reflexivity). subst words.
  destruct (line_stands _ _ _ TR CU) as (lead & (rest & E & _ & NW) & _ & X). apply (X (place_tokens _ CU)) in ST. subst lead. cbn [app] in E. subst rest.
  apply (NW 32%N (lit " ab") eq_refl). unfold white. cbn [In]. tauto.
Qed.
Print Assumptions C107_offsets_refuted.

(* the second line of "ab\n  ab sky": the token " sky" is printed with the offsets 2 and 6, and stands at the bytes 7 to 11 of the input *)
Definition place_text : str := lit "ab" ++ [10%N] ++ lit "  ab sky".
Example C107_ex : good_sources 1 (src_env false src_files) path_env IPADIC (lit "in") src src_content /\
  finds_dictionary (src_env false src_files) path_env IPADIC (lit "in") (DictionaryConfig None (Some (lit "out"))) /\
  input_lines place_text [lit "ab" ++ [10%N]; lit "  ab sky"] /\
  exists d f ts tk, cli_setup path_env (spell_args "json") = Ok (d, f) /\ analyze (analyzer_of path_env d) (trim (lit "  ab sky")) = Some (Ok ts) /\ nth_error ts 1 = Some tk /\
    (ft_text tk, ft_start tk, ft_end tk) = (lit " sky", 2, 6)%N /\ leading (lit "  ab sky") (lit "  ") /\ stands place_text (N.of_nat (blen (lit "ab" ++ [10%N]) + 2)) tk.
Proof.
  destruct C102_ex as (GS & FD & _). split; [exact GS|]. split; [exact FD|]. split; [apply input_lines_split; vm_compute; reflexivity|].
  destruct (cli_setup path_env (spell_args "json")) as [[d f]|k|] eqn:E; [|vm_compute in E; discriminate E|vm_compute in E; discriminate E]. exists d, f.
  assert (D : match cli_setup path_env (spell_args "json") with Ok (d, _) => match analyze (analyzer_of path_env d) (trim (lit "  ab sky")) with
    Some (Ok ts) => match nth_error ts 1 with Some tk => Some (ft_text tk, ft_start tk, ft_end tk) | None => None end | _ => None end | _ => None end = Some (lit " sky", 2, 6)%N) by (vm_compute; reflexivity).
  rewrite E in D. destruct (analyze (analyzer_of path_env d) (trim (lit "  ab sky"))) as [[ts|k|]|]; try discriminate D. exists ts.
  destruct (nth_error ts 1) as [tk|]; [|discriminate D]. exists tk. split; [reflexivity|]. split; [reflexivity|]. split; [reflexivity|].
  assert (D' : (ft_text tk, ft_start tk, ft_end tk) = (lit " sky", 2, 6)%N) by congruence. split; [exact D'|]. split.
  - exists (lit "ab sky"). split; [reflexivity|]. split; [repeat constructor; unfold white; cbn [In]; tauto|]. intros c r X. injection X as <- _. unfold white. cbn [In]. intuition discriminate.
  - injection D' as D1 D2 D3. exists (lit "ab" ++ [10%N] ++ lit "  ab"), []. rewrite D1, D2, D3. repeat split; reflexivity.
Qed.
