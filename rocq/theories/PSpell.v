(** Property C102: the command prints the characters of its input, cut into words. *)
From Coq Require Import String.
From Coq Require Import List NArith ZArith Bool Lia.
From Verif Require Import MBase MUtf8 MText MCodec MDict MLattice MTokenizer MBuild MAnalyzer MConfig MBuilders
  SData SConfig SText SBuilders SSafe SFull SSpell LBase LText LCli LSpell XBuild XData XBuilders PFull.
Import ListNotations.
Local Open Scope string_scope.
Local Open Scope list_scope.

Theorem C102_prints : forall n be e k dir S C args f, good_sources n be e k dir S C ->
  finds_dictionary be e k dir (DictionaryConfig (ta_dic_type args) (ta_dic_dir args)) ->
  finds_user be e k C (option_map (fun path => UserDictionaryConfig path (ta_dic_type args)) (ta_user_dic_file args)) ->
  In (ta_output_format args, f) format_names -> ta_character_filters args = [] -> ta_token_filters args = [] ->
  forall text lines, valid_str text -> input_lines text lines ->
    exists tss, Forall2 (fun line ts => exists words, trimmed line words /\ cut_into words ts) lines tss /\
      cli_run e args (Some (utf8 text)) = Some (flat_map (printed (e_pretty e) f) tss, Ok tt).
Proof. exact cli_spells. Qed.
Print Assumptions C102_prints.

Theorem C102_wakati : forall n be e k dir S C args, good_sources n be e k dir S C ->
  finds_dictionary be e k dir (DictionaryConfig (ta_dic_type args) (ta_dic_dir args)) ->
  finds_user be e k C (option_map (fun path => UserDictionaryConfig path (ta_dic_type args)) (ta_user_dic_file args)) ->
  ta_output_format args = lit "wakati" -> ta_character_filters args = [] -> ta_token_filters args = [] ->
  forall text lines, valid_str text -> input_lines text lines ->
    exists wss, Forall2 (fun line ws => trimmed line (concat ws) /\ Forall (fun w => w <> []) ws) lines wss /\
      cli_run e args (Some (utf8 text)) = Some (flat_map spaced wss, Ok tt).
Proof. exact cli_wakati. Qed.
Print Assumptions C102_wakati.

Theorem C102_wakati_ink : forall n be e k dir S C args, good_sources n be e k dir S C ->
  finds_dictionary be e k dir (DictionaryConfig (ta_dic_type args) (ta_dic_dir args)) ->
  finds_user be e k C (option_map (fun path => UserDictionaryConfig path (ta_dic_type args)) (ta_user_dic_file args)) ->
  ta_output_format args = lit "wakati" -> ta_character_filters args = [] -> ta_token_filters args = [] ->
  forall text, valid_str text -> exists out i, cli_run e args (Some (utf8 text)) = Some (out, Ok tt) /\ ink text i /\ ink out i.
Proof. exact cli_wakati_ink. Qed.
Print Assumptions C102_wakati_ink.

Theorem C102_mecab : forall n be e k dir S C args, good_sources n be e k dir S C ->
  finds_dictionary be e k dir (DictionaryConfig (ta_dic_type args) (ta_dic_dir args)) ->
  finds_user be e k C (option_map (fun path => UserDictionaryConfig path (ta_dic_type args)) (ta_user_dic_file args)) ->
  ta_output_format args = lit "mecab" -> ta_character_filters args = [] -> ta_token_filters args = [] ->
  forall text lines, valid_str text -> input_lines text lines ->
    exists wss, Forall2 (fun line ws => trimmed line (concat (map fst ws)) /\ Forall (fun w : str * list str => fst w <> []) ws) lines wss /\
      cli_run e args (Some (utf8 text)) =
        Some (flat_map (fun ws => as_lines (map (fun '(w, ds) => w ++ [9%N] ++ join [44%N] ds) ws ++ [lit "EOS"])) wss, Ok tt).
Proof. exact cli_mecab. Qed.
Print Assumptions C102_mecab.

(** Two lines, the second one blank, and a third without a newline *)

Definition spell_args (f : string) : tokenize_args := TokenizeArgs None (Some (lit "out")) None Normal (lit f) [] [].
Definition spell_text : str := lit "  ab sky " ++ [10%N; 32%N; 10%N] ++ lit "skyab".

Example C102_ex : good_sources 1 (src_env false src_files) path_env IPADIC (lit "in") src src_content /\
  finds_dictionary (src_env false src_files) path_env IPADIC (lit "in") (DictionaryConfig None (Some (lit "out"))) /\
  finds_user (src_env false src_files) path_env IPADIC src_content None /\
  valid_str spell_text /\ input_lines spell_text [lit "  ab sky " ++ [10%N]; [32%N; 10%N]; lit "skyab"] /\
  cli_run path_env (spell_args "wakati") (Some (utf8 spell_text)) = Some (lit "ab  sky" ++ [10%N] ++ lit "sky ab" ++ [10%N], Ok tt) /\
  ink spell_text (lit "abskyskyab") /\
  cli_run path_env (spell_args "mecab") (Some (utf8 (lit "ab "))) = Some (as_lines [lit "ab" ++ [9%N] ++ lit "noun"; lit "EOS"], Ok tt).
Proof.
  split; [eapply src_good; reflexivity|].
  split; [apply finds_files; [reflexivity|]; intros files B; assert (E : files = src_built false) by (unfold src_built; rewrite B; reflexivity); subst files; apply put_files_and, src_built_names|].
  split; [constructor|]. split; [apply Forall_forall; intros c I; vm_compute in I; repeat (destruct I as [<-|I]; [split; [reflexivity|right; reflexivity] || (vm_compute; intuition discriminate)|]); destruct I|].
  split; [apply input_lines_split; vm_compute; reflexivity|]. split; [vm_compute; reflexivity|]. split; [|vm_compute; reflexivity].
  let t := eval vm_compute in spell_text in change spell_text with t. let t := eval vm_compute in (lit "abskyskyab") in change (lit "abskyskyab") with t.
  repeat first [apply ink_nil|apply ink_white; [unfold white; cbn [In]; tauto|]|apply ink_char; [unfold white; cbn [In]; intuition discriminate|]].
Qed.
