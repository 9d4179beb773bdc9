(** Where the printed tokens stand in the input. *)
From Coq Require Import String.
From Coq Require Import List NArith ZArith Bool Lia ZifyBool ZifyNat ZifyN.
From Verif Require Import MBase MUtf8 MText MDict MAnalyzer MConfig MBuilders SText SConfig SBuilders SFull SSpell SPlace LBase LUtf8 LText LSpell.
Import ListNotations.
Local Open Scope string_scope.
Local Open Scope list_scope.

Lemma cut_stands words ts : cut_into words ts -> forall tk, In tk ts -> stands words 0 tk.
Proof.
  intros [C P] tk I. apply in_split in I as (a & b & ->). destruct (P a tk b eq_refl) as (_ & S & E & _). exists (concat (map ft_text a)), (concat (map ft_text b)).
  split; [rewrite <- C, map_app; cbn [map]; rewrite concat_app; reflexivity|]. rewrite blen_app. lia.
Qed.
Lemma stands_within pre text post n tk : stands text n tk -> stands (pre ++ text ++ post) (N.of_nat (blen pre) + n) tk.
Proof.
  intros (a & b & -> & S & E). exists (pre ++ a), (b ++ post). split; [rewrite <- !app_assoc; reflexivity|]. rewrite <- app_assoc, !blen_app in *. lia.
Qed.
Lemma cut_nothing ts : cut_into [] ts -> ts = [].
Proof. intros [C P]. destruct ts as [|t ts]; [reflexivity|]. destruct (P [] t ts eq_refl) as (N & _). cbn [map concat] in C. apply app_eq_nil in C. destruct C. contradiction. Qed.

Lemma line_stands line words ts : trimmed line words -> cut_into words ts -> exists lead, leading line lead /\ (forall tk, In tk ts -> stands line (N.of_nat (blen lead)) tk) /\
  (ts <> [] -> ((forall tk, In tk ts -> stands line 0 tk) <-> lead = [])).
Proof.
  intros (a & b & -> & WA & WB & F & _) C. destruct words as [|c words].
  - rewrite (cut_nothing _ C). exists (a ++ b). split; [|split; [intros tk []|congruence]]. exists []. rewrite app_nil_r. split; [reflexivity|]. split; [apply Forall_app; split; assumption|discriminate].
  - assert (ST : forall tk, In tk ts -> stands (a ++ (c :: words) ++ b) (N.of_nat (blen a)) tk).
    { intros tk I. replace (N.of_nat (blen a)) with (N.of_nat (blen a) + 0)%N by lia. apply stands_within. exact (cut_stands _ _ C tk I). }
    exists a. split; [|split; [exact ST|]].
    + exists ((c :: words) ++ b). split; [reflexivity|]. split; [exact WA|]. intros c' r E. injection E as <- _. exact (F c words eq_refl).
    + intros NE. split; [|intros ->; exact ST]. intros H. destruct a as [|w a]; [reflexivity|exfalso]. destruct ts as [|tk ts]; [congruence|].
      destruct C as [C P]. destruct (P [] tk ts eq_refl) as (NT & S0 & _). cbn [map concat blen] in S0, C. specialize (H tk (or_introl eq_refl)). destruct H as (x & y & E & BX & _).
      rewrite S0 in BX. destruct x as [|z x]; [|cbn [blen] in BX; pose proof (width_pos z); lia]. destruct (ft_text tk) as [|d r]; [congruence|].
      injection E as -> _. injection C as -> _. inversion WA; subst. exact (F c words eq_refl ltac:(assumption)).
Qed.

Theorem cli_places n be e k dir S C args : good_sources n be e k dir S C ->
  finds_dictionary be e k dir (DictionaryConfig (ta_dic_type args) (ta_dic_dir args)) ->
  finds_user be e k C (option_map (fun path => UserDictionaryConfig path (ta_dic_type args)) (ta_user_dic_file args)) ->
  ta_output_format args = lit "json" -> ta_character_filters args = [] -> ta_token_filters args = [] ->
  forall text lines, valid_str text -> input_lines text lines -> exists tss, List.length tss = List.length lines /\
    cli_run e args (Some (utf8 text)) = Some (flat_map (fun ts => e_pretty e (map json_token ts) ++ [10%N]) tss, Ok tt) /\
    forall i line ts, nth_error lines i = Some line -> nth_error tss i = Some ts ->
      concat (map ft_text ts) = trim line /\
      exists lead, leading line lead /\ (forall tk, In tk ts -> stands text (N.of_nat (blen (concat (firstn i lines)) + blen lead)) tk) /\
        (ts <> [] -> ((forall tk, In tk ts -> stands line 0 tk) <-> lead = [])).
Proof.
  intros GS FD FU FO FC FT text lines V IL.
  assert (FN : In (ta_output_format args, FJson) format_names) by (rewrite FO; cbn; tauto).
  destruct (cli_spells n be e k dir S C args FJson GS FD FU FN FC FT text lines V IL) as (tss & F2 & R). exists tss.
  split; [clear - F2; induction F2; cbn [List.length]; congruence|]. split; [exact R|]. intros i line ts L T.
  assert (X : exists words, trimmed line words /\ cut_into words ts).
  { clear - F2 L T. revert i L T. induction F2 as [|l t ls tt H F2 IH]; intros [|i] L T; cbn [nth_error] in *; try discriminate; [injection L as ->; injection T as ->; exact H|eauto]. }
  destruct X as (words & TR & CU). split; [rewrite (proj2 (trim_spec line words) TR); exact (proj1 CU)|]. destruct (line_stands line words ts TR CU) as (lead & LD & ST & EX). exists lead. split; [exact LD|]. split; [|exact EX].
  intros tk I. rewrite <- (input_lines_concat _ _ IL). rewrite <- (firstn_skipn i lines) at 1. rewrite concat_app.
  assert (SK : skipn i lines = line :: skipn (Datatypes.S i) lines).
  { clear - L. revert lines L. induction i as [|i IH]; intros [|l ls] L; cbn [nth_error skipn] in *; try discriminate; [injection L as ->; reflexivity|apply IH, L]. }
  rewrite SK. cbn [concat]. rewrite Nat2N.inj_add. apply stands_within. exact (ST tk I).
Qed.
