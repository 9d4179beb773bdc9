(** Lemmas about arguments that are not objects. *)
From Coq Require Import String.
From Coq Require Import List NArith ZArith Bool Lia.
From Verif Require Import MBase MUtf8 MText MCodec MLattice MBuild MCharFilter MAnalyzer MTokenFilter MConfig
  STokenFilter SConfig SForms LBase LUtf8 LCharDef LConfig.
Import ListNotations.
Local Open Scope string_scope.
Local Open Scope list_scope.

Ltac each I := unfold token_filter_fields, char_filter_fields in I; cbn [map fst snd In] in I; decompose [or] I; try contradiction; clear I;
  match goal with H : (_, _) = (_, _) |- _ => injection H; clear H; intros; subst end.


Lemma token_array name fields l : In (name, fields) token_filter_fields -> List.length l = List.length fields ->
  load_token_filter name (VArr l) = load_token_filter name (VObj (combine fields l)).
Proof.
  intros I L. each I; cbn [List.length] in L;
    destruct l as [|a [|b [|c [|d l]]]]; try discriminate L; cbn [combine]; reflexivity.
Qed.
Lemma token_array_length name fields l : In (name, fields) token_filter_fields -> List.length l <> List.length fields ->
  load_token_filter name (VArr l) = if str_eqb name (lit "japanese_katakana_stem") && match l with [] => true | _ => false end then Ok (TFStem 3) else Err EDeserialize.
Proof.
  intros I L. each I; cbn [List.length] in L;
    destruct l as [|a [|b [|c [|d l]]]]; try (exfalso; apply L; reflexivity); reflexivity.
Qed.
Lemma token_scalar name v : scalar v -> load_token_filter name v = load_token_filter name VNull.
Proof. destruct v; intros H; try contradiction H; reflexivity. Qed.
Lemma token_array_other name l : (forall fields, ~ In (name, fields) token_filter_fields) -> load_token_filter name (VArr l) = load_token_filter name VNull.
Proof.
  intros H. unfold load_token_filter.
  repeat match goal with |- (if str_eqb name (lit ?s) then _ else _) = _ =>
    let E := fresh in destruct (str_eqb name (lit s)) eqn:E;
      [apply str_eqb_true in E; subst name; first [reflexivity|exfalso; eapply H; unfold token_filter_fields; cbn [map fst snd In]; eauto 20]|] end.
  reflexivity.
Qed.

Lemma char_array e name fields l : In (name, fields) char_filter_fields ->
  load_char_filter e name (VArr l) = if Nat.eqb (List.length l) (List.length fields) then load_char_filter e name (VObj (combine fields l)) else Err EDeserialize.
Proof.
  intros I. each I; destruct l as [|a [|b [|c l]]]; reflexivity.
Qed.
Lemma char_scalar e name v : scalar v -> load_char_filter e name v = Err EDeserialize.
Proof.
  intros H. unfold load_char_filter.
  repeat match goal with |- (if ?c then _ else _) = _ => destruct c; [destruct v; try contradiction H; reflexivity|] end. reflexivity.
Qed.

Lemma mode_array l : de_mode (VObj [(lit "decompose", VArr l)]) =
  if Nat.eqb (List.length l) 4 then de_mode (VObj [(lit "decompose", VObj (combine penalty_fields l))]) else Err EDeserialize.
Proof. destruct l as [|a [|b [|c [|d [|x l]]]]]; reflexivity. Qed.
Lemma dictionary_array l : de_dictionary_config (VArr l) =
  if Nat.eqb (List.length l) 2 then de_dictionary_config (VObj (combine (map lit ["kind"; "path"]) l)) else Err EDeserialize.
Proof. destruct l as [|a [|b [|c l]]]; reflexivity. Qed.
Lemma user_dictionary_array l : de_user_dictionary_config (VArr l) =
  if Nat.eqb (List.length l) 2 then de_user_dictionary_config (VObj (combine (map lit ["path"; "kind"]) l)) else Err EDeserialize.
Proof. destruct l as [|a [|b [|c l]]]; reflexivity. Qed.
