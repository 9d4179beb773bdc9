(** Facts about the token filters in the form of the properties. *)
From Coq Require Import String.
From Coq Require Import List NArith ZArith Bool Lia ZifyBool ZifyNat ZifyN.
From Verif Require Import MBase MUtf8 MText MCodec MDict MCharDef MTokenizer MDetails MBuild MCharFilter MAnalyzer MTokenFilter
  SBuild SCharFilter STokenFilter LBase LUtf8 LBuild LKinds LMapping LTokenFilter LNumeral.
Import ListNotations.
Local Open Scope list_scope.

Lemma compound_of_unique details run t t' : compound_of details run t -> compound_of details run t' -> t = t'.
Proof.
  destruct run as [|a [|b run]]; [contradiction|cbn; congruence|].
  intros (A1 & A2 & A3 & A4 & A5 & A6 & A7) (B1 & B2 & B3 & B4 & B5 & B6 & B7). destruct t as [x1 x2 x3 x4 x5 x6 x7], t' as [y1 y2 y3 y4 y5 y6 y7]. cbn [ft_text ft_start ft_end ft_position ft_position_length ft_word ft_details] in *.
  congruence.
Qed.

(* maximal runs are unique *)
Lemma run_unique {A} (P : A -> Prop) run r run' r' : run ++ r = run' ++ r' -> Forall P run -> Forall P run' ->
  match r with [] => True | u :: _ => ~ P u end -> match r' with [] => True | u :: _ => ~ P u end -> run = run' /\ r = r'.
Proof.
  revert run'. induction run as [|x run IH]; intros [|y run'] E F F' B B'; cbn [app] in E.
  - auto.
  - subst r. exfalso. apply B. exact (Forall_inv F').
  - subst r'. exfalso. apply B'. exact (Forall_inv F).
  - injection E as <- E. destruct (IH run' E (Forall_inv_tail F) (Forall_inv_tail F') B B') as [-> ->]. auto.
Qed.

Lemma compounded_unique P details ts out : compounded P details ts out -> forall out', compounded P details ts out' -> out = out'.
Proof.
  induction 1 as [|t r out NP C IH|run t r out F CO B C IH]; intros out' C'.
  - inversion C' as [| |run' t' r' out'' F' CO' B' C'' E]; [reflexivity|]. destruct run'; [contradiction|discriminate].
  - inversion C' as [|t' r' o' NP' C''|run' t' r' out'' F' CO' B' C'' E]; subst; [f_equal; auto|].
    destruct run' as [|x run']; [contradiction|]. cbn [app] in E. injection E as -> E. exfalso. apply NP. exact (Forall_inv F').
  - destruct run as [|x run]; [contradiction|]. inversion C' as [|t' r' o' NP' C'' E|run' t' r' out'' F' CO' B' C'' E]; subst.
    + exfalso. apply NP'. exact (Forall_inv F).
    + destruct (run_unique P run' r' (x :: run) r E F' F B' B) as [-> ->]. f_equal; [eapply compound_of_unique; eauto|auto].
Qed.

(* no two neighbours are further joined: after compounding, two matching tokens are never neighbours unless their details
   were replaced *)

Lemma number_spec tags ts :
  (forall tags', tags = Some tags' -> Forall short_tag tags') -> Forall (fun tk => ft_details tk <> []) ts ->
  (forall tk, In tk ts -> (forall tags', tags = Some tags' -> has_tag tags' tk) -> exists r, to_arabic_numerals (ft_text tk) = Ok r) ->
  exists ftags out, match tags with Some t => do f <- format_tags t; Ok (Some f) | None => Ok None end = Ok ftags /\
    japanese_number_apply ftags ts = Ok out /\
    Forall2 (fun tk tk' => only_text tk tk' /\
      ((forall tags', tags = Some tags' -> has_tag tags' tk) -> to_arabic_numerals (ft_text tk) = Ok (ft_text tk')) /\
      (forall tags', tags = Some tags' -> ~ has_tag tags' tk -> ft_text tk' = ft_text tk)) ts out.
Proof.
  intros ST D H. exists (option_map (map formatted) tags).
  assert (X : exists out, japanese_number_apply (option_map (map formatted) tags) ts = Ok out /\
    Forall2 (fun tk tk' => only_text tk tk' /\
      ((forall tags', tags = Some tags' -> has_tag tags' tk) -> to_arabic_numerals (ft_text tk) = Ok (ft_text tk')) /\
      (forall tags', tags = Some tags' -> ~ has_tag tags' tk -> ft_text tk' = ft_text tk)) ts out).
  { unfold japanese_number_apply, map_texts. induction D as [|tk ts NE D IH]; cbn [mapM]; [exists []; split; [reflexivity|constructor]|].
    destruct IH as (out & E & F2); [intros x Hx; apply H; right; exact Hx|]. rewrite (token_tag_ok tk NE). cbn [bind].
    assert (XT : exists t, (match option_map (map formatted) tags with
       | Some tags => if contains tags (join [44%N] (pad4 (pos_of (ft_details tk)))) then to_arabic_numerals (ft_text tk) else Ok (ft_text tk)
       | None => to_arabic_numerals (ft_text tk) end) = Ok t /\
       ((forall tags', tags = Some tags' -> has_tag tags' tk) -> to_arabic_numerals (ft_text tk) = Ok t) /\
       (forall tags', tags = Some tags' -> ~ has_tag tags' tk -> t = ft_text tk)).
    { destruct tags as [tags|]; cbn [option_map].
      - pose proof (contains_tag tags tk (ST tags eq_refl) NE) as CT.
        destruct (contains (map formatted tags) (join [44%N] (pad4 (pos_of (ft_details tk))))).
        + assert (HT : has_tag tags tk) by (apply CT; reflexivity).
          destruct (H tk (or_introl eq_refl)) as (r & Er); [intros t' Et; injection Et as <-; exact HT|]. exists r. split; [exact Er|]. split; [auto|].
          intros t' Et. injection Et as <-. contradiction.
        + assert (HT : ~ has_tag tags tk) by (intros HT; apply CT in HT; discriminate). exists (ft_text tk). split; [reflexivity|]. split; [|reflexivity].
          intros HH. exfalso. apply HT. apply HH. reflexivity.
      - destruct (H tk (or_introl eq_refl)) as (r & Er); [discriminate|]. exists r. split; [exact Er|]. split; [auto|discriminate]. }
    destruct XT as (t & Et & A & B). rewrite Et. cbn [bind]. rewrite E. cbn [bind]. eexists. split; [reflexivity|]. constructor; [|exact F2].
    split; [reflexivity|]. split; assumption. }
  destruct X as (out & E & F2). exists out. split; [|auto]. destruct tags as [tags|]; [|reflexivity]. rewrite (format_tags_ok tags (ST tags eq_refl)). reflexivity.
Qed.

Lemma convert_spec convert ts : exists out, convert_apply convert ts = Ok out /\
  Forall2 (fun tk tk' => only_text tk tk' /\ ft_text tk' = convert (ft_text tk)) ts out.
Proof.
  unfold convert_apply. rewrite (map_texts_ok _ (fun tk => convert (ft_text tk))) by reflexivity. eexists. split; [reflexivity|].
  induction ts; constructor; auto. split; reflexivity.
Qed.

Lemma text_filters_only_text ts out :
  (forall m f, mapping_keys_ok m -> mapping_new m = Ok f -> Forall (fun tk => valid_str (ft_text tk)) ts -> mapping_tokens f ts = Some (Ok out) -> Forall2 only_text ts out) /\
  (forall convert, convert_apply convert ts = Ok out -> Forall2 only_text ts out) /\
  (forall tags, japanese_number_apply tags ts = Ok out -> Forall2 only_text ts out) /\
  (forall fb min, katakana_stem_apply fb min ts = Ok out -> Forall2 only_text ts out) /\
  (forall k, japanese_reading_form_apply k ts = Ok out -> Forall2 only_text ts out) /\
  (forall k, japanese_base_form_apply k ts = Ok out -> Forall2 only_text ts out) /\
  (korean_reading_form_apply ts = Ok out -> Forall2 only_text ts out).
Proof.
  repeat match goal with |- _ /\ _ => split end; intros;
    try match goal with E : _ ts = Ok out |- _ => exact (proj1 (map_texts_only _ _ _ E)) end.
  destruct (mapping_tokens_spec m f ts) as (out' & E & A & _); auto. congruence.
Qed.

Lemma mapping_tokens_only f ts : forall out, mapping_tokens f ts = Some (Ok out) -> Forall2 only_text ts out.
Proof.
  induction ts as [|tk ts IH]; intros out E; cbn [mapping_tokens] in E; [injection E as <-; constructor|].
  destruct (map_text_loop _ f (ft_text tk) []) as [[t| |]|]; try discriminate. destruct (mapping_tokens f ts) as [[r| |]|]; try discriminate.
  injection E as <-. constructor; [reflexivity|apply IH; reflexivity].
Qed.

Lemma only_text_offsets ts out : Forall2 only_text ts out ->
  List.length out = List.length ts /\ map ft_start out = map ft_start ts /\ map ft_end out = map ft_end ts /\
  map ft_position out = map ft_position ts /\ map ft_position_length out = map ft_position_length ts /\ map ft_word out = map ft_word ts /\
  map ft_details out = map ft_details ts.
Proof.
  induction 1 as [|t t' ts out O F (A1 & A2 & A3 & A4 & A5 & A6 & A7)]; [repeat split; reflexivity|]. unfold only_text in O. rewrite O. cbn.
  rewrite A1, A2, A3, A4, A5, A6, A7. repeat split; reflexivity.
Qed.

Lemma user_row_details_cover k r ds : user_row_details (kind_user_options k) r = Some ds ->
  (forall i, reading_place k = Some i -> i < List.length ds) /\ (forall i, base_place k = Some i -> i < List.length ds) /\ 3 < List.length ds /\ ds <> [].
Proof.
  intros H. destruct (user_details_long k r ds) as (A & B & C).
  - unfold user_row_details in H. unfold user_details, is_simple. destruct (Nat.eqb (List.length r) (uo_simple_fields (kind_user_options k))).
    + destruct (uo_handler (kind_user_options k)) as [h|]; [|congruence]. destruct (h r); congruence.
    + destruct (Nat.leb (uo_detailed_fields (kind_user_options k)) (List.length r)); congruence.
  - repeat match goal with |- _ /\ _ => split end; auto. intros ->. cbn in C. lia.
Qed.
