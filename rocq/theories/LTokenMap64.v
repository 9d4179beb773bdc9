(** The places in the text of a token do not overflow. *)
From Coq Require Import List NArith ZArith Bool Lia ZifyBool ZifyNat ZifyN.
From Verif Require Import MBase MUtf8 MText MCodec MDict MBuild MCharDef MTokenizer MCharFilter MAnalyzer MTokenFilter MOffset64 MTokenMap64
  SCharFilter LBase LUtf8 LOffset LCharFilter LFilterProps LOffset64.
Import ListNotations.
Local Open Scope list_scope.

Lemma map_text_checked f : forall fuel text start result, (Z.of_N start + Z.of_nat (blen text) < 18446744073709551616)%Z ->
  map_text_loop_debug fuel f text start result = map_text_loop fuel f text result.
Proof.
  induction fuel as [|fuel IH]; intros [|c t] start result B; try reflexivity. cbn [map_text_loop map_text_loop_debug].
  destruct (last_error (common_prefix_search (mf_trie f) (utf8 (c :: t)))) as [[v n]|].
  - destruct (checked_usize_cases (Z.of_N start + Z.of_nat n)) as [E|E].
    + rewrite E. destruct (str_to (c :: t) n) as [input| |]; [|reflexivity..].
      destruct (str_from (c :: t) n) as [rest| |] eqn:FR; [|reflexivity..].
      destruct (map_index (mf_mapping f) input) as [w| |]; [|reflexivity..].
      destruct (str_from_inv _ _ _ FR) as (pre & ET & BL). rewrite ET, blen_app in B. apply IH. rewrite wrap64_id by lia. lia.
    + rewrite E. destruct (str_to (c :: t) n) as [input| |]; [|reflexivity..].
      destruct (str_from (c :: t) n) as [rest| |] eqn:FR; [|reflexivity..]. exfalso.
      destruct (str_from_inv _ _ _ FR) as (pre & ET & BL). rewrite ET, blen_app in B. rewrite checked_usize_ok in E by lia. discriminate.
  - cbn [blen] in B. rewrite checked_usize_ok by lia. apply IH. lia.
Qed.

Lemma mapping_tokens_checked f : forall ts, Forall (fun tk => fits_isize (blen (ft_text tk))) ts -> mapping_tokens_debug f ts = mapping_tokens f ts.
Proof.
  induction 1 as [|tk ts F FS IH]; [reflexivity|]. cbn [mapping_tokens mapping_tokens_debug]. unfold fits_isize in F.
  rewrite map_text_checked by lia. rewrite IH. reflexivity.
Qed.
