(** Example files for the theorems in PData.v. *)
From Coq Require Import String.
From Coq Require Import List NArith ZArith Bool Lia ZifyBool ZifyNat ZifyN.
From Verif Require Import MBase MUtf8 MText MCodec MDict MCharDef MUnk MBincode MTokenizer MDetails MBuild
  SMatrix SCharDef SUnk SData LUtf8 LMatrix LCharDef XBuild.
Import ListNotations.
Local Open Scope string_scope.
Local Open Scope list_scope.

Definition nl : str := [10%N].
Definition text (ls : list string) : str := flat_map (fun l => lit l ++ nl) ls.

Definition matrix_text : str := text ["2 3"; "0 0 5"; "1 2 9"; "1 2 -8 1"]%string.
Definition matrix_entries : list (N * N * Z) := [(0, 0, 5%Z); (1, 2, 9%Z); (1, 2, (-8)%Z)]%N.

Lemma line_numbers_of line zs : mapM (fun f => ok_or (parse_i32 f) EParse) (split_whitespace line) = Ok zs -> line_numbers line zs.
Proof.
  unfold line_numbers. revert zs. induction (split_whitespace line) as [|f fs IH]; intros zs H; cbn [mapM] in H; [injection H as <-; constructor|].
  destruct (parse_i32 f) as [z|] eqn:E; [|discriminate]. cbn [ok_or bind] in H.
  destruct (mapM (fun f => ok_or (parse_i32 f) EParse) fs) as [zs'| |]; try discriminate. injection H as <-. constructor; [exact E|]. apply IH. reflexivity.
Qed.

Lemma matrix_text_def : matrix_def matrix_text 2 3 matrix_entries.
Proof.
  exists (lit "2 3"), [lit "0 0 5"; lit "1 2 9"; lit "1 2 -8 1"]. split; [vm_compute; reflexivity|]. split.
  - exists []. apply line_numbers_of. vm_compute. reflexivity.
  - repeat constructor; (exists [] + exists [1%Z]); apply line_numbers_of; vm_compute; reflexivity.
Qed.
Lemma matrix_entries_fit : entries_fit 2 3 matrix_entries.
Proof. repeat constructor; unfold is_i16; lia. Qed.

Lemma matrix_large_example : exists bytes, matrix_def (lit "2 32768") 2 32768 [] /\ build_matrix (lit "2 32768") = Ok bytes.
Proof.
  eexists. split.
  - exists (lit "2 32768"), []. split; [vm_compute; reflexivity|]. split; [|constructor]. exists []. apply line_numbers_of. vm_compute. reflexivity.
  - unfold build_matrix. replace (lines (lit "2 32768")) with [lit "2 32768"] by (vm_compute; reflexivity). cbn [mapM].
    replace (parse_matrix_line (lit "2 32768")) with (Ok [2; 32768]%Z) by (vm_compute; reflexivity). cbn [bind].
    unfold field_u32. cbn [idx nth_error bind foldM]. reflexivity.
Qed.

Definition stray_text : str := text ["2 2"; "0 2 7"]%string.
Lemma stray_text_def : matrix_def stray_text 2 2 [(0, 2, 7%Z)]%N.
Proof.
  exists (lit "2 2"), [lit "0 2 7"]. split; [vm_compute; reflexivity|]. split.
  - exists []. apply line_numbers_of. vm_compute. reflexivity.
  - repeat constructor. exists []. apply line_numbers_of. vm_compute. reflexivity.
Qed.

Definition char_text : str := text
  ["# a comment"; "DEFAULT 0 1 0"; "ALPHA 1 1 0  # letters"; "HEX 0 1 2"; ""; "0x0041..0x005A ALPHA"; "0x0041..0x0046 ALPHA HEX"; "0x0030 HEX"]%string.
Definition char_directives : list directive :=
  [ DCategory (lit "DEFAULT") (CategoryData false true 0); DCategory (lit "ALPHA") (CategoryData true true 0);
    DCategory (lit "HEX") (CategoryData false true 2);
    DRange 0x41 0x5A [lit "ALPHA"]; DRange 0x41 0x46 [lit "ALPHA"; lit "HEX"]; DRange 0x30 0x30 [lit "HEX"] ].
Lemma char_defined_first : defined_first char_directives.
Proof.
  split.
  - apply (NoDup_count_occ' (list_eq_dec N.eq_dec)). intros x H. cbn [char_directives flat_map defines app map fst In] in H.
    destruct H as [<-|[<-|[<-|[]]]]; vm_compute; reflexivity.
  - intros pre lo hi names post E name I1. unfold char_directives in E.
    do 3 (destruct pre as [|? pre]; [discriminate|injection E as <- E]).
    do 3 (destruct pre as [|? pre]; [injection E as <- <- <- E; cbn [In] in I1; cbn [flat_map defines app map fst In]; intuition|injection E as <- E]).
    destruct pre; discriminate.
Qed.

Definition misaligned_text : str := text ["0x0041 B"; "A 1 0 0"; "B 0 1 2"]%string.
Lemma char_misaligned : exists content ds cd, directives content = Ok ds /\ char_def_of content = Ok cd /\
  NoDup (map fst (flat_map defines ds)) /\ In (lit "B", CategoryData false true 2) (flat_map defines ds) /\
  category_name cd 0 = Ok (lit "B") /\ lookup_definition cd 0 = Ok (CategoryData true false 0).
Proof.
  exists misaligned_text. eexists. eexists. split; [vm_compute; reflexivity|]. split; [vm_compute; reflexivity|].
  split; [|split; [|split; vm_compute; reflexivity]].
  - cbn [flat_map defines app map fst]. repeat constructor; cbn [In]; intuition discriminate.
  - vm_compute. tauto.
Qed.

Definition unk_text : str := text ["ALPHA,1,2,-3,x"; "DEFAULT,0,0,5,y"; "ALPHA,7,8,9,z"]%string.
Definition unk_lines : list unk_line := [UnkLine (lit "ALPHA") 1 2 (-3); UnkLine (lit "DEFAULT") 0 0 5; UnkLine (lit "ALPHA") 7 8 9].
Lemma unk_text_lines : Forall2 (reads_as 5) (lines unk_text) unk_lines.
Proof.
  replace (lines unk_text) with [lit "ALPHA,1,2,-3,x"; lit "DEFAULT,0,0,5,y"; lit "ALPHA,7,8,9,z"] by (vm_compute; reflexivity).
  repeat constructor; eexists _, _, _, _; (split; [vm_compute; reflexivity|]); repeat split; vm_compute; reflexivity.
Qed.
Lemma unk_lines_fit : Forall fits unk_lines.
Proof. repeat constructor; unfold fits, is_u16, is_i16; cbn [ul_left ul_right ul_cost]; lia. Qed.

Definition unknown_sample : unknown_dictionary :=
  UnknownDictionary [[0%N; 1%N]; []] [WordEntry (WordId u32_max true) (-3) 1 65535; WordEntry (WordId u32_max true) 32767 0 0].
Definition chardef_sample : char_definitions :=
  CharDefinitions [CategoryData true false 3] [lit "DEFAULT"; [0x3042%N]] (LookupTable [0%N; 65%N] [[0]; [1; 0]]).
Definition user_file_sample : user_file := UserFile [1%N; 255%N] [] false [0%N] [7%N].
Lemma samples_in_range : unknown_in_range unknown_sample /\ chardef_in_range chardef_sample /\ user_in_range user_file_sample.
Proof.
  split; [|split].
  - unfold unknown_in_range, unknown_sample. cbn [ud_references ud_costs].
    repeat match goal with |- _ /\ _ => split end; try (unfold short; cbn; lia).
    + repeat constructor; unfold is_u32, short; cbn; lia.
    + repeat constructor; unfold is_u32, is_i16, is_u16, u32_max; cbn; lia.
  - unfold chardef_in_range, chardef_sample. cbn [cds_definitions cds_names cds_mapping lt_boundaries lt_values].
    repeat match goal with |- _ /\ _ => split end; try (unfold short; cbn; lia).
    + repeat constructor; unfold is_u32; cbn; lia.
    + constructor; [|constructor; [|constructor]]; (split; [|vm_compute; reflexivity]);
        apply Forall_forall; intros c I1; apply valid_charb_iff; revert c I1; apply forallb_forall; vm_compute; reflexivity.
    + repeat constructor; unfold is_u32; cbn; lia.
    + repeat constructor; unfold short; cbn; lia.
  - unfold user_in_range, user_file_sample. cbn [uf_da uf_vals uf_words_idx uf_words].
    repeat constructor; unfold is_byte, short; cbn; lia.
Qed.

(* a codec that puts a byte in front *)
Definition codecs_sample : codecs :=
  Codecs (fun _ d => if (N.of_nat (List.length d) <? 1000)%N && forallb (fun b => b <? 256)%N d then Some (7%N :: d) else None)
         (fun _ d => match d with 7%N :: r => Some r | _ => None end).
Lemma codecs_sample_inverse : codecs_inverse codecs_sample.
Proof. intros a data z. cbn. destruct (_ && _); [|discriminate]. intros X. injection X as <-. reflexivity. Qed.
Lemma codecs_sample_bytes : codecs_bytes codecs_sample.
Proof.
  intros a data z. cbn. destruct (_ && _) eqn:E; [|discriminate]. intros X. injection X as <-. apply andb_true_iff in E. destruct E as [E1 E2].
  split; [|unfold short; cbn [List.length]; lia]. constructor; [unfold is_byte; lia|].
  rewrite forallb_forall in E2. apply Forall_forall. intros b I1. specialize (E2 b I1). unfold is_byte. lia.
Qed.
