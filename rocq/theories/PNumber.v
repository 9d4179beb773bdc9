(** Property C74, and the exact side of C35 and C46: what the number filter makes of any text. *)
From Coq Require Import String.
From Coq Require Import List NArith ZArith Bool Lia.
From Verif Require Import MBase MUtf8 MText MBuild MAnalyzer MTokenFilter STokenFilter SNumber LNumeral LNumber.
Import ListNotations.
Local Open Scope string_scope.
Local Open Scope list_scope.

(** C74 *)
Theorem C74_exact : forall s r, to_arabic_numerals s = Ok r <-> read_as None s r.
Proof. exact number_exact. Qed.
Print Assumptions C74_exact.
Theorem C74_one_result : forall b s r, read_as b s r -> forall r', read_as b s r' -> r = r'.
Proof. exact read_det. Qed.
Print Assumptions C74_one_result.
Theorem C74_panics : forall s, to_arabic_numerals s = Panic <-> crowded s.
Proof. exact number_panics. Qed.
Print Assumptions C74_panics.
Theorem C74_else : forall s, to_arabic_numerals s = Panic \/ exists r, to_arabic_numerals s = Ok r.
Proof. exact number_else. Qed.
Print Assumptions C74_else.
(* 二百万三 and 三十2a *)
Example C74_ex : read_as None [0x4E8C; 0x767E; 0x4E07; 0x4E09]%N (lit "2000003") /\ crowded [0x4E09; 0x5341; 0x32; 0x61]%N.
Proof.
  split; [apply number_exact; vm_compute; reflexivity|apply number_panics; vm_compute; reflexivity].
Qed.

(** C35, exactly: the filter panics on the crowded texts and on no other *)
Theorem C35_exactly : forall s, (exists r, to_arabic_numerals s = Ok r) <-> ~ crowded s.
Proof.
  intros s. split; [intros (r & E) C; apply number_panics in C; congruence|]. intros N.
  destruct (number_else s) as [E|H]; [destruct N; apply number_panics, E|exact H].
Qed.
Print Assumptions C35_exactly.

(** C46, exactly: text after a unit is never kept behind the number *)
Theorem C46_suffix_never : forall s t t' r, Exists is_unit s -> Forall (fun c => ~ is_unit c) t -> t' <> [] ->
  to_arabic_numerals s = Ok r -> to_arabic_numerals (s ++ t) <> Ok (r ++ t').
Proof. exact suffix_never. Qed.
Print Assumptions C46_suffix_never.
Theorem C46_suffix_size : forall s t r r', Exists is_unit s -> Forall (fun c => ~ is_unit c) t ->
  to_arabic_numerals s = Ok r -> to_arabic_numerals (s ++ t) = Ok r' -> blen r' = blen r.
Proof. exact suffix_same_size. Qed.
Print Assumptions C46_suffix_size.
(* text in front is harmless unless the numeral starts with a unit, whose one is then lost *)
Theorem C46_prefix_plain : forall t s r, Forall (fun c => ~ is_unit c) t -> match s with c :: _ => ~ is_unit c | [] => True end ->
  to_arabic_numerals s = Ok r -> exists t', Forall2 glyph_image t t' /\ to_arabic_numerals (t ++ s) = Ok (t' ++ r).
Proof. exact prefix_plain. Qed.
Print Assumptions C46_prefix_plain.
Theorem C46_prefix_unit : forall t u s r, t <> [] -> Forall (fun c => ~ is_unit c) t -> is_unit u -> to_arabic_numerals (u :: s) = Ok r ->
  exists t' r', Forall2 glyph_image t t' /\ r = 49%N :: r' /\ to_arabic_numerals (t ++ u :: s) = Ok (t' ++ r').
Proof. exact prefix_unit. Qed.
Print Assumptions C46_prefix_unit.
(* 千円 and 第十 *)
Example C46_exact_ex : Exists is_unit [0x5343]%N /\ Forall (fun c => ~ is_unit c) [0x5186; 0x7B2C]%N /\
  to_arabic_numerals [0x5343]%N = Ok (lit "1000") /\ to_arabic_numerals [0x5343; 0x5186]%N = Ok (lit "1" ++ [0x5186]%N) /\
  is_unit 0x5341%N /\ to_arabic_numerals [0x5341]%N = Ok (lit "10") /\ to_arabic_numerals [0x7B2C; 0x5341]%N = Ok ([0x7B2C]%N ++ lit "0").
Proof.
  split; [constructor; unfold is_unit; cbn; auto 12|]. split; [repeat constructor; unfold is_unit; cbn; intuition discriminate|].
  do 2 (split; [vm_compute; reflexivity|]). split; [unfold is_unit; cbn; auto|]. split; vm_compute; reflexivity.
Qed.
