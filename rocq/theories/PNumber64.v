(** C109 for the number filter: the subtraction that can go below zero. *)
From Coq Require Import String.
From Coq Require Import List NArith ZArith Bool Lia.
From Verif Require Import MBase MUtf8 MText MCodec MDict MBuild MCharDef MTokenizer MCharFilter MAnalyzer MTokenFilter MNumber64 SCharFilter SNumber LNumber LNumber64.
Import ListNotations.
Local Open Scope list_scope.

(** C109: where the subtraction of the number filter panics in a debug build, the slice after it panics in a release build, and otherwise
    both give the same. *)
Theorem C109_numbers : forall tags ts, Forall (fun tk => fits_isize (blen (ft_text tk))) ts -> japanese_number_apply_release tags ts = japanese_number_apply tags ts.
Proof. exact number_release. Qed.
Print Assumptions C109_numbers.

(* so in a release build too the texts read are those of C74, and exactly the crowded ones panic *)
Theorem C109_numbers_release : forall s, fits_isize (blen s) ->
  (forall r, to_arabic_numerals_release s = Ok r <-> read_as None s r) /\ (to_arabic_numerals_release s = Panic <-> crowded s).
Proof. intros s F. rewrite (arabic_release s F). split; [exact (number_exact s)|exact (number_panics s)]. Qed.
Print Assumptions C109_numbers_release.

(* 十百: 1 - 2 wraps to 2^64 - 1; 二十 *)
Example C109_numbers_ex : fits_isize (blen [JU; HYAKU]) /\ crowded [JU; HYAKU] /\ to_arabic_numerals_release [JU; HYAKU] = Panic /\
  fits_isize (blen [0x4E8C%N; JU]) /\ to_arabic_numerals_release [0x4E8C%N; JU] = Ok (lit "20").
Proof.
  split; [vm_compute; reflexivity|]. split; [apply number_panics; vm_compute; reflexivity|]. split; [vm_compute; reflexivity|]. split; vm_compute; reflexivity.
Qed.
Example C109_numbers_filter_ex : let tk := FToken [0x4E8C%N; JU] 0 6 0 1 (WordId 0 true) [lit "x"] in
  fits_isize (blen (ft_text tk)) /\ exists out, japanese_number_apply_release (Some [lit "x,*,*,*"]) [tk] = Ok out /\ map ft_text out = [lit "20"].
Proof. cbv zeta. split; [vm_compute; reflexivity|]. eexists. split; vm_compute; reflexivity. Qed.
