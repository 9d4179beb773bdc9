(** Specification vocabulary: dictionaries whose context ids and connection matrix need not go together. *)
From Coq Require Import String.
From Coq Require Import List NArith ZArith Bool.
From Verif Require Import MBase MUtf8 MText MDict MCharDef MBuild MConfig MBuilders STok SBuild SMatrix SCharDef SUnk SBuilders.
Import ListNotations.
Local Open Scope list_scope.

(* sources that follow their formats; the context ids of rows and unknown words are any numbers of 16 bits, and matrix.def may
   be of any size up to 32767 by 32767, none included *)
Record loose (k : dictionary_kind) (S : sources) (C : content) : Prop := {
  ls_char : directives (s_char S) = Ok (c_char C);
  ls_defined : defined_first (c_char C);
  ls_names : Forall valid_str (flat_map mentions (c_char C));
  ls_char_size : (N.of_nat (total directive_size (c_char C)) < 2 ^ 62)%N;
  ls_unk : Forall2 (reads_as (unk_line_fields k)) (lines (s_unk S)) (c_unk C);
  ls_unk_fits : Forall fits (c_unk C);
  ls_unk_size : (N.of_nat (List.length (c_unk C)) < 2 ^ 32)%N;
  ls_matrix : matrix_def (s_matrix S) (c_fsize C) (c_bsize C) (c_entries C);
  ls_entries : entries_fit (c_fsize C) (c_bsize C) (c_entries C);
  ls_sizes : (c_fsize C <= 32767)%N /\ (c_bsize C <= 32767)%N;
  ls_rows : sys_room (source_options k) (s_rows S);
  ls_numbers : k = CcCedict \/ Forall (fun r => sys_numbers r <> None) (s_rows S)
}.
