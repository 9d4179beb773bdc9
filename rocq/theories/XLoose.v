(** Example sources for the theorems in PLoose.v. *)
From Coq Require Import String.
From Coq Require Import List NArith ZArith Bool Lia ZifyBool ZifyNat ZifyN.
From Verif Require Import MBase MUtf8 MText MCodec MDict MCharDef MUnk MBincode MLattice MTokenizer MDetails MBuild MCharFilter MConfig MBuilders
  STok SBuild SMatrix SCharDef SUnk SData SConfig SBuilders SPanic SLoose LUtf8 LCodec LCharDef LBuild XBuild XData XConfig XBuilders.
Import ListNotations.
Local Open Scope string_scope.
Local Open Scope list_scope.

(* the sources of XBuilders with a matrix that is too small for them *)
Definition tight_matrix : str := text ["1 1"; "0 0 5"].
Definition tight_src : sources := Sources src_char src_unk tight_matrix src_rows.
Definition tight_content : content := Content (c_char src_content) (c_unk src_content) 1 1 [(0, 0, 5%Z)]%N.
Definition tight_files : list (str * list N) :=
  [(lit "in/char.def", src_char); (lit "in/unk.def", src_unk); (lit "in/matrix.def", tight_matrix); (lit "in/words.csv", [1%N])].

Lemma tight_sources c : has_sources (src_env c tight_files) IPADIC (lit "in") tight_src.
Proof.
  split; try (eexists; split; vm_compute; reflexivity).
  exists [lit "words.csv"], [src_rows]. split; [reflexivity|]. split; [|reflexivity]. constructor; [|constructor].
  exists [1%N]. split; [vm_compute; reflexivity|]. split; [reflexivity|]. right. exists 5. repeat constructor.
Qed.

Lemma tight_loose : loose IPADIC tight_src tight_content.
Proof.
  destruct src_readable as [R1 R2 R3 R4 R5 R6 R7 R8 R9 R10 R11 R12 R13 R14]. split; try assumption.
  - exists (lit "1 1"), [lit "0 0 5"]. split; [vm_compute; reflexivity|]. split.
    + exists []. apply line_numbers_of. vm_compute. reflexivity.
    + repeat constructor; exists []; apply line_numbers_of; vm_compute; reflexivity.
  - repeat constructor; unfold is_i16; lia.
  - cbn. lia.
Qed.
