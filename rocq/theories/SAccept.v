(** Specification vocabulary: the sources that the builders accept. *)
From Coq Require Import List NArith ZArith Bool.
From Verif Require Import MBase MUtf8 MText MBincode MBuild MBuilders SText SBuild SSource SBuilders.
Import ListNotations.
Local Open Scope list_scope.

Definition u16_field (f : str) (n : N) : Prop := unsigned 10 f (Z.of_N n) /\ (n <= 65535)%N.
Definition i16_field (f : str) (z : Z) : Prop := signed 10 f z /\ (-32768 <= z <= 32767)%Z.

(* a row of a dictionary: surface, left and right context ids, cost, details; white space around the numbers does not matter *)
Inductive word_row : row -> Z -> N -> N -> Prop :=
| a_word_row s f1 f2 f3 details t1 t2 t3 c l r : trimmed f1 t1 -> trimmed f2 t2 -> trimmed f3 t3 ->
    u16_field t1 l -> u16_field t2 r -> i16_field t3 c -> word_row (s :: f1 :: f2 :: f3 :: details) c l r.

(* a row of a user dictionary: three fields, or as above without white space *)
Inductive user_row : row -> Z -> N -> N -> Prop :=
| a_simple_row s f1 f2 : user_row [s; f1; f2] (-10000) 0 0
| a_full_row s f1 f2 f3 details c l r : u16_field f1 l -> u16_field f2 r -> i16_field f3 c -> user_row (s :: f1 :: f2 :: f3 :: details) c l r.

(* rows of CC-CEDICT may lack usable numbers *)
Definition accepted_row (k : dictionary_kind) (r : row) : Prop :=
  4 <= List.length r /\ (k = CcCedict \/ exists c l rr, word_row r c l rr) /\
  (N.of_nat (total (fun f => (1 + blen f)%nat) (sys_row_details (source_options k) r)) <= 4294967296)%N.

Definition accepted_user_row (k : dictionary_kind) (r : row) : Prop :=
  (exists c l rr, user_row r c l rr) /\ (List.length r = 3 \/ full_fields k <= List.length r).

(* two sizes, and lines that name cells of the table, counted row by row in 32 bits *)
Definition accepted_matrix (content : str) : Prop :=
  exists header data fsize bsize rest, file_lines content (header :: data) /\ numbers_on header (fsize :: bsize :: rest) /\
    Forall (fun line => exists f b c rest, numbers_on line (f :: b :: c :: rest) /\
      ((b + f * bsize) mod 2 ^ 32 < (fsize * bsize) mod 2 ^ 32)%Z) data.

Record accepted (k : dictionary_kind) (S : sources) : Prop := {
  ac_char : exists ds, char_file (s_char S) ds;
  ac_unk : exists us, unk_file (unk_line_fields k) (s_unk S) us;
  ac_rows : Forall (accepted_row k) (s_rows S);
  ac_matrix : accepted_matrix (s_matrix S)
}.

(* compression, if it is used, succeeds *)
Definition always_writes (be : build_env) : Prop := be_compress be = true -> forall b, compress (be_codecs be) b Deflate <> None.

(* words that can be keys of a trie, few enough for their numbers *)
Definition trie_words (words : list str) : Prop :=
  words <> [] /\ Forall (fun w => valid_str w /\ w <> [] /\ no_nul w) words /\ (N.of_nat (List.length words) < 67108864)%N.
(* yada builds a trie from such words *)
Definition yada_builds (be : build_env) (words : list str) : Prop :=
  forall ks, trie_input ks -> Forall (fun kv => exists w, In w words /\ fst kv = utf8 w) ks -> be_yada be ks <> None.

(** ** Numbers out of range *)

(* the 16-bit number with the same low bits *)
Definition low16 (z : Z) : Z := ((z + 32768) mod 65536 - 32768)%Z.

(* matrix.def as its numbers stand *)
Definition raw_matrix (content : str) (fsize bsize : Z) (raws : list (Z * Z * Z)) : Prop :=
  exists header data rest, file_lines content (header :: data) /\ numbers_on header (fsize :: bsize :: rest) /\
    Forall2 (fun line '(f, b, c) => exists rest, numbers_on line (f :: b :: c :: rest)) data raws.

(* the cost on the last line that names the cell *)
Fixpoint raw_cost (bsize : Z) (raws : list (Z * Z * Z)) (cell : Z) : Z :=
  match raws with
  | [] => 32767
  | (f, b, c) :: rest =>
    if existsb (fun '(f, b, _) => ((b + f * bsize) mod 2 ^ 32 =? cell)%Z) rest then raw_cost bsize rest cell
    else if ((b + f * bsize) mod 2 ^ 32 =? cell)%Z then low16 c else 32767
  end.
