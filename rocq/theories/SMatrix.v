(** Specification vocabulary for matrix.def. *)
From Coq Require Import List NArith ZArith Bool.
From Verif Require Import MBase MUtf8 MText.
Import ListNotations.

(* the whitespace separated fields of a line, all of them 32-bit decimal numbers *)
Definition line_numbers (line : str) (zs : list Z) : Prop :=
  Forall2 (fun f z => parse_i32 f = Some z) (split_whitespace line) zs.

(* content is a header line with the two sizes, and one line per entry (forward id, backward id, cost); further fields of a line
   are ignored *)
Definition matrix_def (content : str) (fsize bsize : N) (entries : list (N * N * Z)) : Prop :=
  exists header data, lines content = header :: data /\
    (exists rest, line_numbers header (Z.of_N fsize :: Z.of_N bsize :: rest)) /\
    Forall2 (fun line '(f, b, c) => exists rest, line_numbers line (Z.of_N f :: Z.of_N b :: c :: rest)) data entries.

(* the cost on the last line naming the pair, the largest i16 if there is none *)
Fixpoint matrix_cost (entries : list (N * N * Z)) (f b : N) : Z :=
  match entries with
  | [] => 32767
  | (f', b', c) :: rest =>
    if existsb (fun '(x, y, _) => (x =? f)%N && (y =? b)%N) rest then matrix_cost rest f b
    else if (f' =? f)%N && (b' =? b)%N then c else 32767
  end.

Definition entries_fit (fsize bsize : N) (entries : list (N * N * Z)) : Prop :=
  Forall (fun '(f, b, c) => (f < fsize)%N /\ (b < bsize)%N /\ is_i16 c) entries.
