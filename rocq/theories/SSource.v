(** The formats of char.def, unk.def and matrix.def, line by line. *)
From Coq Require Import String.
From Coq Require Import List NArith ZArith Bool.
From Verif Require Import MBase MUtf8 MText MCharDef SText SMatrix SUnk SCharDef.
Import ListNotations.
Local Open Scope list_scope.

(** ** char.def *)

(* the part of a line before any # *)
Definition without_comment (line body : str) : Prop :=
  ~ In 35%N body /\ (line = body \/ exists rest, line = body ++ 35%N :: rest).

(* up to four hexadecimal digits after any number of 0x; byte order marks are refused, surrogates become U+FFFD *)
Definition hex_point (s : str) (c : N) : Prop :=
  exists r v, stripped (lit "0x") s r /\ unsigned 16 r (Z.of_N v) /\ (v <= 65535)%N /\ v <> 0xFEFF%N /\ v <> 0xFFFE%N /\
    (((0xD800 <= v <= 0xDFFF)%N /\ c = 0xFFFD%N) \/ (~ (0xD800 <= v <= 0xDFFF)%N /\ c = v)).

Definition u32_field (f : str) (n : N) : Prop := unsigned 10 f (Z.of_N n) /\ (n <= 4294967295)%N.
Definition one (n : N) (b : bool) : Prop := b = true <-> n = 1%N.

Inductive line_says : str -> list directive -> Prop :=
| says_nothing line body : without_comment line body -> Forall white body -> line_says line []
| says_point line body text x names c : without_comment line body -> trimmed body text -> (exists r, text = lit "0x" ++ r) ->
    fields_of white text (x :: names) -> pieces_of (lit "..") x [x] -> hex_point x c -> line_says line [DRange c c names]
| says_range line body text x y z names lo hi : without_comment line body -> trimmed body text -> (exists r, text = lit "0x" ++ r) ->
    fields_of white text (x :: names) -> pieces_of (lit "..") x [y; z] -> hex_point y lo -> hex_point z hi -> line_says line [DRange lo hi names]
| says_category line body text name f1 f2 f3 a b n invoke group : without_comment line body -> trimmed body text -> text <> [] ->
    (forall r, text <> lit "0x" ++ r) -> fields_of ascii_white text [name; f1; f2; f3] ->
    u32_field f1 a -> u32_field f2 b -> u32_field f3 n -> one a invoke -> one b group ->
    line_says line [DCategory name (CategoryData invoke group n)].

Definition char_file (content : str) (ds : list directive) : Prop :=
  exists ls dss, file_lines content ls /\ Forall2 line_says ls dss /\ ds = List.concat dss.

(** ** matrix.def *)

Definition i32_field (f : str) (z : Z) : Prop := signed 10 f z /\ (-2147483648 <= z <= 2147483647)%Z.
Definition numbers_on (line : str) (zs : list Z) : Prop := exists fs, fields_of white line fs /\ Forall2 i32_field fs zs.

Definition matrix_file (content : str) (fsize bsize : N) (entries : list (N * N * Z)) : Prop :=
  exists header data, file_lines content (header :: data) /\
    (exists rest, numbers_on header (Z.of_N fsize :: Z.of_N bsize :: rest)) /\
    Forall2 (fun line '(f, b, c) => exists rest, numbers_on line (Z.of_N f :: Z.of_N b :: c :: rest)) data entries.

(** ** unk.def *)

Definition unk_says (fields : nat) (line : str) (u : unk_line) : Prop :=
  exists f1 f2 f3 rest, parts_of 44%N line (ul_name u :: f1 :: f2 :: f3 :: rest) /\ List.length rest + 4 = fields /\
    u32_field f1 (ul_left u) /\ u32_field f2 (ul_right u) /\ i32_field f3 (ul_cost u).

Definition unk_file (fields : nat) (content : str) (us : list unk_line) : Prop :=
  exists ls, file_lines content ls /\ Forall2 (unk_says fields) ls us.

(** ** What can be written *)

(* names that char.def can carry *)
Definition plain_name (name : str) : Prop := name <> [] /\ Forall (fun c => ~ white c /\ c <> 35%N) name.
(* the code points that char.def can name *)
Definition plain_point (c : N) : Prop := (c <= 65535)%N /\ c <> 0xFEFF%N /\ c <> 0xFFFE%N /\ ~ (0xD800 <= c <= 0xDFFF)%N.

Definition writable (d : directive) : Prop :=
  match d with
  | DRange lo hi names => plain_point lo /\ plain_point hi /\ Forall plain_name names
  | DCategory name data => plain_name name /\ (forall r, name <> lit "0x" ++ r) /\ (cd_length data <= 4294967295)%N
  end.
