(** The build scripts of the five dictionary crates on docs.rs: stand-ins for the dictionary sources. *)
From Coq Require Import String.
From Coq Require Import List NArith ZArith Bool.
From Verif Require Import MBase MUtf8 MText MCodec MTokenizer MBuild MConfig MBuilders.
Import ListNotations.
Local Open Scope string_scope.
Local Open Scope list_scope.

(* the line of dummy_dict.csv: lindera-ipadic/build.rs:46, lindera-ipadic-neologd/build.rs:46, lindera-unidic/build.rs:47,
   lindera-ko-dic/build.rs:44, lindera-cc-cedict/build.rs:47 *)
Definition docs_line (k : dictionary_kind) : str :=
  match k with
  | IPADIC | IPADICNEologd =>
    [0x30C6; 0x30B9; 0x30C8]%N ++ lit ",1288,1288,-1000" ++ [44%N] ++ [0x540D; 0x8A5E]%N ++ [44%N] ++ [0x56FA; 0x6709; 0x540D; 0x8A5E]%N ++ [44%N] ++ [0x4E00; 0x822C]%N ++ lit ",*,*,*,*,*,*"
  | UniDic =>
    [0x30C6; 0x30B9; 0x30C8]%N ++ lit ",5131,5131,767" ++ [44%N] ++ [0x540D; 0x8A5E]%N ++ [44%N] ++ [0x666E; 0x901A; 0x540D; 0x8A5E]%N ++ [44%N] ++ [0x30B5; 0x5909; 0x53EF; 0x80FD]%N ++ lit ",*,*,*" ++ [44%N] ++ [0x30C6; 0x30B9; 0x30C8]%N ++ [44%N] ++ [0x30C6; 0x30B9; 0x30C8]%N ++ lit "-test" ++ [44%N] ++ [0x30C6; 0x30B9; 0x30C8]%N ++ [44%N] ++ [0x30C6; 0x30B9; 0x30C8]%N ++ [44%N] ++ [0x30C6; 0x30B9; 0x30C8]%N ++ [44%N] ++ [0x30C6; 0x30B9; 0x30C8]%N ++ [44%N] ++ [0x5916]%N ++ lit ",*,*,*,*"
  | KoDic =>
    [0xD14C; 0xC2A4; 0xD2B8]%N ++ lit ",1785,3543,4721,NNG" ++ [44%N] ++ [0xD589; 0xC704]%N ++ lit ",F" ++ [44%N] ++ [0xD14C; 0xC2A4; 0xD2B8]%N ++ lit ",*,*,*,*"
  | CcCedict =>
    [0x6D4B; 0x8BD5]%N ++ lit ",0,0,-1131,*,*,*,*,ce4 shi4" ++ [44%N] ++ [0x6E2C; 0x8A66]%N ++ [44%N] ++ [0x6D4B; 0x8BD5]%N ++ lit ",to test (machinery etc)/to test (students)/test/quiz/exam/beta (software)/"
  end.

(* lindera-ipadic/build.rs:33-56, lindera-ipadic-neologd/build.rs:33-56, lindera-unidic/build.rs:33-57, lindera-ko-dic/build.rs:33-53,
   lindera-cc-cedict/build.rs:33-57: the files that are written when DOCS_RS is set.  euc is EUC_JP.encode of the encoding crate;
   the other kinds encode in UTF-8. *)
Definition docs_files (euc : str -> list N) (k : dictionary_kind) : list (str * list N) :=
  let line := docs_line k ++ [10%N] in
  [(lit "char.def", utf8 (lit "DEFAULT 0 1 0" ++ [10%N]));
   (lit "dummy_dict.csv", match k with IPADIC => euc line | _ => utf8 line end);
   (lit "unk.def", []);
   (lit "matrix.def", utf8 (lit "0 1 0" ++ [10%N]))].
