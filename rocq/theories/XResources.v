(** Data files of the repository, and its tests that run an analyzer.

    The compiled user dictionaries in /repo/resources were written by the program itself: the model writes the same bytes.  The
    test of the analyzer is run with a dictionary of the words that it needs, built from sources by the model. *)
From Coq Require Import String Ascii.
From Coq Require Import List NArith ZArith Bool.
From Verif Require Import MBase MUtf8 MText MCodec MDict MCharDef MUnk MBincode MTokenizer MDetails MBuild MCharFilter MAnalyzer MTokenFilter MConfig
  MBuilders XUnit.
Import ListNotations.
Local Open Scope string_scope.
Local Open Scope list_scope.

(* bytes written in hexadecimal *)
Definition hex_digit (c : char) : N := if (c <? 58)%N then (c - 48)%N else (c - 87)%N.
Fixpoint hex_pairs (l : list char) : list N := match l with a :: b :: r => (16 * hex_digit a + hex_digit b)%N :: hex_pairs r | _ => [] end.
Definition hx (s : string) : list N := hex_pairs (lit s).

(** ** Tries *)

(* The layout of the crate yada: units of 32 bits; the offset, the label, and whether a value follows.  This lists the keys below
   a unit with their values, in the order of their bytes. *)
Fixpoint yada_units (bs : list N) : list N := match bs with a :: b :: c :: d :: r => le_value [a; b; c; d] :: yada_units r | _ => [] end.
Definition unit_offset (u : N) : N := N.shiftl (N.shiftr u 10) (N.shiftr (N.land u 512) 6).
Definition unit_label (u : N) : N := N.lor (N.land u 255) (N.land u 2147483648).
Definition unit_leaf (u : N) : bool := N.testbit u 8.
Definition unit_at (us : list N) (i : N) : N := nth (N.to_nat i) us 0%N.
Fixpoint yada_below (depth : nat) (us : list N) (pos : N) (prefix : list N) : list (list N * N) :=
  match depth with
  | 0 => []
  | S d =>
    let u := unit_at us pos in
    let here := if unit_leaf u then [(rev prefix, N.land (unit_at us (N.lxor pos (unit_offset u))) 2147483647)] else [] in
    here ++ flat_map (fun c => let p := N.lxor (N.lxor pos (unit_offset u)) c in
                               if (p <? 256)%N && (unit_label (unit_at us p) =? c)%N then yada_below d us p (c :: prefix) else [])
                     (map N.of_nat (seq 1 255))
  end.
Definition yada_keys (bs : list N) : list (list N * N) := yada_below 50 (yada_units bs) 0 [].

(** ** User dictionaries *)

(* resources/ipadic_simple_userdic.csv and .bin *)
Definition ipadic_rows : list row :=
  [ fields "東京スカイツリー|カスタム名詞|トウキョウスカイツリー";
    fields "東武スカイツリーライン|カスタム名詞|トウブスカイツリーライン";
    fields "とうきょうスカイツリー駅|カスタム名詞|トウキョウスカイツリーエキ" ].
Definition ipadic_bin : list N :=
  hx "000400000000000000880300e308020081a40200a8940300e6f80200e3080200811c020086b00300e3000200813c0200e31002008d88030082180200" ++
  hx "87800300e37c020086f4030081640200e304020082e00200b9900300e30c020082a00200ab880300e334020082980200e3040200a480030083080200" ++
  hx "e30402008488030083ac0200aa700300e308020083fc0200bca00300e984020085090000a7100200010000809df00200baa00200e4ec0200b19c0300" ++
  hx "e61c0300ac880300e304020082e00200b9f00300e30c020082b80200e30c020082800200ab940300e338020084b00300a484030083280200e3000200" ++
  hx "83b80200e31002008300030021000080aa980300e3f80300bcf50100ad940200a678020082f80200b9880300e304020082940200e3300200abb00300" ++
  hx "829c0200a4880300e31002008314020084800300e308020083d00200a9a00300aa84030082b00200e310020083f80200e3040200bc80030083b80200" ++
  hx "83dc020041000080a4980300e32c0200b31500000000000000000000e310020000000000000000000000000000000000000000000000000000000000" ++
  hx "000000000000000000000000000000000000000000000000000000000000000000000000000000000000000000000000000000000000000000000000" ++
  hx "000000000000000000000000000000000000000000000000000000000000000000000000000000000000000000000000000000000000000000000000" ++
  hx "000000000000000000000000000000000000000000000000000000000000000000000000000000000000000000000000000000000000000000000000" ++
  hx "000000000000000000000000000000000000000000000000000000000000000000000000000000000000000000000000000000000000000000000000" ++
  hx "000000000000000000000000000000000000000000000000000000000000000000000000000000000000000000000000000000000000000000000000" ++
  hx "000000000000000000000000000000000000000000000000000000000000000000000000000000000000000000000000000000000000000000000000" ++
  hx "000000000000000000000000000000000000000000000000000000000000000000000000000000000000000000000000000000000000000000000000" ++
  hx "000000000000000000000000000000000000000000000000000000000000000000000000000000000000000000000000000000000000000000000000" ++
  hx "000000000000000000000000000000000000000000000000000000000000000000000000000000000000000000000000000000000000000000000000" ++
  hx "000000000000000000000000000000000000000000000000000000000000000000000000000000000000000000000000000000000000000000000000" ++
  hx "0000000000000000000000001e0000000000000000000000f0d80000000001000000f0d80000000002000000f0d800000000000c0000000000000000" ++
  hx "000000b300000054010000010200000000000009000000000000001200000000000000e382abe382b9e382bfe383a0e5908de8a99e01000000000000" ++
  hx "002a01000000000000002a01000000000000002a01000000000000002a01000000000000002a2400000000000000e381a8e38186e3818de38287e381" ++
  hx "86e382b9e382abe382a4e38384e383aae383bce9a7852700000000000000e38388e382a6e382ade383a7e382a6e382b9e382abe382a4e38384e383aa" ++
  hx "e383bce382a8e382ad01000000000000002a09000000000000001200000000000000e382abe382b9e382bfe383a0e5908de8a99e0100000000000000" ++
  hx "2a01000000000000002a01000000000000002a01000000000000002a01000000000000002a1800000000000000e69db1e4baace382b9e382abe382a4" ++
  hx "e38384e383aae383bc2100000000000000e38388e382a6e382ade383a7e382a6e382b9e382abe382a4e38384e383aae383bc01000000000000002a09" ++
  hx "000000000000001200000000000000e382abe382b9e382bfe383a0e5908de8a99e01000000000000002a01000000000000002a01000000000000002a" ++
  hx "01000000000000002a01000000000000002a2100000000000000e69db1e6ada6e382b9e382abe382a4e38384e383aae383bce383a9e382a4e383b324" ++
  hx "00000000000000e38388e382a6e38396e382b9e382abe382a4e38384e383aae383bce383a9e382a4e383b301000000000000002a".
(* resources/unidic_simple_userdic.csv and .bin *)
Definition unidic_rows : list row :=
  [ fields "東京スカイツリー|カスタム名詞|トウキョウスカイツリー";
    fields "東武スカイツリーライン|カスタム名詞|トウブスカイツリーライン";
    fields "とうきょうスカイツリー駅|カスタム名詞|トウキョウスカイツリーエキ" ].
Definition unidic_bin : list N :=
  hx "000400000000000000880300e308020081a40200a8940300e6f80200e3080200811c020086b00300e3000200813c0200e31002008d88030082180200" ++
  hx "87800300e37c020086f4030081640200e304020082e00200b9900300e30c020082a00200ab880300e334020082980200e3040200a480030083080200" ++
  hx "e30402008488030083ac0200aa700300e308020083fc0200bca00300e984020085090000a7100200010000809df00200baa00200e4ec0200b19c0300" ++
  hx "e61c0300ac880300e304020082e00200b9f00300e30c020082b80200e30c020082800200ab940300e338020084b00300a484030083280200e3000200" ++
  hx "83b80200e31002008300030021000080aa980300e3f80300bcf50100ad940200a678020082f80200b9880300e304020082940200e3300200abb00300" ++
  hx "829c0200a4880300e31002008314020084800300e308020083d00200a9a00300aa84030082b00200e310020083f80200e3040200bc80030083b80200" ++
  hx "83dc020041000080a4980300e32c0200b31500000000000000000000e310020000000000000000000000000000000000000000000000000000000000" ++
  hx "000000000000000000000000000000000000000000000000000000000000000000000000000000000000000000000000000000000000000000000000" ++
  hx "000000000000000000000000000000000000000000000000000000000000000000000000000000000000000000000000000000000000000000000000" ++
  hx "000000000000000000000000000000000000000000000000000000000000000000000000000000000000000000000000000000000000000000000000" ++
  hx "000000000000000000000000000000000000000000000000000000000000000000000000000000000000000000000000000000000000000000000000" ++
  hx "000000000000000000000000000000000000000000000000000000000000000000000000000000000000000000000000000000000000000000000000" ++
  hx "000000000000000000000000000000000000000000000000000000000000000000000000000000000000000000000000000000000000000000000000" ++
  hx "000000000000000000000000000000000000000000000000000000000000000000000000000000000000000000000000000000000000000000000000" ++
  hx "000000000000000000000000000000000000000000000000000000000000000000000000000000000000000000000000000000000000000000000000" ++
  hx "000000000000000000000000000000000000000000000000000000000000000000000000000000000000000000000000000000000000000000000000" ++
  hx "000000000000000000000000000000000000000000000000000000000000000000000000000000000000000000000000000000000000000000000000" ++
  hx "0000000000000000000000001e0000000000000000000000f0d80000000001000000f0d80000000002000000f0d800000000000c0000000000000000" ++
  hx "000000d8000000aa0100007f0200000000000011000000000000001200000000000000e382abe382b9e382bfe383a0e5908de8a99e01000000000000" ++
  hx "002a01000000000000002a01000000000000002a01000000000000002a01000000000000002a2700000000000000e38388e382a6e382ade383a7e382" ++
  hx "a6e382b9e382abe382a4e38384e383aae383bce382a8e382ad01000000000000002a01000000000000002a01000000000000002a0100000000000000" ++
  hx "2a01000000000000002a01000000000000002a01000000000000002a01000000000000002a01000000000000002a01000000000000002a1100000000" ++
  hx "0000001200000000000000e382abe382b9e382bfe383a0e5908de8a99e01000000000000002a01000000000000002a01000000000000002a01000000" ++
  hx "000000002a01000000000000002a2100000000000000e38388e382a6e382ade383a7e382a6e382b9e382abe382a4e38384e383aae383bc0100000000" ++
  hx "0000002a01000000000000002a01000000000000002a01000000000000002a01000000000000002a01000000000000002a01000000000000002a0100" ++
  hx "0000000000002a01000000000000002a01000000000000002a11000000000000001200000000000000e382abe382b9e382bfe383a0e5908de8a99e01" ++
  hx "000000000000002a01000000000000002a01000000000000002a01000000000000002a01000000000000002a2400000000000000e38388e382a6e383" ++
  hx "96e382b9e382abe382a4e38384e383aae383bce383a9e382a4e383b301000000000000002a01000000000000002a01000000000000002a0100000000" ++
  hx "0000002a01000000000000002a01000000000000002a01000000000000002a01000000000000002a01000000000000002a01000000000000002a".
(* resources/ko-dic_simple_userdic.csv and .bin *)
Definition kodic_rows : list row :=
  [ fields "하네다공항|NNP|하네다공항" ].
Definition kodic_bin : list N :=
  hx "000400000000000000b00300ed5802009564020098b00300eb140200849c0200a49403008ba80200eb100200a4a40300eac80200b3c80200b5b80300" ++
  hx "95b80200ad790000ed5c0200010000800000000000000000000000000000000000000000000000000000000000000000000000000000000000000000" ++
  hx "000000000000000000000000000000000000000000000000000000000000000000000000000000000000000000000000000000000000000000000000" ++
  hx "000000000000000000000000000000000000000000000000000000000000000000000000000000000000000000000000000000000000000000000000" ++
  hx "000000000000000000000000000000000000000000000000000000000000000000000000000000000000000000000000000000000000000000000000" ++
  hx "000000000000000000000000000000000000000000000000000000000000000000000000000000000000000000000000000000000000000000000000" ++
  hx "000000000000000000000000000000000000000000000000000000000000000000000000000000000000000000000000000000000000000000000000" ++
  hx "000000000000000000000000000000000000000000000000000000000000000000000000000000000000000000000000000000000000000000000000" ++
  hx "000000000000000000000000000000000000000000000000000000000000000000000000000000000000000000000000000000000000000000000000" ++
  hx "000000000000000000000000000000000000000000000000000000000000000000000000000000000000000000000000000000000000000000000000" ++
  hx "000000000000000000000000000000000000000000000000000000000000000000000000000000000000000000000000000000000000000000000000" ++
  hx "000000000000000000000000000000000000000000000000000000000000000000000000000000000000000000000000000000000000000000000000" ++
  hx "000000000000000000000000000000000000000000000000000000000000000000000000000000000000000000000000000000000000000000000000" ++
  hx "000000000000000000000000000000000000000000000000000000000000000000000000000000000000000000000000000000000000000000000000" ++
  hx "000000000000000000000000000000000000000000000000000000000000000000000000000000000000000000000000000000000000000000000000" ++
  hx "000000000000000000000000000000000000000000000000000000000000000000000000000000000000000000000000000000000000000000000000" ++
  hx "000000000000000000000000000000000000000000000000000000000000000000000000000000000000000000000000000000000000000000000000" ++
  hx "0000000000000000000000000a0000000000000000000000f0d800000000000400000000000000000000006000000000000000080000000000000003" ++
  hx "000000000000004e4e5001000000000000002a01000000000000002a0f00000000000000ed9598eb84a4eb8ba4eab3b5ed95ad01000000000000002a" ++
  hx "01000000000000002a01000000000000002a01000000000000002a".
(* resources/cc-cedict_simple_userdic.csv and .bin *)
Definition cccedict_rows : list row :=
  [ fields "羽田机场|*|Yu3 tian2 ji1 chang3" ].
Definition cccedict_bin : list N :=
  hx "000400000000000000980300e7f40200bef00200bd800300e754020094cc0200b09c0300e64c02009cec0200ba980300e57402009cf0020001000080" ++
  hx "ba0500000000000000000000000000000000000000000000000000000000000000000000000000000000000000000000000000000000000000000000" ++
  hx "000000000000000000000000000000000000000000000000000000000000000000000000000000000000000000000000000000000000000000000000" ++
  hx "000000000000000000000000000000000000000000000000000000000000000000000000000000000000000000000000000000000000000000000000" ++
  hx "000000000000000000000000000000000000000000000000000000000000000000000000000000000000000000000000000000000000000000000000" ++
  hx "000000000000000000000000000000000000000000000000000000000000000000000000000000000000000000000000000000000000000000000000" ++
  hx "000000000000000000000000000000000000000000000000000000000000000000000000000000000000000000000000000000000000000000000000" ++
  hx "000000000000000000000000000000000000000000000000000000000000000000000000000000000000000000000000000000000000000000000000" ++
  hx "000000000000000000000000000000000000000000000000000000000000000000000000000000000000000000000000000000000000000000000000" ++
  hx "000000000000000000000000000000000000000000000000000000000000000000000000000000000000000000000000000000000000000000000000" ++
  hx "000000000000000000000000000000000000000000000000000000000000000000000000000000000000000000000000000000000000000000000000" ++
  hx "000000000000000000000000000000000000000000000000000000000000000000000000000000000000000000000000000000000000000000000000" ++
  hx "000000000000000000000000000000000000000000000000000000000000000000000000000000000000000000000000000000000000000000000000" ++
  hx "000000000000000000000000000000000000000000000000000000000000000000000000000000000000000000000000000000000000000000000000" ++
  hx "000000000000000000000000000000000000000000000000000000000000000000000000000000000000000000000000000000000000000000000000" ++
  hx "000000000000000000000000000000000000000000000000000000000000000000000000000000000000000000000000000000000000000000000000" ++
  hx "000000000000000000000000000000000000000000000000000000000000000000000000000000000000000000000000000000000000000000000000" ++
  hx "0000000000000000000000000a0000000000000000000000f0d800000000000400000000000000000000006300000000000000080000000000000001" ++
  hx "000000000000002a01000000000000002a01000000000000002a01000000000000002a1400000000000000597533207469616e32206a693120636861" ++
  hx "6e673301000000000000002a01000000000000002a01000000000000002a".

(* the file as CSV rows and as written by the program; the trie is taken from the latter *)
Definition res_env (rows : list row) (bin : list N) (embedded : option dictionary) (gs : list (str * list str)) (nfkc : list (str * str)) : env :=
  Env (fun _ => None) (fun _ => []) unit_regex (fun s => match lookup s gs with Some l => l | None => map (fun c => [c]) s end) (fun _ => find nfkc)
    (map lower_char) (map raise_char) (fun _ s => s) unit_block
    (fun k => match k, embedded with IPADIC, Some d => Some (Ok d) | _, _ => None end)
    (fun p => if str_eqb p (lit "user.csv") then Some [1%N] else if str_eqb p (lit "user.bin") then Some bin
              else if str_eqb p (lit "./resources/ipadic_simple_userdic.bin") then Some bin else None)
    yada_keys (fun _ => Ok rows).
Definition res_build (rows : list row) (bin : list N) : build_env :=
  BuildEnv (res_env rows bin None [] []) (fun _ b => b) (fun b => b) (fun _ => Ok [])
    (fun ks => match load_user bin with Ok u => Some (uf_da u) | _ => None end)
    (Codecs (fun _ b => Some b) (fun _ b => Some b)) false.
(* the CSV file gives the bytes of the compiled file; the compiled file gives what the CSV file gives *)
Definition same_as_compiled (k : dictionary_kind) (rows : list row) (bin : list N) : Prop :=
  build_user_file (res_build rows bin) k (lit "user.csv") = Ok bin /\
  load_user_dictionary_from_bin (res_env rows bin None [] []) (lit "user.bin") = load_user_dictionary_from_csv (res_env rows bin None [] []) k (lit "user.csv") /\
  is_ok (load_user_dictionary_from_csv (res_env rows bin None [] []) k (lit "user.csv")) = true.
Example res_ipadic : same_as_compiled IPADIC ipadic_rows ipadic_bin.
Proof. vm_compute. repeat split. Qed.
Example res_unidic : same_as_compiled UniDic unidic_rows unidic_bin.
Proof. vm_compute. repeat split. Qed.
Example res_kodic : same_as_compiled KoDic kodic_rows kodic_bin.
Proof. vm_compute. repeat split. Qed.
Example res_cccedict : same_as_compiled CcCedict cccedict_rows cccedict_bin.
Proof. vm_compute. repeat split. Qed.

(* tokenizer.rs:2584-2942: a dictionary with all fields, a mixed one, a cost that is no number, and a row with too few fields *)
Example res_ipadic_detailed_userdic :
  is_ok (load_user_dictionary_from_csv (res_env
  [ fields "東京スカイツリー|1288|1288|-1000|名詞|固有名詞|一般|カスタム名詞|*|*|東京スカイツリー|トウキョウスカイツリー|トウキョウスカイツリー";
    fields "東武スカイツリーライン|1288|1288|-1000|名詞|固有名詞|一般|カスタム名詞|*|*|東武スカイツリーライン|トウブスカイツリーライン|トウブスカイツリーライン";
    fields "とうきょうスカイツリー駅|1288|1288|-1000|名詞|固有名詞|一般|カスタム名詞|*|*|とうきょうスカイツリー駅|トウキョウスカイツリーエキ|トウキョウスカイツリーエキ" ] [] None [] []) IPADIC (lit "user.csv")) = true.
Proof. vm_compute. reflexivity. Qed.
Example res_ipadic_mixed_userdic :
  is_ok (load_user_dictionary_from_csv (res_env
  [ fields "東京スカイツリー|1288|1288|-1000|名詞|固有名詞|一般|カスタム名詞|*|*|東京スカイツリー|トウキョウスカイツリー|トウキョウスカイツリー";
    fields "東武スカイツリーライン|カスタム名詞|トウブスカイツリーライン";
    fields "とうきょうスカイツリー駅|カスタム名詞|トウキョウスカイツリーエキ" ] [] None [] []) IPADIC (lit "user.csv")) = true.
Proof. vm_compute. reflexivity. Qed.
Example res_ipadic_userdic_invalid_word_cost :
  load_user_dictionary_from_csv (res_env
  [ fields "不正なコスト|1288|1288|hoge|名詞|固有名詞|一般|*|*|*|*|*|*" ] [] None [] []) IPADIC (lit "user.csv") = Err EDictionaryBuild.
Proof. vm_compute. reflexivity. Qed.
Example res_ipadic_userdic_insufficient_number_of_fields :
  load_user_dictionary_from_csv (res_env
  [ fields "項目不足|1288|1288|1234|名詞|固有名詞|一般|*|*|*|*|" ] [] None [] []) IPADIC (lit "user.csv") = Err EDictionaryBuild.
Proof. vm_compute. reflexivity. Qed.

(** ** An analyzer *)

Definition small_rows : list row :=
  [ fields "は|0|0|100|助詞|係助詞|*|*|*|*|は|ハ|ワ";
    fields "形態素|0|0|100|名詞|一般|*|*|*|*|形態素|ケイタイソ|ケイタイソ";
    fields "解析|0|0|100|名詞|サ変接続|*|*|*|*|解析|カイセキ|カイセキ";
    fields "エンジン|0|0|100|名詞|一般|*|*|*|*|エンジン|エンジン|エンジン";
    fields "です|0|0|100|助動詞|*|*|*|特殊・デス|基本形|です|デス|デス";
    fields "。|0|0|100|記号|句点|*|*|*|*|。|。|。";
    fields "ガロン|0|0|100|名詞|接尾|助数詞|*|*|*|ガロン|ガロン|ガロン";
    fields "の|0|0|100|助詞|連体化|*|*|*|*|の|ノ|ノ";
    fields "ガソリン|0|0|100|名詞|一般|*|*|*|*|ガソリン|ガソリン|ガソリン";
    fields "お釣り|0|0|100|名詞|一般|*|*|*|*|お釣り|オツリ|オツリ";
    fields "百|0|0|100|名詞|数|*|*|*|*|百|ヒャク|ヒャク";
    fields "三|0|0|100|名詞|数|*|*|*|*|三|サン|サン";
    fields "十|0|0|100|名詞|数|*|*|*|*|十|ジュウ|ジュー";
    fields "四|0|0|100|名詞|数|*|*|*|*|四|ヨン|ヨン";
    fields "円|0|0|100|名詞|接尾|助数詞|*|*|*|円|エン|エン";
    fields "ここ|0|0|100|名詞|代名詞|一般|*|*|*|ここ|ココ|ココ";
    fields "騒騒しい|0|0|100|形容詞|自立|*|*|形容詞・イ段|基本形|騒騒しい|ソウゾウシイ|ソーゾーシイ" ].
Definition small_chars : str := tx "DEFAULT 0 1 0
ALPHA 1 1 0
NUMERIC 1 1 0
0x0030..0x0039 NUMERIC
0x0041..0x005A ALPHA
0x0061..0x007A ALPHA
".
Definition small_unknown : str := tx "DEFAULT,0,0,20000,記号,一般,*,*,*,*,*
ALPHA,0,0,2000,名詞,一般,*,*,*,*,*
NUMERIC,0,0,2000,名詞,数,*,*,*,*,*
".
Definition small_matrix : str := tx "1 1
0 0 0
".
Definition small_build : build_env :=
  BuildEnv (Env (fun _ => None) (fun _ => []) unit_regex (fun _ => []) (fun _ s => s) (fun s => s) (fun s => s) (fun _ s => s) unit_block (fun _ => None)
      (fun p => if str_eqb p (lit "in/char.def") then Some small_chars else if str_eqb p (lit "in/unk.def") then Some small_unknown
                else if str_eqb p (lit "in/matrix.def") then Some small_matrix else if str_eqb p (lit "in/words.csv") then Some [1%N] else None)
      (fun _ => []) (fun _ => Ok small_rows))
    (fun _ b => b) (fun b => b) (fun _ => Ok [lit "words.csv"])
    (fun ks => Some (flat_map (fun kv => N.of_nat (length (fst kv)) :: fst kv ++ le_bytes 4 (snd kv)) ks))
    (Codecs (fun _ b => Some b) (fun _ b => Some b)) false.
(* the tries of this build: length, key and value of each entry *)
Fixpoint plain_keys (fuel : nat) (bs : list N) : list (list N * N) :=
  match fuel, bs with
  | S f, n :: r => let n := N.to_nat n in (firstn n r, le_value (firstn 4 (skipn n r))) :: plain_keys f (skipn (n + 4) r)
  | _, _ => []
  end.
Definition small_dictionary : res dictionary :=
  do files <- build_dictionary small_build IPADIC (lit "in");
  load_dictionary (Env (fun _ => None) (fun _ => []) unit_regex (fun _ => []) (fun _ s => s) (fun s => s) (fun s => s) (fun _ s => s) unit_block (fun _ => None)
    (fun p => lookup p (map (fun f => (lit "out/" ++ fst f, snd f)) files)) (fun bs => plain_keys 100 bs) (fun _ => Err EIo)) (lit "out").
Definition test_graphemes : list (str * list str) :=
  [ (tx "ﾘﾝﾃﾞﾗは形態素解析ｴﾝｼﾞﾝです。", [tx "ﾘ"; tx "ﾝ"; tx "ﾃﾞ"; tx "ﾗ"; tx "は"; tx "形"; tx "態"; tx "素"; tx "解"; tx "析"; tx "ｴ"; tx "ﾝ"; tx "ｼﾞ"; tx "ﾝ"; tx "で"; tx "す"; tx "。"]);
    (tx "１０㌎のｶﾞｿﾘﾝ", [tx "１"; tx "０"; tx "㌎"; tx "の"; tx "ｶﾞ"; tx "ｿ"; tx "ﾘ"; tx "ﾝ"]) ].
Definition test_nfkc : list (str * str) := [(tx "ﾘ", tx "リ"); (tx "ﾝ", tx "ン"); (tx "ﾃﾞ", tx "デ"); (tx "ﾗ", tx "ラ"); (tx "ｴ", tx "エ"); (tx "ｼﾞ", tx "ジ"); (tx "１", tx "1"); (tx "０", tx "0"); (tx "㌎", tx "ガロン"); (tx "ｶﾞ", tx "ガ"); (tx "ｿ", tx "ソ")].
Definition test_config : value := ob [("character_filters", VArr [ob [("kind", VStr (tx "unicode_normalize")); ("args", ob [("kind", VStr (tx "nfkc"))])]; ob [("kind", VStr (tx "japanese_iteration_mark")); ("args", ob [("normalize_kanji", VBool true); ("normalize_kana", VBool true)])]; ob [("kind", VStr (tx "mapping")); ("args", ob [("mapping", ob [("リンデラ", VStr (tx "Lindera"))])])]]); ("tokenizer", ob [("dictionary", ob [("kind", VStr (tx "ipadic"))]); ("mode", VStr (tx "normal"))]); ("token_filters", VArr [ob [("kind", VStr (tx "japanese_compound_word")); ("args", ob [("kind", VStr (tx "ipadic")); ("tags", VArr [VStr (tx "名詞,数"); VStr (tx "名詞,接尾,助数詞")])])]; ob [("kind", VStr (tx "japanese_stop_tags")); ("args", ob [("tags", VArr [VStr (tx "接続詞"); VStr (tx "助詞"); VStr (tx "助詞,格助詞"); VStr (tx "助詞,格助詞,一般"); VStr (tx "助詞,格助詞,引用"); VStr (tx "助詞,格助詞,連語"); VStr (tx "助詞,係助詞"); VStr (tx "助詞,副助詞"); VStr (tx "助詞,間投助詞"); VStr (tx "助詞,並立助詞"); VStr (tx "助詞,終助詞"); VStr (tx "助詞,副助詞／並立助詞／終助詞"); VStr (tx "助詞,連体化"); VStr (tx "助詞,副詞化"); VStr (tx "助詞,特殊"); VStr (tx "助動詞"); VStr (tx "記号"); VStr (tx "記号,一般"); VStr (tx "記号,読点"); VStr (tx "記号,句点"); VStr (tx "記号,空白"); VStr (tx "記号,括弧閉"); VStr (tx "その他,間投"); VStr (tx "フィラー"); VStr (tx "非言語音")])])]; ob [("kind", VStr (tx "japanese_katakana_stem")); ("args", ob [("min", VInt 3)])]])].
Definition test_env : env := res_env [] [] (match small_dictionary with Ok d => Some d | _ => None end) test_graphemes test_nfkc.
Definition analyzed (v : value) (text : string) (n : nat) : list (str * N * N * nat * nat * list str) :=
  match analyzer_from_config test_env v with
  | Ok d => match analyze (analyzer_of test_env d) (tx text) with
            | Some (Ok ts) => map (fun t => (ft_text t, ft_start t, ft_end t, ft_position t, ft_position_length t, ft_details t)) (firstn n ts)
            | _ => []
            end
  | _ => []
  end.

(* lindera-analyzer/src/analyzer.rs:354-717 *)
Example res_analyze :
  analyzed test_config "ﾘﾝﾃﾞﾗは形態素解析ｴﾝｼﾞﾝです。" 4 =
    [ (tx "Lindera", 0%N, 15%N, 0, 1, fields "UNK");
      (tx "形態素", 18%N, 27%N, 2, 1, fields "名詞|一般|*|*|*|*|形態素|ケイタイソ|ケイタイソ");
      (tx "解析", 27%N, 33%N, 3, 1, fields "名詞|サ変接続|*|*|*|*|解析|カイセキ|カイセキ");
      (tx "エンジン", 33%N, 48%N, 4, 1, fields "名詞|一般|*|*|*|*|エンジン|エンジン|エンジン") ] /\
  str_range (tx "ﾘﾝﾃﾞﾗは形態素解析ｴﾝｼﾞﾝです。") 0 15 = Ok (tx "ﾘﾝﾃﾞﾗ") /\
  analyzed test_config "１０㌎のｶﾞｿﾘﾝ" 3 =
    [ (tx "10", 0%N, 6%N, 0, 1, fields "UNK");
      (tx "ガロン", 6%N, 9%N, 1, 1, fields "名詞|接尾|助数詞|*|*|*|ガロン|ガロン|ガロン");
      (tx "ガソリン", 12%N, 27%N, 3, 1, fields "名詞|一般|*|*|*|*|ガソリン|ガソリン|ガソリン") ] /\
  str_range (tx "１０㌎のｶﾞｿﾘﾝ") 0 6 = Ok (tx "１０") /\
  str_range (tx "１０㌎のｶﾞｿﾘﾝ") 6 9 = Ok (tx "㌎") /\
  str_range (tx "１０㌎のｶﾞｿﾘﾝ") 12 27 = Ok (tx "ｶﾞｿﾘﾝ") /\
  analyzed test_config "お釣りは百三十四円です。" 2 =
    [ (tx "お釣り", 0%N, 9%N, 0, 1, fields "名詞|一般|*|*|*|*|お釣り|オツリ|オツリ");
      (tx "百三十四円", 12%N, 27%N, 2, 5, fields "複合語|*|*|*|*|*|*|*|*") ] /\
  analyzed test_config "ここは騒々しい" 2 =
    [ (tx "ここ", 0%N, 6%N, 0, 1, fields "名詞|代名詞|一般|*|*|*|ここ|ココ|ココ");
      (tx "騒騒しい", 9%N, 21%N, 2, 1, fields "形容詞|自立|*|*|形容詞・イ段|基本形|騒騒しい|ソウゾウシイ|ソーゾーシイ") ].
Proof. vm_compute. repeat split. Qed.

(* lindera/src/lib.rs:3026-3098 and 3103-3175: a good configuration, and one with a filter that does not exist *)
Example res_from_config :
  is_ok (analyzer_from_config test_env (ob [("character_filters", VArr [ob [("kind", VStr (tx "unicode_normalize")); ("args", ob [("kind", VStr (tx "nfkc"))])]; ob [("kind", VStr (tx "mapping")); ("args", ob [("mapping", ob [("リンデラ", VStr (tx "Lindera"))])])]]); ("tokenizer", ob [("dictionary", ob [("kind", VStr (tx "ipadic"))]); ("mode", VStr (tx "normal"))]); ("token_filters", VArr [ob [("kind", VStr (tx "japanese_stop_tags")); ("args", ob [("tags", VArr [VStr (tx "接続詞"); VStr (tx "助詞"); VStr (tx "助詞,格助詞"); VStr (tx "助詞,格助詞,一般"); VStr (tx "助詞,格助詞,引用"); VStr (tx "助詞,格助詞,連語"); VStr (tx "助詞,係助詞"); VStr (tx "助詞,副助詞"); VStr (tx "助詞,間投助詞"); VStr (tx "助詞,並立助詞"); VStr (tx "助詞,終助詞"); VStr (tx "助詞,副助詞／並立助詞／終助詞"); VStr (tx "助詞,連体化"); VStr (tx "助詞,副詞化"); VStr (tx "助詞,特殊"); VStr (tx "助動詞"); VStr (tx "記号"); VStr (tx "記号,一般"); VStr (tx "記号,読点"); VStr (tx "記号,句点"); VStr (tx "記号,空白"); VStr (tx "記号,括弧閉"); VStr (tx "その他,間投"); VStr (tx "フィラー"); VStr (tx "非言語音")])])]; ob [("kind", VStr (tx "japanese_katakana_stem")); ("args", ob [("min", VInt 3)])]])])) = true.
Proof. vm_compute. reflexivity. Qed.
Example res_from_wrong_config :
  analyzer_from_config test_env (ob [("character_filters", VArr [ob [("kind", VStr (tx "unicode_normalize")); ("args", ob [("kind", VStr (tx "nfkc"))])]; ob [("kind", VStr (tx "mapping")); ("args", ob [("mapping", ob [("リンデラ", VStr (tx "Lindera"))])])]]); ("tokenizer", ob [("dictionary", ob [("kind", VStr (tx "ipadic"))]); ("mode", VStr (tx "normal")); ("with_details", VBool false)]); ("token_filters", VArr [ob [("kind", VStr (tx "japanese_stop_tags")); ("args", ob [("tags", VArr [VStr (tx "接続詞"); VStr (tx "助詞"); VStr (tx "助詞,格助詞"); VStr (tx "助詞,格助詞,一般"); VStr (tx "助詞,格助詞,引用"); VStr (tx "助詞,格助詞,連語"); VStr (tx "助詞,係助詞"); VStr (tx "助詞,副助詞"); VStr (tx "助詞,間投助詞"); VStr (tx "助詞,並立助詞"); VStr (tx "助詞,終助詞"); VStr (tx "助詞,副助詞／並立助詞／終助詞"); VStr (tx "助詞,連体化"); VStr (tx "助詞,副詞化"); VStr (tx "助詞,特殊"); VStr (tx "助動詞"); VStr (tx "記号"); VStr (tx "記号,一般"); VStr (tx "記号,読点"); VStr (tx "記号,句点"); VStr (tx "記号,空白"); VStr (tx "記号,括弧閉"); VStr (tx "その他,間投"); VStr (tx "フィラー"); VStr (tx "非言語音")])])]; ob [("kind", VStr (tx "unexisting_filter")); ("args", ob [("min", VInt 3)])]])]) = Err EDeserialize.
Proof. vm_compute. reflexivity. Qed.

(* lindera-tokenizer/src/tokenizer.rs:329-364 *)
Example res_tokenizer_config :
  match ob [("dictionary", ob [("kind", VStr (tx "ipadic"))]); ("mode", VStr (tx "normal"))] with VObj fs => option_map (fun c => dc_kind (tc_dictionary c)) (ok_of (de_tokenizer_config fs)) = Some (Some IPADIC) | _ => False end /\
  match ob [("dictionary", ob [("kind", VStr (tx "ipadic"))]); ("mode", ob [("decompose", ob [("kanji_penalty_length_threshold", VInt 2); ("kanji_penalty_length_penalty", VInt 3000); ("other_penalty_length_threshold", VInt 7); ("other_penalty_length_penalty", VInt 1700)])])] with VObj fs => option_map (fun c => dc_kind (tc_dictionary c)) (ok_of (de_tokenizer_config fs)) = Some (Some IPADIC) | _ => False end.
Proof. vm_compute. repeat split. Qed.

(* resources/lindera_ipadic_conf.json, with the compiled user dictionary of the same directory *)
Example res_conf :
  is_ok (analyzer_from_config (res_env [] ipadic_bin (match small_dictionary with Ok d => Some d | _ => None end) [] []) (ob [("character_filters", VArr [ob [("kind", VStr (tx "unicode_normalize")); ("args", ob [("kind", VStr (tx "nfkc"))])]; ob [("kind", VStr (tx "japanese_iteration_mark")); ("args", ob [("normalize_kanji", VBool true); ("normalize_kana", VBool true)])]]); ("tokenizer", ob [("dictionary", ob [("kind", VStr (tx "ipadic"))]); ("user_dictionary", ob [("path", VStr (tx "./resources/ipadic_simple_userdic.bin"))]); ("mode", VStr (tx "normal"))]); ("token_filters", VArr [ob [("kind", VStr (tx "japanese_compound_word")); ("args", ob [("kind", VStr (tx "ipadic")); ("tags", VArr [VStr (tx "名詞,数")]); ("new_tag", VStr (tx "名詞,数"))])]; ob [("kind", VStr (tx "japanese_number")); ("args", ob [("tags", VArr [VStr (tx "名詞,数")])])]; ob [("kind", VStr (tx "japanese_stop_tags")); ("args", ob [("tags", VArr [VStr (tx "接続詞"); VStr (tx "助詞"); VStr (tx "助詞,格助詞"); VStr (tx "助詞,格助詞,一般"); VStr (tx "助詞,格助詞,引用"); VStr (tx "助詞,格助詞,連語"); VStr (tx "助詞,係助詞"); VStr (tx "助詞,副助詞"); VStr (tx "助詞,間投助詞"); VStr (tx "助詞,並立助詞"); VStr (tx "助詞,終助詞"); VStr (tx "助詞,副助詞／並立助詞／終助詞"); VStr (tx "助詞,連体化"); VStr (tx "助詞,副詞化"); VStr (tx "助詞,特殊"); VStr (tx "助動詞"); VStr (tx "記号"); VStr (tx "記号,一般"); VStr (tx "記号,読点"); VStr (tx "記号,句点"); VStr (tx "記号,空白"); VStr (tx "記号,括弧閉"); VStr (tx "その他,間投"); VStr (tx "フィラー"); VStr (tx "非言語音")])])]; ob [("kind", VStr (tx "japanese_katakana_stem")); ("args", ob [("min", VInt 3)])]])])) = true.
Proof. vm_compute. reflexivity. Qed.
