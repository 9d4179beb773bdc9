(** The unit tests of lindera-filter, word_entry.rs and character_definition.rs, transcribed: the model passes the tests of the
    repository.  Left out are the tests of the kana filter (all done by kanaria) and those that need a real dictionary. *)
From Coq Require Import String Ascii.
From Coq Require Import List NArith ZArith Bool.
From Verif Require Import MBase MUtf8 MText MCodec MDict MCharDef MUnk MTokenizer MDetails MBuild MCharFilter MAnalyzer MTokenFilter MConfig.
Import ListNotations.
Local Open Scope string_scope.
Local Open Scope list_scope.

(* a text from a literal, whose characters are the bytes of the file *)
Definition tx (s : string) : str := match utf8_decode (lit s) with Some t => t | None => [] end.
Fixpoint pair_up (l : list char) : list (char * char) := match l with a :: b :: r => (a, b) :: pair_up r | _ => [] end.
Definition pairs (s : string) : list (char * char) := pair_up (tx s).
Fixpoint split_bar (s : str) (cur : str) : list str :=
  match s with [] => [rev cur] | c :: r => if (c =? 124)%N then rev cur :: split_bar r [] else split_bar r (c :: cur) end.
Definition fields (s : string) : list str := split_bar (tx s) [].
Definition tk (text : string) (a b : N) (p pl : nat) (id : N) (sys : bool) (details : string) : ftoken :=
  FToken (tx text) a b p pl (WordId id sys) (fields details).
Definition ob (l : list (string * value)) : value := VObj (map (fun kv => (tx (fst kv), snd kv)) l).

(* the other crates, for the texts of the tests *)
Definition find (l : list (str * str)) (s : str) : str := match lookup s l with Some t => t | None => s end.
Definition unit_graphemes (s : str) : list str := match lookup s [(tx "ﾘﾝﾃﾞﾗ", [tx "ﾘ"; tx "ﾝ"; tx "ﾃﾞ"; tx "ﾗ"])] with Some l => l | None => map (fun c => [c]) s end.
Definition unit_form (k : normal_form) : str -> str :=
  find (match k with NFC => [] | NFD => []
    | NFKC => [(tx "Ａ", tx "A"); (tx "Ｂ", tx "B"); (tx "Ｃ", tx "C"); (tx "Ｄ", tx "D"); (tx "Ｅ", tx "E"); (tx "ｱ", tx "ア"); (tx "ｲ", tx "イ"); (tx "ｳ", tx "ウ"); (tx "ｴ", tx "エ"); (tx "ｵ", tx "オ"); (tx "０", tx "0"); (tx "１", tx "1"); (tx "２", tx "2"); (tx "３", tx "3"); (tx "４", tx "4"); (tx "５", tx "5"); (tx "６", tx "6"); (tx "７", tx "7"); (tx "８", tx "8"); (tx "９", tx "9"); (tx "ﾘ", tx "リ"); (tx "ﾝ", tx "ン"); (tx "ﾃﾞ", tx "デ"); (tx "ﾗ", tx "ラ"); (tx "㌎", tx "ガロン")]
    | NFKD => [(tx "Ａ", tx "A"); (tx "Ｂ", tx "B"); (tx "Ｃ", tx "C"); (tx "Ｄ", tx "D"); (tx "Ｅ", tx "E"); (tx "ｱ", tx "ア"); (tx "ｲ", tx "イ"); (tx "ｳ", tx "ウ"); (tx "ｴ", tx "エ"); (tx "ｵ", tx "オ"); (tx "０", tx "0"); (tx "１", tx "1"); (tx "２", tx "2"); (tx "３", tx "3"); (tx "４", tx "4"); (tx "５", tx "5"); (tx "６", tx "6"); (tx "７", tx "7"); (tx "８", tx "8"); (tx "９", tx "9"); (tx "ﾘ", tx "リ"); (tx "ﾝ", tx "ン"); (tx "ﾃﾞ", tx "デ"); (tx "ﾗ", tx "ラ"); (tx "㌎", tx "ガロン")] end).
Definition lower_char (c : char) : char := if ((65 <=? c) && (c <=? 90))%N then (c + 32)%N else c.
Definition raise_char (c : char) : char := if ((97 <=? c) && (c <=? 122))%N then (c - 32)%N else c.
(* the matches of the two patterns of the tests in their texts *)
Definition unit_regex (p : str) : option regex :=
  Some (Regex (fun t => match lookup t [(tx "リンデラは形態素解析器です。", [(0, 12)]); (tx "a     b     c", [(1, 6); (7, 12)])] with Some l => l | None => [] end) (fun _ _ r => r)).
Definition unit_block (c : char) : option block :=
  if ((0x30A0 <=? c) && (c <=? 0x30FF))%N then Some KATAKANA else Some (0, 0)%N.
Definition unit_env : env :=
  Env (fun _ => None) (fun _ => []) unit_regex unit_graphemes unit_form (map lower_char) (map raise_char) (fun _ s => s) unit_block
    (fun _ => None) (fun _ => None) (fun _ => []) (fun _ => Err EIo).

Definition is_ok {A} (r : res A) : bool := match r with Ok _ => true | _ => false end.
Definition ok_of {A} (r : res A) : option A := match r with Ok x => Some x | _ => None end.
Definition run (kind : string) (v : value) (ts : list ftoken) : list ftoken :=
  match load_token_filter (lit kind) v with Ok f => match run_token_filter unit_env f ts with Ok r => r | _ => [] end | _ => [] end.
Definition text_at (ts : list ftoken) (i : nat) : str := match nth_error ts i with Some t => ft_text t | None => [] end.
Definition filtered (kind : string) (v : value) (text : string) : option (res filter_result) :=
  match load_char_filter unit_env (lit kind) v with Ok f => run_char_filter unit_env f (tx text) | _ => None end.
Definition strings_of (r : res token_filter_def) : option (list str) :=
  match r with
  | Ok (TFKeepTags l) | Ok (TFStopTags l) | Ok (TFKeepWords l) | Ok (TFStopWords l) | Ok (TFKoreanKeepTags l) | Ok (TFKoreanStopTags l) => Some l
  | Ok (TFCompound c) => Some (cc_tags c)
  | _ => None
  end.
Definition min_of (r : res token_filter_def) : option N := match r with Ok (TFLength a _) => a | _ => None end.
Definition max_of (r : res token_filter_def) : option N := match r with Ok (TFLength _ b) => b | _ => None end.

(* lindera-core/src/word_entry.rs:63-80 *)
Example ut_word_entry :
  let e := WordEntry (WordId 1 true) (-17) 1411 1412 in
  length (we_serialize e) = 10 /\ we_deserialize (we_serialize e) true = Ok e.
Proof. vm_compute. repeat split. Qed.

(* lindera-core/src/character_definition.rs:249-266 *)
Example ut_lookup_table :
  let funct := fun c => if (10 <=? c)%N then [1] else [0] in
  forallb (fun i => match lt_eval (lt_from_fn [0; 10]%N funct) (N.of_nat i) with Ok l => if list_eq_dec Nat.eq_dec l (funct (N.of_nat i)) then true else false | _ => false end)
    (seq 0 100) = true.
Proof. vm_compute. reflexivity. Qed.

(* character_filter.rs:147-183 *)
Example ut_correct_offset :
  let co := fun x => correct_offset x [2; 3; 7; 10; 11; 12]%N [-1; -2; -3; -4; -5; -6]%Z 13 in
  co 1%N = Ok 1%N /\ co 4%N = Ok 2%N /\ co 9%N = Ok 6%N /\ co 13%N = Ok 7%N /\ co 0%N = Ok 0%N.
Proof. vm_compute. repeat split. Qed.

(* token_filter/japanese_base_form.rs:106-115 *)
Example ut_japanese_base_form_token_filter_config_from_slice_ipadic :
  load_token_filter (lit "japanese_base_form") (ob [("kind", VStr (tx "ipadic"))]) = Ok (TFBaseForm IPADIC).
Proof. vm_compute. repeat split. Qed.

(* token_filter/japanese_base_form.rs:119-128 *)
Example ut_japanese_base_form_token_filter_config_from_slice_unidic :
  load_token_filter (lit "japanese_base_form") (ob [("kind", VStr (tx "unidic"))]) = Ok (TFBaseForm UniDic).
Proof. vm_compute. repeat split. Qed.

(* token_filter/japanese_base_form.rs:132-141 *)
Example ut_japanese_base_form_token_filter_from_slice_ipadic :
  is_ok (load_token_filter (lit "japanese_base_form") (ob [("kind", VStr (tx "ipadic"))])) = true.
Proof. vm_compute. repeat split. Qed.

(* token_filter/japanese_base_form.rs:145-154 *)
Example ut_japanese_base_form_token_filter_from_slice_unidic :
  is_ok (load_token_filter (lit "japanese_base_form") (ob [("kind", VStr (tx "unidic"))])) = true.
Proof. vm_compute. repeat split. Qed.

(* token_filter/japanese_base_form.rs:158-252 *)
Example ut_japanese_base_form_token_filter_apply_ipadic :
  (let toks := run "japanese_base_form" (ob [("kind", VStr (tx "ipadic"))])
    [ tk "羽田空港" 0 12 0 1 321702 true "名詞|固有名詞|一般|*|*|*|羽田空港|ハネダクウコウ|ハネダクーコー";
      tk "に" 12 15 1 1 53041 true "助詞|格助詞|一般|*|*|*|に|ニ|ニ";
      tk "あり" 15 21 2 1 3222 true "動詞|自立|*|*|五段・ラ行|基本形|ある|アリ|アリ";
      tk "ます" 21 27 3 1 68730 true "助動詞|*|*|*|特殊・マス|基本形|ます|マス|マス" ] in
   length (toks) = 4 /\ text_at toks 0 = tx "羽田空港" /\ text_at toks 1 = tx "に" /\ text_at toks 2 = tx "ある" /\ text_at toks 3 = tx "ます").
Proof. vm_compute. repeat split. Qed.

(* token_filter/japanese_base_form.rs:256-410 *)
Example ut_japanese_base_form_token_filter_apply_unidic :
  (let toks := run "japanese_base_form" (ob [("kind", VStr (tx "unidic"))])
    [ tk "羽田" 0 6 0 1 618177 true "名詞|固有名詞|人名|姓|*|*|ハタ|ハタ|羽田|ハタ|羽田|ハタ|固|*|*|*|*";
      tk "空港" 6 12 1 1 587348 true "名詞|普通名詞|一般|*|*|*|クウコウ|空港|空港|クーコー|空港|クーコー|漢|*|*|*|*";
      tk "に" 12 15 2 1 106480 true "助詞|格助詞|*|*|*|*|ニ|に|に|ニ|に|ニ|和|*|*|*|*";
      tk "あり" 15 21 3 1 6075 true "動詞|非自立可能|*|*|五段-ラ行|連用形-一般|アル|有る|あり|アリ|ある|アル|和|*|*|*|*";
      tk "ます" 21 27 4 1 140895 true "助動詞|*|*|*|助動詞-マス|終止形-一般|マス|ます|ます|マス|ます|マス|和|*|*|*|*" ] in
   length (toks) = 5 /\ text_at toks 0 = tx "羽田" /\ text_at toks 1 = tx "空港" /\ text_at toks 2 = tx "に" /\ text_at toks 3 = tx "ある" /\ text_at toks 4 = tx "ます").
Proof. vm_compute. repeat split. Qed.

(* token_filter/japanese_compound_word.rs:202-217 *)
Example ut_japanese_compound_word_token_filter_config_from_slice_ipadic :
  option_map (@length str) (strings_of (load_token_filter (lit "japanese_compound_word") (ob [("kind", VStr (tx "ipadic")); ("tags", VArr [VStr (tx "名詞,数"); VStr (tx "名詞,接尾,助数詞")]); ("new_tag", VStr (tx "複合語"))]))) = Some 2.
Proof. vm_compute. repeat split. Qed.

(* token_filter/japanese_compound_word.rs:221-235 *)
Example ut_japanese_compound_word_token_filter_from_slice_ipadic :
  is_ok (load_token_filter (lit "japanese_compound_word") (ob [("kind", VStr (tx "ipadic")); ("tags", VArr [VStr (tx "名詞,数"); VStr (tx "名詞,接尾,助数詞")]); ("new_tag", VStr (tx "複合語"))])) = true.
Proof. vm_compute. repeat split. Qed.

(* token_filter/japanese_compound_word.rs:239-418 *)
Example ut_japanese_compound_word_token_filter_apply_ipadic :
  (let toks := run "japanese_compound_word" (ob [("kind", VStr (tx "ipadic")); ("tags", VArr [VStr (tx "名詞,数"); VStr (tx "名詞,接尾,助数詞")]); ("new_tag", VStr (tx "複合語"))])
    [ tk "１" 0 3 0 1 391174 true "名詞|数|*|*|*|*|１|イチ|イチ";
      tk "０" 3 6 1 1 391171 true "名詞|数|*|*|*|*|０|ゼロ|ゼロ";
      tk "０" 6 9 2 1 391171 true "名詞|数|*|*|*|*|０|ゼロ|ゼロ";
      tk "円" 9 12 3 1 137904 true "名詞|接尾|助数詞|*|*|*|円|エン|エン";
      tk "玉" 12 15 4 1 287427 true "名詞|接尾|一般|*|*|*|玉|ダマ|ダマ";
      tk "を" 15 18 5 1 80582 true "名詞|接尾|一般|*|*|*|玉|ダマ|ダマ";
      tk "拾う" 18 24 6 1 228047 true "動詞|自立|*|*|五段・ワ行促音便|基本形|拾う|ヒロウ|ヒロウ" ] in
   length (toks) = 4 /\ text_at toks 0 = tx "１００円" /\ option_map ft_start (nth_error toks 0) = Some 0%N /\ option_map ft_end (nth_error toks 0) = Some 12%N /\ option_map ft_position (nth_error toks 0) = Some 0 /\ option_map ft_position_length (nth_error toks 0) = Some 4 /\ text_at toks 1 = tx "玉" /\ option_map ft_start (nth_error toks 1) = Some 12%N /\ option_map ft_end (nth_error toks 1) = Some 15%N /\ option_map ft_position (nth_error toks 1) = Some 4 /\ option_map ft_position_length (nth_error toks 1) = Some 1 /\ text_at toks 2 = tx "を" /\ option_map ft_start (nth_error toks 2) = Some 15%N /\ option_map ft_end (nth_error toks 2) = Some 18%N /\ option_map ft_position (nth_error toks 2) = Some 5 /\ option_map ft_position_length (nth_error toks 2) = Some 1 /\ text_at toks 3 = tx "拾う" /\ option_map ft_start (nth_error toks 3) = Some 18%N /\ option_map ft_end (nth_error toks 3) = Some 24%N /\ option_map ft_position (nth_error toks 3) = Some 6 /\ option_map ft_position_length (nth_error toks 3) = Some 1 /\ option_map ft_details (nth_error toks 0) = Some (fields "複合語|*|*|*|*|*|*|*|*")).
Proof. vm_compute. repeat split. Qed.

(* token_filter/japanese_kana.rs:95-104 *)
Example ut_japanese_kana_token_filter_config_from_slice_hiragana :
  load_token_filter (lit "japanese_kana") (ob [("kind", VStr (tx "hiragana"))]) = Ok (TFKana Hiragana).
Proof. vm_compute. repeat split. Qed.

(* token_filter/japanese_kana.rs:107-116 *)
Example ut_japanese_kana_token_filter_config_from_slice_katakana :
  load_token_filter (lit "japanese_kana") (ob [("kind", VStr (tx "katakana"))]) = Ok (TFKana Katakana).
Proof. vm_compute. repeat split. Qed.

(* token_filter/japanese_kana.rs:119-128 *)
Example ut_japanese_kana_token_filter_from_slice_hiragana :
  is_ok (load_token_filter (lit "japanese_kana") (ob [("kind", VStr (tx "hiragana"))])) = true.
Proof. vm_compute. repeat split. Qed.

(* token_filter/japanese_kana.rs:131-140 *)
Example ut_japanese_kana_token_filter_from_slice_katakana :
  is_ok (load_token_filter (lit "japanese_kana") (ob [("kind", VStr (tx "katakana"))])) = true.
Proof. vm_compute. repeat split. Qed.

(* token_filter/japanese_katakana_stem.rs:121-131 *)
Example ut_japanese_katakana_stem_token_filter_config_from_slice_ipadic :
  load_token_filter (lit "japanese_katakana_stem") (ob [("min", VInt 1)]) = Ok (TFStem 1).
Proof. vm_compute. repeat split. Qed.

(* token_filter/japanese_katakana_stem.rs:135-144 *)
Example ut_japanese_katakana_stem_token_filter_config_from_slice_zero_ipadic :
  is_ok (load_token_filter (lit "japanese_katakana_stem") (ob [("min", VInt 0)])) = false.
Proof. vm_compute. repeat split. Qed.

(* token_filter/japanese_katakana_stem.rs:148-157 *)
Example ut_japanese_katakana_stem_token_filter_from_slice_ipadic :
  is_ok (load_token_filter (lit "japanese_katakana_stem") (ob [("min", VInt 1)])) = true.
Proof. vm_compute. repeat split. Qed.

(* token_filter/japanese_katakana_stem.rs:161-170 *)
Example ut_japanese_katakana_stem_token_filter_from_slice_zero_ipadic :
  is_ok (load_token_filter (lit "japanese_katakana_stem") (ob [("min", VInt 0)])) = false.
Proof. vm_compute. repeat split. Qed.

(* token_filter/japanese_katakana_stem.rs:174-228 *)
Example ut_japanese_katakana_stem_token_filter_apply_ipadic :
  (let toks := run "japanese_katakana_stem" (ob [("min", VInt 3)])
    [ tk "バター" 0 9 0 1 94843 true "名詞|一般|*|*|*|*|バター|バター|バター";
      tk "メーカー" 9 21 1 1 100137 true "名詞|一般|*|*|*|*|バター|バター|バター" ] in
   length (toks) = 2 /\ text_at toks 0 = tx "バター" /\ text_at toks 1 = tx "メーカ").
Proof. vm_compute. repeat split. Qed.

(* token_filter/japanese_keep_tags.rs:118-167 *)
Example ut_japanese_keep_tags_token_filter_config_from_slice_ipadic :
  option_map (@length str) (strings_of (load_token_filter (lit "japanese_keep_tags") (ob [("tags", VArr [VStr (tx "名詞"); VStr (tx "名詞,一般"); VStr (tx "名詞,固有名詞"); VStr (tx "名詞,固有名詞,一般"); VStr (tx "名詞,固有名詞,人名"); VStr (tx "名詞,固有名詞,人名,一般"); VStr (tx "名詞,固有名詞,人名,姓"); VStr (tx "名詞,固有名詞,人名,名"); VStr (tx "名詞,固有名詞,組織"); VStr (tx "名詞,固有名詞,地域"); VStr (tx "名詞,固有名詞,地域,一般"); VStr (tx "名詞,固有名詞,地域,国"); VStr (tx "名詞,代名詞"); VStr (tx "名詞,代名詞,一般"); VStr (tx "名詞,代名詞,縮約"); VStr (tx "名詞,副詞可能"); VStr (tx "名詞,サ変接続"); VStr (tx "名詞,形容動詞語幹"); VStr (tx "名詞,数"); VStr (tx "名詞,非自立"); VStr (tx "名詞,非自立,一般"); VStr (tx "名詞,非自立,副詞可能"); VStr (tx "名詞,非自立,助動詞語幹"); VStr (tx "名詞,非自立,形容動詞語幹"); VStr (tx "名詞,特殊"); VStr (tx "名詞,特殊,助動詞語幹"); VStr (tx "名詞,接尾"); VStr (tx "名詞,接尾,一般"); VStr (tx "名詞,接尾,人名"); VStr (tx "名詞,接尾,地域"); VStr (tx "名詞,接尾,サ変接続"); VStr (tx "名詞,接尾,助動詞語幹"); VStr (tx "名詞,接尾,形容動詞語幹"); VStr (tx "名詞,接尾,副詞可能"); VStr (tx "名詞,接尾,助数詞"); VStr (tx "名詞,接続詞的"); VStr (tx "名詞,動詞非自立的"); VStr (tx "名詞,引用文字列"); VStr (tx "名詞,ナイ形容詞語幹")])]))) = Some 39.
Proof. vm_compute. repeat split. Qed.

(* token_filter/japanese_keep_tags.rs:171-220 *)
Example ut_japanese_keep_tags_token_filter_from_slice_ipadic :
  is_ok (load_token_filter (lit "japanese_keep_tags") (ob [("tags", VArr [VStr (tx "名詞"); VStr (tx "名詞,一般"); VStr (tx "名詞,固有名詞"); VStr (tx "名詞,固有名詞,一般"); VStr (tx "名詞,固有名詞,人名"); VStr (tx "名詞,固有名詞,人名,一般"); VStr (tx "名詞,固有名詞,人名,姓"); VStr (tx "名詞,固有名詞,人名,名"); VStr (tx "名詞,固有名詞,組織"); VStr (tx "名詞,固有名詞,地域"); VStr (tx "名詞,固有名詞,地域,一般"); VStr (tx "名詞,固有名詞,地域,国"); VStr (tx "名詞,代名詞"); VStr (tx "名詞,代名詞,一般"); VStr (tx "名詞,代名詞,縮約"); VStr (tx "名詞,副詞可能"); VStr (tx "名詞,サ変接続"); VStr (tx "名詞,形容動詞語幹"); VStr (tx "名詞,数"); VStr (tx "名詞,非自立"); VStr (tx "名詞,非自立,一般"); VStr (tx "名詞,非自立,副詞可能"); VStr (tx "名詞,非自立,助動詞語幹"); VStr (tx "名詞,非自立,形容動詞語幹"); VStr (tx "名詞,特殊"); VStr (tx "名詞,特殊,助動詞語幹"); VStr (tx "名詞,接尾"); VStr (tx "名詞,接尾,一般"); VStr (tx "名詞,接尾,人名"); VStr (tx "名詞,接尾,地域"); VStr (tx "名詞,接尾,サ変接続"); VStr (tx "名詞,接尾,助動詞語幹"); VStr (tx "名詞,接尾,形容動詞語幹"); VStr (tx "名詞,接尾,副詞可能"); VStr (tx "名詞,接尾,助数詞"); VStr (tx "名詞,接続詞的"); VStr (tx "名詞,動詞非自立的"); VStr (tx "名詞,引用文字列"); VStr (tx "名詞,ナイ形容詞語幹")])])) = true.
Proof. vm_compute. repeat split. Qed.

(* token_filter/japanese_keep_tags.rs:224-415 *)
Example ut_japanese_keep_tags_token_filter_apply_ipadic :
  (let toks := run "japanese_keep_tags" (ob [("tags", VArr [VStr (tx "名詞"); VStr (tx "名詞,一般"); VStr (tx "名詞,固有名詞"); VStr (tx "名詞,固有名詞,一般"); VStr (tx "名詞,固有名詞,人名"); VStr (tx "名詞,固有名詞,人名,一般"); VStr (tx "名詞,固有名詞,人名,姓"); VStr (tx "名詞,固有名詞,人名,名"); VStr (tx "名詞,固有名詞,組織"); VStr (tx "名詞,固有名詞,地域"); VStr (tx "名詞,固有名詞,地域,一般"); VStr (tx "名詞,固有名詞,地域,国"); VStr (tx "名詞,代名詞"); VStr (tx "名詞,代名詞,一般"); VStr (tx "名詞,代名詞,縮約"); VStr (tx "名詞,副詞可能"); VStr (tx "名詞,サ変接続"); VStr (tx "名詞,形容動詞語幹"); VStr (tx "名詞,数"); VStr (tx "名詞,非自立"); VStr (tx "名詞,非自立,一般"); VStr (tx "名詞,非自立,副詞可能"); VStr (tx "名詞,非自立,助動詞語幹"); VStr (tx "名詞,非自立,形容動詞語幹"); VStr (tx "名詞,特殊"); VStr (tx "名詞,特殊,助動詞語幹"); VStr (tx "名詞,接尾"); VStr (tx "名詞,接尾,一般"); VStr (tx "名詞,接尾,人名"); VStr (tx "名詞,接尾,地域"); VStr (tx "名詞,接尾,サ変接続"); VStr (tx "名詞,接尾,助動詞語幹"); VStr (tx "名詞,接尾,形容動詞語幹"); VStr (tx "名詞,接尾,副詞可能"); VStr (tx "名詞,接尾,助数詞"); VStr (tx "名詞,接続詞的"); VStr (tx "名詞,動詞非自立的"); VStr (tx "名詞,引用文字列"); VStr (tx "名詞,ナイ形容詞語幹")])])
    [ tk "すもも" 0 9 0 1 36165 true "名詞|一般|*|*|*|*|すもも|スモモ|スモモ";
      tk "も" 9 12 1 1 73246 true "助詞|係助詞|*|*|*|*|も|モ|モ";
      tk "もも" 12 18 2 1 74990 true "名詞|一般|*|*|*|*|もも|モモ|モモ";
      tk "も" 18 21 3 1 73246 true "助詞|係助詞|*|*|*|*|も|モ|モ";
      tk "もも" 21 27 4 1 74990 true "名詞|一般|*|*|*|*|もも|モモ|モモ";
      tk "の" 27 30 5 1 55831 true "助詞|連体化|*|*|*|*|の|ノ|ノ";
      tk "うち" 30 36 6 1 8029 true "名詞|非自立|副詞可能|*|*|*|うち|ウチ|ウチ" ] in
   length (toks) = 4 /\ text_at toks 0 = tx "すもも" /\ text_at toks 1 = tx "もも" /\ text_at toks 2 = tx "もも" /\ text_at toks 3 = tx "うち").
Proof. vm_compute. repeat split. Qed.

(* token_filter/japanese_number.rs:309-844 *)
Example ut_to_number_str_ipadic :
  to_arabic_numerals (tx "０") = Ok (tx "0") /\
  to_arabic_numerals (tx "〇") = Ok (tx "0") /\
  to_arabic_numerals (tx "零") = Ok (tx "0") /\
  to_arabic_numerals (tx "１") = Ok (tx "1") /\
  to_arabic_numerals (tx "一") = Ok (tx "1") /\
  to_arabic_numerals (tx "壱") = Ok (tx "1") /\
  to_arabic_numerals (tx "２") = Ok (tx "2") /\
  to_arabic_numerals (tx "二") = Ok (tx "2") /\
  to_arabic_numerals (tx "弐") = Ok (tx "2") /\
  to_arabic_numerals (tx "３") = Ok (tx "3") /\
  to_arabic_numerals (tx "三") = Ok (tx "3") /\
  to_arabic_numerals (tx "参") = Ok (tx "3") /\
  to_arabic_numerals (tx "４") = Ok (tx "4") /\
  to_arabic_numerals (tx "四") = Ok (tx "4") /\
  to_arabic_numerals (tx "５") = Ok (tx "5") /\
  to_arabic_numerals (tx "五") = Ok (tx "5") /\
  to_arabic_numerals (tx "６") = Ok (tx "6") /\
  to_arabic_numerals (tx "六") = Ok (tx "6") /\
  to_arabic_numerals (tx "７") = Ok (tx "7") /\
  to_arabic_numerals (tx "七") = Ok (tx "7") /\
  to_arabic_numerals (tx "８") = Ok (tx "8") /\
  to_arabic_numerals (tx "八") = Ok (tx "8") /\
  to_arabic_numerals (tx "９") = Ok (tx "9") /\
  to_arabic_numerals (tx "九") = Ok (tx "9") /\
  to_arabic_numerals (tx "十") = Ok (tx "10") /\
  to_arabic_numerals (tx "拾") = Ok (tx "10") /\
  to_arabic_numerals (tx "百") = Ok (tx "100") /\
  to_arabic_numerals (tx "千") = Ok (tx "1000") /\
  to_arabic_numerals (tx "万") = Ok (tx "10000") /\
  to_arabic_numerals (tx "億") = Ok (tx "100000000") /\
  to_arabic_numerals (tx "兆") = Ok (tx "1000000000000") /\
  to_arabic_numerals (tx "京") = Ok (tx "10000000000000000") /\
  to_arabic_numerals (tx "垓") = Ok (tx "100000000000000000000") /\
  to_arabic_numerals (tx "百一") = Ok (tx "101") /\
  to_arabic_numerals (tx "百十") = Ok (tx "110") /\
  to_arabic_numerals (tx "千百十") = Ok (tx "1110") /\
  to_arabic_numerals (tx "万千百十") = Ok (tx "11110") /\
  to_arabic_numerals (tx "十万千百十") = Ok (tx "101110") /\
  to_arabic_numerals (tx "千十") = Ok (tx "1010") /\
  to_arabic_numerals (tx "十二") = Ok (tx "12") /\
  to_arabic_numerals (tx "一十二") = Ok (tx "12") /\
  to_arabic_numerals (tx "百二十三") = Ok (tx "123") /\
  to_arabic_numerals (tx "一百二十三") = Ok (tx "123") /\
  to_arabic_numerals (tx "千二百三十四") = Ok (tx "1234") /\
  to_arabic_numerals (tx "一千二百三十四") = Ok (tx "1234") /\
  to_arabic_numerals (tx "万二千三百四十五") = Ok (tx "12345") /\
  to_arabic_numerals (tx "一万二千三百四十五") = Ok (tx "12345") /\
  to_arabic_numerals (tx "十二万三千四百五十六") = Ok (tx "123456") /\
  to_arabic_numerals (tx "一十二万三千四百五十六") = Ok (tx "123456") /\
  to_arabic_numerals (tx "百二十三万四千五百六十七") = Ok (tx "1234567") /\
  to_arabic_numerals (tx "一百二十三万四千五百六十七") = Ok (tx "1234567") /\
  to_arabic_numerals (tx "千二百三十四万五千六百七十八") = Ok (tx "12345678") /\
  to_arabic_numerals (tx "一千二百三十四万五千六百七十八") = Ok (tx "12345678") /\
  to_arabic_numerals (tx "億二千三百四十五万六千七百八十九") = Ok (tx "123456789") /\
  to_arabic_numerals (tx "一億二千三百四十五万六千七百八十九") = Ok (tx "123456789") /\
  to_arabic_numerals (tx "十二億三千四百五十六万七千八百九十") = Ok (tx "1234567890") /\
  to_arabic_numerals (tx "一十二億三千四百五十六万七千八百九十") = Ok (tx "1234567890") /\
  to_arabic_numerals (tx "百二十三億四千五百六十七万八千九百一") = Ok (tx "12345678901") /\
  to_arabic_numerals (tx "一百二十三億四千五百六十七万八千九百一") = Ok (tx "12345678901") /\
  to_arabic_numerals (tx "千二百三十四億五千六百七十八万九千十二") = Ok (tx "123456789012") /\
  to_arabic_numerals (tx "一千二百三十四億五千六百七十八万九千十二") = Ok (tx "123456789012") /\
  to_arabic_numerals (tx "兆二千三百四十五億六千七百八十九万百二十三") = Ok (tx "1234567890123") /\
  to_arabic_numerals (tx "一兆二千三百四十五億六千七百八十九万百二十三") = Ok (tx "1234567890123") /\
  to_arabic_numerals (tx "十二兆三千四百五十六億七千八百九十万千二百三十四") = Ok (tx "12345678901234") /\
  to_arabic_numerals (tx "一十二兆三千四百五十六億七千八百九十万千二百三十四") = Ok (tx "12345678901234") /\
  to_arabic_numerals (tx "百二十三兆四千五百六十七億八千九百一万二千三百四十五") = Ok (tx "123456789012345") /\
  to_arabic_numerals (tx "一百二十三兆四千五百六十七億八千九百一万二千三百四十五") = Ok (tx "123456789012345") /\
  to_arabic_numerals (tx "千二百三十四兆五千六百七十八億九千十二万三千四百五十六") = Ok (tx "1234567890123456") /\
  to_arabic_numerals (tx "一千二百三十四兆五千六百七十八億九千十二万三千四百五十六") = Ok (tx "1234567890123456") /\
  to_arabic_numerals (tx "京二千三百四十五兆六千七百八十九億百二十三万四千五百六十七") = Ok (tx "12345678901234567") /\
  to_arabic_numerals (tx "一京二千三百四十五兆六千七百八十九億百二十三万四千五百六十七") = Ok (tx "12345678901234567") /\
  to_arabic_numerals (tx "十二京三千四百五十六兆七千八百九十億千二百三十四万五千六百七十八") = Ok (tx "123456789012345678") /\
  to_arabic_numerals (tx "一十二京三千四百五十六兆七千八百九十億千二百三十四万五千六百七十八") = Ok (tx "123456789012345678") /\
  to_arabic_numerals (tx "百二十三京四千五百六十七兆八千九百一億二千三百四十五万六千七百八十九") = Ok (tx "1234567890123456789") /\
  to_arabic_numerals (tx "一百二十三京四千五百六十七兆八千九百一億二千三百四十五万六千七百八十九") = Ok (tx "1234567890123456789") /\
  to_arabic_numerals (tx "千二百三十四京五千六百七十八兆九千十二億三千四百五十六万七千八百九十") = Ok (tx "12345678901234567890") /\
  to_arabic_numerals (tx "一千二百三十四京五千六百七十八兆九千十二億三千四百五十六万七千八百九十") = Ok (tx "12345678901234567890") /\
  to_arabic_numerals (tx "垓二千三百四十五京六千七百八十九兆百二十三億四千五百六十七万八千九百一") = Ok (tx "123456789012345678901") /\
  to_arabic_numerals (tx "一垓二千三百四十五京六千七百八十九兆百二十三億四千五百六十七万八千九百一") = Ok (tx "123456789012345678901") /\
  to_arabic_numerals (tx "十二垓三千四百五十六京七千八百九十兆千二百三十四億五千六百七十八万九千十二") = Ok (tx "1234567890123456789012") /\
  to_arabic_numerals (tx "一十二垓三千四百五十六京七千八百九十兆千二百三十四億五千六百七十八万九千十二") = Ok (tx "1234567890123456789012") /\
  to_arabic_numerals (tx "百二十三垓四千五百六十七京八千九百一兆二千三百四十五億六千七百八十九万百二十三") = Ok (tx "12345678901234567890123") /\
  to_arabic_numerals (tx "一百二十三垓四千五百六十七京八千九百一兆二千三百四十五億六千七百八十九万百二十三") = Ok (tx "12345678901234567890123") /\
  to_arabic_numerals (tx "千二百三十四垓五千六百七十八京九千十二兆三千四百五十六億七千八百九十万一千二百三十四") = Ok (tx "123456789012345678901234") /\
  to_arabic_numerals (tx "一千二百三十四垓五千六百七十八京九千十二兆三千四百五十六億七千八百九十万一千二百三十四") = Ok (tx "123456789012345678901234").
Proof. vm_compute. repeat split. Qed.

(* token_filter/japanese_number.rs:848-887 *)
Example ut_japanese_number_token_filter_config_from_slice_ipadic :
  match load_token_filter (lit "japanese_number") (ob [("tags", VNull)]) with Ok (TFNumber None) => True | _ => False end /\
  match load_token_filter (lit "japanese_number") (ob []) with Ok (TFNumber None) => True | _ => False end /\
  match load_token_filter (lit "japanese_number") (ob [("tags", VArr [VStr (tx "名詞,数")])]) with Ok (TFNumber (Some _)) => True | _ => False end /\
  match load_token_filter (lit "japanese_number") (ob [("tags", VArr [VStr (tx "名詞,数")])]) with Ok (TFNumber (Some ts)) => contains ts (tx "名詞,数,*,*") = true | _ => False end.
Proof. vm_compute. repeat split. Qed.

(* token_filter/japanese_number.rs:891-915 *)
Example ut_japanese_number_token_filter_from_slice_ipadic :
  is_ok (load_token_filter (lit "japanese_number") (ob [])) = true /\
  is_ok (load_token_filter (lit "japanese_number") (ob [("tags", VArr [VStr (tx "名詞,数")])])) = true.
Proof. vm_compute. repeat split. Qed.

(* token_filter/japanese_number.rs:919-1061 *)
Example ut_japanese_number_token_filter_apply_numbers_ipadic :
  (let toks := run "japanese_number" (ob [("tags", VArr [VStr (tx "名詞,数")])])
    [ tk "一" 0 3 0 1 102657 true "名詞|数|*|*|*|*|一|イチ|イチ" ] in
   length (toks) = 1 /\ text_at toks 0 = tx "1") /\
  (let toks := run "japanese_number" (ob [("tags", VArr [VStr (tx "名詞,数")])])
    [ tk "一二三" 0 9 0 1 102657 true "名詞|数|*|*|*|*|*|*|*" ] in
   length (toks) = 1 /\ text_at toks 0 = tx "123") /\
  (let toks := run "japanese_number" (ob [("tags", VArr [VStr (tx "名詞,数")])])
    [ tk "一千二百三十四垓五千六百七十八京九千十二兆三千四百五十六億七千八百九十万一千二百三十四" 0 129 0 1 102657 true "名詞|数|*|*|*|*|*|*|*" ] in
   length (toks) = 1 /\ text_at toks 0 = tx "123456789012345678901234") /\
  (let toks := run "japanese_number" (ob [("tags", VArr [VStr (tx "名詞,数")])])
    [ tk "鈴木" 0 6 0 1 368893 true "名詞|固有名詞|人名|姓|*|*|鈴木|スズキ|スズキ";
      tk "一郎" 6 12 0 1 103913 true "名詞|固有名詞|人名|名|*|*|一郎|イチロウ|イチロー" ] in
   length (toks) = 2 /\ text_at toks 0 = tx "鈴木" /\ text_at toks 1 = tx "一郎").
Proof. vm_compute. repeat split. Qed.

(* token_filter/japanese_number.rs:1065-1204 *)
Example ut_japanese_number_token_filter_apply_empty_ipadic :
  (let toks := run "japanese_number" (ob [])
    [ tk "一" 0 3 0 1 102657 true "名詞|数|*|*|*|*|一|イチ|イチ" ] in
   length (toks) = 1 /\ text_at toks 0 = tx "1") /\
  (let toks := run "japanese_number" (ob [])
    [ tk "一二三" 0 9 0 1 102657 true "名詞|数|*|*|*|*|*|*|*" ] in
   length (toks) = 1 /\ text_at toks 0 = tx "123") /\
  (let toks := run "japanese_number" (ob [])
    [ tk "一千二百三十四垓五千六百七十八京九千十二兆三千四百五十六億七千八百九十万一千二百三十四" 0 129 0 1 102657 true "名詞|数|*|*|*|*|*|*|*" ] in
   length (toks) = 1 /\ text_at toks 0 = tx "123456789012345678901234") /\
  (let toks := run "japanese_number" (ob [])
    [ tk "鈴木" 0 6 0 1 368893 true "名詞|固有名詞|人名|姓|*|*|鈴木|スズキ|スズキ";
      tk "一郎" 6 12 0 1 103913 true "名詞|固有名詞|人名|名|*|*|一郎|イチロウ|イチロー" ] in
   length (toks) = 2 /\ text_at toks 0 = tx "鈴木" /\ text_at toks 1 = tx "1郎").
Proof. vm_compute. repeat split. Qed.

(* token_filter/japanese_reading_form.rs:118-128 *)
Example ut_japanese_reading_form_token_filter_config_from_slice_ipadic :
  load_token_filter (lit "japanese_reading_form") (ob [("kind", VStr (tx "ipadic"))]) = Ok (TFReadingForm IPADIC).
Proof. vm_compute. repeat split. Qed.

(* token_filter/japanese_reading_form.rs:132-142 *)
Example ut_japanese_reading_form_token_filter_config_from_slice_unidic :
  load_token_filter (lit "japanese_reading_form") (ob [("kind", VStr (tx "unidic"))]) = Ok (TFReadingForm UniDic).
Proof. vm_compute. repeat split. Qed.

(* token_filter/japanese_reading_form.rs:146-155 *)
Example ut_japanese_reading_form_token_filter_from_slice_ipadic :
  is_ok (load_token_filter (lit "japanese_reading_form") (ob [("kind", VStr (tx "ipadic"))])) = true.
Proof. vm_compute. repeat split. Qed.

(* token_filter/japanese_reading_form.rs:159-168 *)
Example ut_japanese_reading_form_token_filter_from_slice_unidic :
  is_ok (load_token_filter (lit "japanese_reading_form") (ob [("kind", VStr (tx "unidic"))])) = true.
Proof. vm_compute. repeat split. Qed.

(* token_filter/japanese_reading_form.rs:172-236 *)
Example ut_japanese_reading_form_token_filter_apply_ipadic :
  (let toks := run "japanese_reading_form" (ob [("kind", VStr (tx "ipadic"))])
    [ tk "羽田空港" 0 12 0 1 321702 true "名詞|固有名詞|一般|*|*|*|羽田空港|ハネダクウコウ|ハネダクーコー";
      tk "限定" 12 18 1 1 374175 true "名詞|サ変接続|*|*|*|*|限定|ゲンテイ|ゲンテイ";
      tk "トートバッグ" 18 36 2 1 4294967295 true "UNK" ] in
   length (toks) = 3 /\ text_at toks 0 = tx "ハネダクウコウ" /\ text_at toks 1 = tx "ゲンテイ" /\ text_at toks 2 = tx "トートバッグ").
Proof. vm_compute. repeat split. Qed.

(* token_filter/japanese_reading_form.rs:240-394 *)
Example ut_japanese_reading_form_token_filter_apply_unidic :
  (let toks := run "japanese_reading_form" (ob [("kind", VStr (tx "unidic"))])
    [ tk "羽田" 0 6 0 1 618177 true "名詞|固有名詞|人名|姓|*|*|ハタ|ハタ|羽田|ハタ|羽田|ハタ|固|*|*|*|*";
      tk "空港" 6 12 1 1 587348 true "名詞|普通名詞|一般|*|*|*|クウコウ|空港|空港|クーコー|空港|クーコー|漢|*|*|*|*";
      tk "限定" 12 18 2 1 720499 true "名詞|普通名詞|サ変可能|*|*|*|ゲンテイ|限定|限定|ゲンテー|限定|ゲンテー|漢|*|*|*|*";
      tk "トート" 18 27 3 1 216230 true "名詞|普通名詞|一般|*|*|*|トート|トート|トート|トート|トート|トート|外|*|*|*|*";
      tk "バッグ" 27 36 4 1 223781 true "名詞|普通名詞|一般|*|*|*|バッグ|バッグ-bag|バッグ|バッグ|バッグ|バッグ|外|*|*|*|*" ] in
   length (toks) = 5 /\ text_at toks 0 = tx "ハタ" /\ text_at toks 1 = tx "クウコウ" /\ text_at toks 2 = tx "ゲンテイ" /\ text_at toks 3 = tx "トート" /\ text_at toks 4 = tx "バッグ").
Proof. vm_compute. repeat split. Qed.

(* token_filter/japanese_stop_tags.rs:118-153 *)
Example ut_japanese_stop_tags_token_filter_config_from_slice_ipadic :
  option_map (@length str) (strings_of (load_token_filter (lit "japanese_stop_tags") (ob [("tags", VArr [VStr (tx "接続詞"); VStr (tx "助詞"); VStr (tx "助詞,格助詞"); VStr (tx "助詞,格助詞,一般"); VStr (tx "助詞,格助詞,引用"); VStr (tx "助詞,格助詞,連語"); VStr (tx "助詞,係助詞"); VStr (tx "助詞,副助詞"); VStr (tx "助詞,間投助詞"); VStr (tx "助詞,並立助詞"); VStr (tx "助詞,終助詞"); VStr (tx "助詞,副助詞／並立助詞／終助詞"); VStr (tx "助詞,連体化"); VStr (tx "助詞,副詞化"); VStr (tx "助詞,特殊"); VStr (tx "助動詞"); VStr (tx "記号"); VStr (tx "記号,一般"); VStr (tx "記号,読点"); VStr (tx "記号,句点"); VStr (tx "記号,空白"); VStr (tx "記号,括弧閉"); VStr (tx "その他,間投"); VStr (tx "フィラー"); VStr (tx "非言語音")])]))) = Some 25.
Proof. vm_compute. repeat split. Qed.

(* token_filter/japanese_stop_tags.rs:157-192 *)
Example ut_japanese_stop_tagss_token_filter_from_slice_ipadic :
  is_ok (load_token_filter (lit "japanese_stop_tags") (ob [("tags", VArr [VStr (tx "接続詞"); VStr (tx "助詞"); VStr (tx "助詞,格助詞"); VStr (tx "助詞,格助詞,一般"); VStr (tx "助詞,格助詞,引用"); VStr (tx "助詞,格助詞,連語"); VStr (tx "助詞,係助詞"); VStr (tx "助詞,副助詞"); VStr (tx "助詞,間投助詞"); VStr (tx "助詞,並立助詞"); VStr (tx "助詞,終助詞"); VStr (tx "助詞,副助詞／並立助詞／終助詞"); VStr (tx "助詞,連体化"); VStr (tx "助詞,副詞化"); VStr (tx "助詞,特殊"); VStr (tx "助動詞"); VStr (tx "記号"); VStr (tx "記号,一般"); VStr (tx "記号,読点"); VStr (tx "記号,句点"); VStr (tx "記号,空白"); VStr (tx "記号,括弧閉"); VStr (tx "その他,間投"); VStr (tx "フィラー"); VStr (tx "非言語音")])])) = true.
Proof. vm_compute. repeat split. Qed.

(* token_filter/japanese_stop_tags.rs:196-373 *)
Example ut_japanese_stop_tags_token_filter_apply_ipadic :
  (let toks := run "japanese_stop_tags" (ob [("tags", VArr [VStr (tx "接続詞"); VStr (tx "助詞"); VStr (tx "助詞,格助詞"); VStr (tx "助詞,格助詞,一般"); VStr (tx "助詞,格助詞,引用"); VStr (tx "助詞,格助詞,連語"); VStr (tx "助詞,係助詞"); VStr (tx "助詞,副助詞"); VStr (tx "助詞,間投助詞"); VStr (tx "助詞,並立助詞"); VStr (tx "助詞,終助詞"); VStr (tx "助詞,副助詞／並立助詞／終助詞"); VStr (tx "助詞,連体化"); VStr (tx "助詞,副詞化"); VStr (tx "助詞,特殊"); VStr (tx "助動詞"); VStr (tx "記号"); VStr (tx "記号,一般"); VStr (tx "記号,読点"); VStr (tx "記号,句点"); VStr (tx "記号,空白"); VStr (tx "記号,括弧閉"); VStr (tx "その他,間投"); VStr (tx "フィラー"); VStr (tx "非言語音")])])
    [ tk "すもも" 0 9 0 1 36165 true "名詞|一般|*|*|*|*|すもも|スモモ|スモモ";
      tk "も" 9 12 1 1 73246 true "助詞|係助詞|*|*|*|*|も|モ|モ";
      tk "もも" 12 18 2 1 74990 true "名詞|一般|*|*|*|*|もも|モモ|モモ";
      tk "も" 18 21 3 1 73246 true "助詞|係助詞|*|*|*|*|も|モ|モ";
      tk "もも" 21 27 4 1 74990 true "名詞|一般|*|*|*|*|もも|モモ|モモ";
      tk "の" 27 30 5 1 55831 true "助詞|連体化|*|*|*|*|の|ノ|ノ";
      tk "うち" 30 36 6 1 8029 true "名詞|非自立|副詞可能|*|*|*|うち|ウチ|ウチ" ] in
   length (toks) = 4 /\ text_at toks 0 = tx "すもも" /\ text_at toks 1 = tx "もも" /\ text_at toks 2 = tx "もも" /\ text_at toks 3 = tx "うち").
Proof. vm_compute. repeat split. Qed.

(* token_filter/keep_words.rs:73-85 *)
Example ut_keep_words_token_filter_config_from_slice_ipadic :
  option_map (@length str) (strings_of (load_token_filter (lit "keep_words") (ob [("words", VArr [VStr (tx "すもも"); VStr (tx "もも")])]))) = Some 2.
Proof. vm_compute. repeat split. Qed.

(* token_filter/keep_words.rs:88-100 *)
Example ut_keep_words_token_filter_from_slice_ipadic :
  is_ok (load_token_filter (lit "keep_words") (ob [("words", VArr [VStr (tx "すもも"); VStr (tx "もも")])])) = true.
Proof. vm_compute. repeat split. Qed.

(* token_filter/keep_words.rs:104-257 *)
Example ut_keep_words_token_filter_apply_ipadic :
  (let toks := run "keep_words" (ob [("words", VArr [VStr (tx "すもも"); VStr (tx "もも")])])
    [ tk "すもも" 0 9 0 1 36165 true "名詞|一般|*|*|*|*|すもも|スモモ|スモモ";
      tk "も" 9 12 1 1 73246 true "助詞|係助詞|*|*|*|*|も|モ|モ";
      tk "もも" 12 18 2 1 74990 true "名詞|一般|*|*|*|*|もも|モモ|モモ";
      tk "も" 18 21 3 1 73246 true "助詞|係助詞|*|*|*|*|も|モ|モ";
      tk "もも" 21 27 4 1 74990 true "名詞|一般|*|*|*|*|もも|モモ|モモ";
      tk "の" 27 30 5 1 55831 true "助詞|連体化|*|*|*|*|の|ノ|ノ";
      tk "うち" 30 36 6 1 8029 true "名詞|非自立|副詞可能|*|*|*|うち|ウチ|ウチ" ] in
   length (toks) = 3 /\ text_at toks 0 = tx "すもも" /\ text_at toks 1 = tx "もも" /\ text_at toks 2 = tx "もも").
Proof. vm_compute. repeat split. Qed.

(* token_filter/korean_keep_tags.rs:81-92 *)
Example ut_korean_keep_tags_token_filter_config_from_slice :
  option_map (@length str) (strings_of (load_token_filter (lit "korean_keep_tags") (ob [("tags", VArr [VStr (tx "NNG")])]))) = Some 1.
Proof. vm_compute. repeat split. Qed.

(* token_filter/korean_keep_tags.rs:96-107 *)
Example ut_korean_keep_tags_token_filter_from_slice :
  is_ok (load_token_filter (lit "korean_keep_tags") (ob [("tags", VArr [VStr (tx "NNG")])])) = true.
Proof. vm_compute. repeat split. Qed.

(* token_filter/korean_keep_tags.rs:111-293 *)
Example ut_korean_keep_tags_token_filter_apply :
  (let toks := run "korean_keep_tags" (ob [("tags", VArr [VStr (tx "NNG")])])
    [ tk "한국어" 0 9 0 1 770060 true "NNG|*|F|한국어|Compound|*|*|한국/NNG/*+어/NNG/*";
      tk "의" 9 12 1 1 576336 true "JKG|*|F|의|*|*|*|*";
      tk "형태소" 12 21 2 1 787807 true "NNG|*|F|형태소|Compound|*|*|형태/NNG/*+소/NNG/*";
      tk "분석" 21 27 3 1 383955 true "NNG|행위|T|분석|*|*|*|*";
      tk "을" 27 30 4 1 574939 true "JKO|*|T|을|*|*|*|*";
      tk "할" 30 33 5 1 774117 true "VV+ETM|*|T|할|Inflect|VV|ETM|하/VV/*+ᆯ/ETM/*";
      tk "수" 33 36 6 1 444151 true "NNG|*|F|수|*|*|*|*";
      tk "있" 36 39 7 1 602850 true "VX|*|T|있|*|*|*|*";
      tk "습니다" 39 48 8 1 458024 true "EF|*|F|습니다|*|*|*|*" ] in
   length (toks) = 4 /\ text_at toks 0 = tx "한국어" /\ text_at toks 1 = tx "형태소" /\ text_at toks 2 = tx "분석" /\ text_at toks 3 = tx "수").
Proof. vm_compute. repeat split. Qed.

(* token_filter/korean_reading_form.rs:54-234 *)
Example ut_korean_reading_form_token_filter_apply :
  (let toks := run "korean_reading_form" (VNull)
    [ tk "한국어" 0 9 0 1 770060 true "NNG|*|F|한국어|Compound|*|*|한국/NNG/*+어/NNG/*";
      tk "의" 9 12 1 1 576336 true "JKG|*|F|의|*|*|*|*";
      tk "형태소" 12 21 2 1 787807 true "NNG|*|F|형태소|Compound|*|*|형태/NNG/*+소/NNG/*";
      tk "분석" 21 27 3 1 383955 true "NNG|행위|T|분석|*|*|*|*";
      tk "을" 27 30 4 1 574939 true "JKO|*|T|을|*|*|*|*";
      tk "할" 30 33 5 1 774117 true "VV+ETM|*|T|할|Inflect|VV|ETM|하/VV/*+ᆯ/ETM/*";
      tk "수" 33 36 6 1 444151 true "NNG|*|F|수|*|*|*|*";
      tk "있" 36 39 7 1 602850 true "VX|*|T|있|*|*|*|*";
      tk "습니다" 39 48 8 1 458024 true "EF|*|F|습니다|*|*|*|*" ] in
   length (toks) = 9 /\ text_at toks 0 = tx "한국어" /\ text_at toks 1 = tx "의" /\ text_at toks 2 = tx "형태소" /\ text_at toks 3 = tx "분석" /\ text_at toks 4 = tx "을" /\ text_at toks 5 = tx "할" /\ text_at toks 6 = tx "수" /\ text_at toks 7 = tx "있" /\ text_at toks 8 = tx "습니다").
Proof. vm_compute. repeat split. Qed.

(* token_filter/korean_stop_tags.rs:81-121 *)
Example ut_korean_stop_tags_token_filter_config_from_slice :
  option_map (@length str) (strings_of (load_token_filter (lit "korean_stop_tags") (ob [("tags", VArr [VStr (tx "EP"); VStr (tx "EF"); VStr (tx "EC"); VStr (tx "ETN"); VStr (tx "ETM"); VStr (tx "IC"); VStr (tx "JKS"); VStr (tx "JKC"); VStr (tx "JKG"); VStr (tx "JKO"); VStr (tx "JKB"); VStr (tx "JKV"); VStr (tx "JKQ"); VStr (tx "JX"); VStr (tx "JC"); VStr (tx "MAG"); VStr (tx "MAJ"); VStr (tx "MM"); VStr (tx "SP"); VStr (tx "SSC"); VStr (tx "SSO"); VStr (tx "SC"); VStr (tx "SE"); VStr (tx "XPN"); VStr (tx "XSA"); VStr (tx "XSN"); VStr (tx "XSV"); VStr (tx "UNA"); VStr (tx "NA"); VStr (tx "VSV")])]))) = Some 30.
Proof. vm_compute. repeat split. Qed.

(* token_filter/korean_stop_tags.rs:125-165 *)
Example ut_korean_stop_tagss_token_filter_from_slice :
  is_ok (load_token_filter (lit "korean_stop_tags") (ob [("tags", VArr [VStr (tx "EP"); VStr (tx "EF"); VStr (tx "EC"); VStr (tx "ETN"); VStr (tx "ETM"); VStr (tx "IC"); VStr (tx "JKS"); VStr (tx "JKC"); VStr (tx "JKG"); VStr (tx "JKO"); VStr (tx "JKB"); VStr (tx "JKV"); VStr (tx "JKQ"); VStr (tx "JX"); VStr (tx "JC"); VStr (tx "MAG"); VStr (tx "MAJ"); VStr (tx "MM"); VStr (tx "SP"); VStr (tx "SSC"); VStr (tx "SSO"); VStr (tx "SC"); VStr (tx "SE"); VStr (tx "XPN"); VStr (tx "XSA"); VStr (tx "XSN"); VStr (tx "XSV"); VStr (tx "UNA"); VStr (tx "NA"); VStr (tx "VSV")])])) = true.
Proof. vm_compute. repeat split. Qed.

(* token_filter/korean_stop_tags.rs:169-382 *)
Example ut_korean_stop_tags_token_filter_apply :
  (let toks := run "korean_stop_tags" (ob [("tags", VArr [VStr (tx "EP"); VStr (tx "EF"); VStr (tx "EC"); VStr (tx "ETN"); VStr (tx "ETM"); VStr (tx "IC"); VStr (tx "JKS"); VStr (tx "JKC"); VStr (tx "JKG"); VStr (tx "JKO"); VStr (tx "JKB"); VStr (tx "JKV"); VStr (tx "JKQ"); VStr (tx "JX"); VStr (tx "JC"); VStr (tx "MAG"); VStr (tx "MAJ"); VStr (tx "MM"); VStr (tx "SP"); VStr (tx "SSC"); VStr (tx "SSO"); VStr (tx "SC"); VStr (tx "SE"); VStr (tx "XPN"); VStr (tx "XSA"); VStr (tx "XSN"); VStr (tx "XSV"); VStr (tx "UNA"); VStr (tx "NA"); VStr (tx "VSV")])])
    [ tk "한국어" 0 9 0 1 770060 true "NNG|*|F|한국어|Compound|*|*|한국/NNG/*+어/NNG/*";
      tk "의" 9 12 1 1 576336 true "JKG|*|F|의|*|*|*|*";
      tk "형태소" 12 21 2 1 787807 true "NNG|*|F|형태소|Compound|*|*|형태/NNG/*+소/NNG/*";
      tk "분석" 21 27 3 1 383955 true "NNG|행위|T|분석|*|*|*|*";
      tk "을" 27 30 4 1 574939 true "JKO|*|T|을|*|*|*|*";
      tk "할" 30 33 5 1 774117 true "VV+ETM|*|T|할|Inflect|VV|ETM|하/VV/*+ᆯ/ETM/*";
      tk "수" 33 36 6 1 444151 true "NNG|*|F|수|*|*|*|*";
      tk "있" 36 39 7 1 602850 true "VX|*|T|있|*|*|*|*";
      tk "습니다" 39 48 8 1 458024 true "EF|*|F|습니다|*|*|*|*" ] in
   length (toks) = 6 /\ text_at toks 0 = tx "한국어" /\ text_at toks 1 = tx "형태소" /\ text_at toks 2 = tx "분석" /\ text_at toks 3 = tx "할" /\ text_at toks 4 = tx "수" /\ text_at toks 5 = tx "있").
Proof. vm_compute. repeat split. Qed.

(* token_filter/length.rs:85-116 *)
Example ut_length_token_filter_config_from_slice :
  min_of (load_token_filter (lit "length") (ob [("min", VInt 1); ("max", VInt 3)])) = Some 1%N /\
  max_of (load_token_filter (lit "length") (ob [("min", VInt 1); ("max", VInt 3)])) = Some 3%N /\
  min_of (load_token_filter (lit "length") (ob [("min", VInt 1)])) = Some 1%N /\
  max_of (load_token_filter (lit "length") (ob [("min", VInt 1)])) = None /\
  min_of (load_token_filter (lit "length") (ob [("max", VInt 2)])) = None /\
  max_of (load_token_filter (lit "length") (ob [("max", VInt 2)])) = Some 2%N.
Proof. vm_compute. repeat split. Qed.

(* token_filter/length.rs:119-147 *)
Example ut_length_token_filter_from_slice :
  is_ok (load_token_filter (lit "length") (ob [("min", VInt 1); ("max", VInt 3)])) = true /\
  is_ok (load_token_filter (lit "length") (ob [("min", VInt 1)])) = true /\
  is_ok (load_token_filter (lit "length") (ob [("max", VInt 2)])) = true.
Proof. vm_compute. repeat split. Qed.

(* token_filter/length.rs:151-303 *)
Example ut_length_token_filter_apply_ipadic :
  (let toks := run "length" (ob [("min", VInt 2); ("max", VInt 3)])
    [ tk "すもも" 0 9 0 1 36165 true "名詞|一般|*|*|*|*|すもも|スモモ|スモモ";
      tk "も" 9 12 1 1 73246 true "助詞|係助詞|*|*|*|*|も|モ|モ";
      tk "もも" 12 18 2 1 74990 true "名詞|一般|*|*|*|*|もも|モモ|モモ";
      tk "も" 18 21 3 1 73246 true "助詞|係助詞|*|*|*|*|も|モ|モ";
      tk "もも" 21 27 4 1 74990 true "名詞|一般|*|*|*|*|もも|モモ|モモ";
      tk "の" 27 30 5 1 55831 true "助詞|連体化|*|*|*|*|の|ノ|ノ";
      tk "うち" 30 36 6 1 8029 true "名詞|非自立|副詞可能|*|*|*|うち|ウチ|ウチ" ] in
   length (toks) = 4 /\ text_at toks 0 = tx "すもも" /\ text_at toks 1 = tx "もも" /\ text_at toks 2 = tx "もも" /\ text_at toks 3 = tx "うち").
Proof. vm_compute. repeat split. Qed.

(* token_filter/lowercase.rs:52-69 *)
Example ut_lowercase_token_filter_apply_ipadic :
  (let toks := run "lowercase" (VNull)
    [ tk "Rust" 0 4 0 1 4294967295 true "UNK" ] in
   length (toks) = 1 /\ text_at toks 0 = tx "rust").
Proof. vm_compute. repeat split. Qed.

(* token_filter/mapping.rs:126-140 *)
Example ut_mapping_token_filter_config_from_slice :
  match load_token_filter (lit "mapping") (ob [("mapping", ob [("ｱ", VStr (tx "ア")); ("ｲ", VStr (tx "イ")); ("ｳ", VStr (tx "ウ")); ("ｴ", VStr (tx "エ")); ("ｵ", VStr (tx "オ"))])]) with Ok (TFMapping f) => lookup (tx "ｱ") (mf_mapping f) = Some (tx "ア") | _ => False end.
Proof. vm_compute. repeat split. Qed.

(* token_filter/mapping.rs:143-157 *)
Example ut_mapping_token_filter_from_slice :
  is_ok (load_token_filter (lit "mapping") (ob [("mapping", ob [("ｱ", VStr (tx "ア")); ("ｲ", VStr (tx "イ")); ("ｳ", VStr (tx "ウ")); ("ｴ", VStr (tx "エ")); ("ｵ", VStr (tx "オ"))])])) = true.
Proof. vm_compute. repeat split. Qed.

(* token_filter/mapping.rs:161-217 *)
Example ut_mapping_token_filter_apply_ipadic :
  (let toks := run "mapping" (ob [("mapping", ob [("籠", VStr (tx "篭"))])])
    [ tk "籠原" 0 6 0 1 312630 true "名詞|固有名詞|一般|*|*|*|籠原|カゴハラ|カゴハラ";
      tk "駅" 6 9 1 1 383791 true "名詞|接尾|地域|*|*|*|駅|エキ|エキ" ] in
   length (toks) = 2 /\ text_at toks 0 = tx "篭原" /\ text_at toks 1 = tx "駅").
Proof. vm_compute. repeat split. Qed.

(* token_filter/stop_words.rs:73-85 *)
Example ut_stop_words_token_filter_config_from_slice :
  option_map (@length str) (strings_of (load_token_filter (lit "stop_words") (ob [("words", VArr [VStr (tx "も"); VStr (tx "の")])]))) = Some 2.
Proof. vm_compute. repeat split. Qed.

(* token_filter/stop_words.rs:88-100 *)
Example ut_stop_words_token_filter_from_slice :
  is_ok (load_token_filter (lit "stop_words") (ob [("words", VArr [VStr (tx "も"); VStr (tx "の")])])) = true.
Proof. vm_compute. repeat split. Qed.

(* token_filter/stop_words.rs:104-258 *)
Example ut_stop_words_token_filter_apply_ipadic :
  (let toks := run "stop_words" (ob [("words", VArr [VStr (tx "も"); VStr (tx "の")])])
    [ tk "すもも" 0 9 0 1 36165 true "名詞|一般|*|*|*|*|すもも|スモモ|スモモ";
      tk "も" 9 12 1 1 73246 true "助詞|係助詞|*|*|*|*|も|モ|モ";
      tk "もも" 12 18 2 1 74990 true "名詞|一般|*|*|*|*|もも|モモ|モモ";
      tk "も" 18 21 3 1 73246 true "助詞|係助詞|*|*|*|*|も|モ|モ";
      tk "もも" 21 27 4 1 74990 true "名詞|一般|*|*|*|*|もも|モモ|モモ";
      tk "の" 27 30 5 1 55831 true "助詞|連体化|*|*|*|*|の|ノ|ノ";
      tk "うち" 30 36 6 1 8029 true "名詞|非自立|副詞可能|*|*|*|うち|ウチ|ウチ" ] in
   length (toks) = 4 /\ text_at toks 0 = tx "すもも" /\ text_at toks 1 = tx "もも" /\ text_at toks 2 = tx "もも" /\ text_at toks 3 = tx "うち").
Proof. vm_compute. repeat split. Qed.

(* token_filter/uppercase.rs:52-69 *)
Example ut_uppercase_token_filter_apply :
  (let toks := run "uppercase" (VNull)
    [ tk "Rust" 0 4 0 1 4294967295 true "UNK" ] in
   length (toks) = 1 /\ text_at toks 0 = tx "RUST").
Proof. vm_compute. repeat split. Qed.

(* character_filter/japanese_iteration_mark.rs:316-320 *)
Example ut_japanese_iteration_mark_character_filter_config_new :
  ic_kanji (IterationConfig true true) = true /\
  ic_kana (IterationConfig true true) = true.
Proof. vm_compute. repeat split. Qed.

(* character_filter/japanese_iteration_mark.rs:323-334 *)
Example ut_japanese_iteration_mark_character_filter_config_from_slice :
  match load_char_filter unit_env (lit "japanese_iteration_mark") (ob [("normalize_kanji", VBool true); ("normalize_kana", VBool true)]) with Ok (CFIteration c) => ic_kanji c = true | _ => False end /\
  match load_char_filter unit_env (lit "japanese_iteration_mark") (ob [("normalize_kanji", VBool true); ("normalize_kana", VBool true)]) with Ok (CFIteration c) => ic_kana c = true | _ => False end.
Proof. vm_compute. repeat split. Qed.

(* character_filter/japanese_iteration_mark.rs:337-346 *)
Example ut_japanese_iteration_mark_character_filter_from_slice :
  is_ok (load_char_filter unit_env (lit "japanese_iteration_mark") (ob [("normalize_kanji", VBool true); ("normalize_kana", VBool true)])) = true.
Proof. vm_compute. repeat split. Qed.

(* character_filter/japanese_iteration_mark.rs:349-462 *)
Example ut_japanese_iteration_mark_character_filter_apply :
  filtered "japanese_iteration_mark" (ob [("normalize_kanji", VBool true); ("normalize_kana", VBool true)]) "ここは騒々しい" = Some (Ok (tx "ここは騒騒しい", []%N, []%Z)) /\
  filtered "japanese_iteration_mark" (ob [("normalize_kanji", VBool true); ("normalize_kana", VBool true)]) "祇園 さゝ木" = Some (Ok (tx "祇園 ささ木", []%N, []%Z)) /\
  filtered "japanese_iteration_mark" (ob [("normalize_kanji", VBool true); ("normalize_kana", VBool true)]) "いすゞ自動車株式会社" = Some (Ok (tx "いすず自動車株式会社", []%N, []%Z)) /\
  filtered "japanese_iteration_mark" (ob [("normalize_kanji", VBool true); ("normalize_kana", VBool true)]) "サヽキ印刷" = Some (Ok (tx "ササキ印刷", []%N, []%Z)) /\
  filtered "japanese_iteration_mark" (ob [("normalize_kanji", VBool true); ("normalize_kana", VBool true)]) "愛知県岡崎市牧平町マカヾイツ" = Some (Ok (tx "愛知県岡崎市牧平町マカガイツ", []%N, []%Z)) /\
  filtered "japanese_iteration_mark" (ob [("normalize_kanji", VBool true); ("normalize_kana", VBool true)]) "馬鹿々々しい" = Some (Ok (tx "馬鹿馬鹿しい", []%N, []%Z)) /\
  filtered "japanese_iteration_mark" (ob [("normalize_kanji", VBool true); ("normalize_kana", VBool true)]) "ところゞゝゝ" = Some (Ok (tx "ところどころ", []%N, []%Z)) /\
  filtered "japanese_iteration_mark" (ob [("normalize_kanji", VBool true); ("normalize_kana", VBool true)]) "じゝ" = Some (Ok (tx "じし", []%N, []%Z)) /\
  filtered "japanese_iteration_mark" (ob [("normalize_kanji", VBool true); ("normalize_kana", VBool true)]) "じゞ" = Some (Ok (tx "じじ", []%N, []%Z)) /\
  filtered "japanese_iteration_mark" (ob [("normalize_kanji", VBool true); ("normalize_kana", VBool true)]) "ジヽ" = Some (Ok (tx "ジシ", []%N, []%Z)) /\
  filtered "japanese_iteration_mark" (ob [("normalize_kanji", VBool true); ("normalize_kana", VBool true)]) "ジヾ" = Some (Ok (tx "ジジ", []%N, []%Z)) /\
  filtered "japanese_iteration_mark" (ob [("normalize_kanji", VBool true); ("normalize_kana", VBool true)]) "ところゞゝゝゞゝゝ" = Some (Ok (tx "ところどころゞゝゝ", []%N, []%Z)) /\
  filtered "japanese_iteration_mark" (ob [("normalize_kanji", VBool true); ("normalize_kana", VBool true)]) "ところゞゝゝ馬鹿々々しく騒々しい" = Some (Ok (tx "ところどころ馬鹿馬鹿しく騒騒しい", []%N, []%Z)).
Proof. vm_compute. repeat split. Qed.

(* character_filter/japanese_iteration_mark.rs:477-485 *)
Example ut_katakana_add_dakuon :
  forallb (fun p => (katakana_add_dakuon (fst p) =? snd p)%N) (pairs "カガガガキギギギクグググケゲゲゲコゴゴゴサザザザシジジジスズズズセゼゼゼソゾゾゾタダダダチヂヂヂツヅヅヅテデデデトドドドハバババヒビビビフブブブヘベベベホボボボ") = true.
Proof. vm_compute. repeat split. Qed.

(* character_filter/japanese_iteration_mark.rs:488-497 *)
Example ut_katakana_remove_dakuon :
  forallb (fun p => (katakana_remove_dakuon (snd p) =? fst p)%N && (katakana_remove_dakuon (fst p) =? fst p)%N) (pairs "カガキギクグケゲコゴサザシジスズセゼソゾタダチヂツヅテデトドハバヒビフブヘベホボ") = true /\
  forallb (fun p => negb (katakana_remove_dakuon (snd p) =? snd p)%N) (pairs "ガガギギググゲゲゴゴザザジジズズゼゼゾゾダダヂヂヅヅデデドドババビビブブベベボボ") = true.
Proof. vm_compute. repeat split. Qed.

(* character_filter/japanese_iteration_mark.rs:512-520 *)
Example ut_hiragana_add_dakuon :
  forallb (fun p => (hiragana_add_dakuon (fst p) =? snd p)%N) (pairs "かがががきぎぎぎくぐぐぐけげげげこごごごさざざざしじじじすずずずせぜぜぜそぞぞぞただだだちぢぢぢつづづづてでででとどどどはばばばひびびびふぶぶぶへべべべほぼぼぼ") = true.
Proof. vm_compute. repeat split. Qed.

(* character_filter/japanese_iteration_mark.rs:523-532 *)
Example ut_hiragana_remove_dakuon :
  forallb (fun p => (hiragana_remove_dakuon (snd p) =? fst p)%N && (hiragana_remove_dakuon (fst p) =? fst p)%N) (pairs "かがきぎくぐけげこごさざしじすずせぜそぞただちぢつづてでとどはばひびふぶへべほぼ") = true /\
  forallb (fun p => negb (hiragana_remove_dakuon (snd p) =? snd p)%N) (pairs "ががぎぎぐぐげげごござざじじずずぜぜぞぞだだぢぢづづででどどばばびびぶぶべべぼぼ") = true.
Proof. vm_compute. repeat split. Qed.

(* character_filter/mapping.rs:146-160 *)
Example ut_mapping_character_filter_config_from_slice :
  match load_char_filter unit_env (lit "mapping") (ob [("mapping", ob [("ｱ", VStr (tx "ア")); ("ｲ", VStr (tx "イ")); ("ｳ", VStr (tx "ウ")); ("ｴ", VStr (tx "エ")); ("ｵ", VStr (tx "オ"))])]) with Ok (CFMapping f) => lookup (tx "ｱ") (mf_mapping f) = Some (tx "ア") | _ => False end.
Proof. vm_compute. repeat split. Qed.

(* character_filter/mapping.rs:163-177 *)
Example ut_mapping_character_filter_from_slice :
  is_ok (load_char_filter unit_env (lit "mapping") (ob [("mapping", ob [("ｱ", VStr (tx "ア")); ("ｲ", VStr (tx "イ")); ("ｳ", VStr (tx "ウ")); ("ｴ", VStr (tx "エ")); ("ｵ", VStr (tx "オ"))])])) = true.
Proof. vm_compute. repeat split. Qed.

(* character_filter/mapping.rs:180-328 *)
Example ut_mapping_character_filter_apply :
  filtered "mapping" (ob [("mapping", ob [("ｱ", VStr (tx "ア")); ("ｲ", VStr (tx "イ")); ("ｳ", VStr (tx "ウ")); ("ｴ", VStr (tx "エ")); ("ｵ", VStr (tx "オ"))])]) "ｱｲｳｴｵ" = Some (Ok (tx "アイウエオ", []%N, []%Z)) /\
  str_range (tx "アイウエオ") 3 6 = Ok (tx "イ") /\
  correct_offset 3 []%N []%Z 15 = Ok 3%N /\
  correct_offset 6 []%N []%Z 15 = Ok 6%N /\
  str_range (tx "ｱｲｳｴｵ") 3 6 = Ok (tx "ｲ") /\
  filtered "mapping" (ob [("mapping", ob [("ﾘ", VStr (tx "リ")); ("ﾝ", VStr (tx "ン")); ("ﾃﾞ", VStr (tx "デ")); ("ﾗ", VStr (tx "ラ"))])]) "ﾘﾝﾃﾞﾗ" = Some (Ok (tx "リンデラ", [9]%N, [3]%Z)) /\
  str_range (tx "リンデラ") 6 9 = Ok (tx "デ") /\
  correct_offset 6 [9]%N [3]%Z 12 = Ok 6%N /\
  correct_offset 9 [9]%N [3]%Z 12 = Ok 12%N /\
  str_range (tx "ﾘﾝﾃﾞﾗ") 6 12 = Ok (tx "ﾃﾞ") /\
  filtered "mapping" (ob [("mapping", ob [("ﾘﾝﾃﾞﾗ", VStr (tx "リンデラ"))])]) "ﾘﾝﾃﾞﾗ" = Some (Ok (tx "リンデラ", [12]%N, [3]%Z)) /\
  str_range (tx "リンデラ") 0 12 = Ok (tx "リンデラ") /\
  correct_offset 0 [12]%N [3]%Z 12 = Ok 0%N /\
  correct_offset 12 [12]%N [3]%Z 12 = Ok 15%N /\
  str_range (tx "ﾘﾝﾃﾞﾗ") 0 15 = Ok (tx "ﾘﾝﾃﾞﾗ") /\
  filtered "mapping" (ob [("mapping", ob [("リンデラ", VStr (tx "Lindera"))])]) "Rust製形態素解析器リンデラで日本語を形態素解析する。" = Some (Ok (tx "Rust製形態素解析器Linderaで日本語を形態素解析する。", [32]%N, [5]%Z)) /\
  str_range (tx "Rust製形態素解析器Linderaで日本語を形態素解析する。") 25 32 = Ok (tx "Lindera") /\
  correct_offset 25 [32]%N [5]%Z 71 = Ok 25%N /\
  correct_offset 32 [32]%N [5]%Z 71 = Ok 37%N /\
  str_range (tx "Rust製形態素解析器リンデラで日本語を形態素解析する。") 25 37 = Ok (tx "リンデラ") /\
  str_range (tx "Rust製形態素解析器Linderaで日本語を形態素解析する。") 35 44 = Ok (tx "日本語") /\
  correct_offset 35 [32]%N [5]%Z 71 = Ok 40%N /\
  correct_offset 44 [32]%N [5]%Z 71 = Ok 49%N /\
  str_range (tx "Rust製形態素解析器リンデラで日本語を形態素解析する。") 40 49 = Ok (tx "日本語") /\
  filtered "mapping" (ob [("mapping", ob [("１", VStr (tx "1")); ("０", VStr (tx "0")); ("㍑", VStr (tx "リットル"))])]) "１０㍑" = Some (Ok (tx "10リットル", [1; 2; 5; 6; 7; 8; 9; 10; 11; 12; 13]%N, [2; 4; 3; 2; 1; 0; -1; -2; -3; -4; -5]%Z)) /\
  str_range (tx "10リットル") 0 2 = Ok (tx "10") /\
  correct_offset 0 [1; 2; 5; 6; 7; 8; 9; 10; 11; 12; 13]%N [2; 4; 3; 2; 1; 0; -1; -2; -3; -4; -5]%Z 14 = Ok 0%N /\
  correct_offset 2 [1; 2; 5; 6; 7; 8; 9; 10; 11; 12; 13]%N [2; 4; 3; 2; 1; 0; -1; -2; -3; -4; -5]%Z 14 = Ok 6%N /\
  str_range (tx "１０㍑") 0 6 = Ok (tx "１０") /\
  str_range (tx "10リットル") 2 14 = Ok (tx "リットル") /\
  correct_offset 2 [1; 2; 5; 6; 7; 8; 9; 10; 11; 12; 13]%N [2; 4; 3; 2; 1; 0; -1; -2; -3; -4; -5]%Z 14 = Ok 6%N /\
  correct_offset 14 [1; 2; 5; 6; 7; 8; 9; 10; 11; 12; 13]%N [2; 4; 3; 2; 1; 0; -1; -2; -3; -4; -5]%Z 14 = Ok 9%N /\
  str_range (tx "１０㍑") 6 9 = Ok (tx "㍑").
Proof. vm_compute. repeat split. Qed.

(* character_filter/unicode_normalize.rs:127-137 *)
Example ut_unicode_normalize_character_filter_config_from_slice :
  load_char_filter unit_env (lit "unicode_normalize") (ob [("kind", VStr (tx "nfkc"))]) = Ok (CFNormalize NFKC).
Proof. vm_compute. repeat split. Qed.

(* character_filter/unicode_normalize.rs:140-149 *)
Example ut_unicode_normalize_character_filter_from_slice :
  is_ok (load_char_filter unit_env (lit "unicode_normalize") (ob [("kind", VStr (tx "nfkc"))])) = true.
Proof. vm_compute. repeat split. Qed.

(* character_filter/unicode_normalize.rs:152-287 *)
Example ut_unicode_normalize_character_filter_apply_nfc :
  filtered "unicode_normalize" (ob [("kind", VStr (tx "nfc"))]) "ＡＢＣＤＥ" = Some (Ok (tx "ＡＢＣＤＥ", []%N, []%Z)) /\
  str_range (tx "ＡＢＣＤＥ") 3 6 = Ok (tx "Ｂ") /\
  correct_offset 3 []%N []%Z 15 = Ok 3%N /\
  correct_offset 6 []%N []%Z 15 = Ok 6%N /\
  str_range (tx "ＡＢＣＤＥ") 3 6 = Ok (tx "Ｂ") /\
  filtered "unicode_normalize" (ob [("kind", VStr (tx "nfc"))]) "ABCDE" = Some (Ok (tx "ABCDE", []%N, []%Z)) /\
  str_range (tx "ABCDE") 3 5 = Ok (tx "DE") /\
  correct_offset 3 []%N []%Z 5 = Ok 3%N /\
  correct_offset 5 []%N []%Z 5 = Ok 5%N /\
  str_range (tx "ABCDE") 3 5 = Ok (tx "DE") /\
  filtered "unicode_normalize" (ob [("kind", VStr (tx "nfc"))]) "ｱｲｳｴｵ" = Some (Ok (tx "ｱｲｳｴｵ", []%N, []%Z)) /\
  str_range (tx "ｱｲｳｴｵ") 3 9 = Ok (tx "ｲｳ") /\
  correct_offset 3 []%N []%Z 15 = Ok 3%N /\
  correct_offset 9 []%N []%Z 15 = Ok 9%N /\
  str_range (tx "ｱｲｳｴｵ") 3 9 = Ok (tx "ｲｳ") /\
  filtered "unicode_normalize" (ob [("kind", VStr (tx "nfc"))]) "アイウエオ" = Some (Ok (tx "アイウエオ", []%N, []%Z)) /\
  str_range (tx "アイウエオ") 12 15 = Ok (tx "オ") /\
  correct_offset 12 []%N []%Z 15 = Ok 12%N /\
  correct_offset 15 []%N []%Z 15 = Ok 15%N /\
  str_range (tx "アイウエオ") 12 15 = Ok (tx "オ") /\
  filtered "unicode_normalize" (ob [("kind", VStr (tx "nfc"))]) "０１２３４５６７８９" = Some (Ok (tx "０１２３４５６７８９", []%N, []%Z)) /\
  str_range (tx "０１２３４５６７８９") 12 15 = Ok (tx "４") /\
  correct_offset 12 []%N []%Z 30 = Ok 12%N /\
  correct_offset 15 []%N []%Z 30 = Ok 15%N /\
  str_range (tx "０１２３４５６７８９") 12 15 = Ok (tx "４") /\
  filtered "unicode_normalize" (ob [("kind", VStr (tx "nfc"))]) "0123456789" = Some (Ok (tx "0123456789", []%N, []%Z)) /\
  str_range (tx "0123456789") 5 6 = Ok (tx "5") /\
  correct_offset 5 []%N []%Z 10 = Ok 5%N /\
  correct_offset 6 []%N []%Z 10 = Ok 6%N /\
  str_range (tx "0123456789") 5 6 = Ok (tx "5") /\
  filtered "unicode_normalize" (ob [("kind", VStr (tx "nfc"))]) "ﾘﾝﾃﾞﾗ" = Some (Ok (tx "ﾘﾝﾃﾞﾗ", []%N, []%Z)) /\
  str_range (tx "ﾘﾝﾃﾞﾗ") 6 12 = Ok (tx "ﾃﾞ") /\
  correct_offset 6 []%N []%Z 15 = Ok 6%N /\
  correct_offset 12 []%N []%Z 15 = Ok 12%N /\
  str_range (tx "ﾘﾝﾃﾞﾗ") 6 12 = Ok (tx "ﾃﾞ") /\
  filtered "unicode_normalize" (ob [("kind", VStr (tx "nfc"))]) "１０㌎" = Some (Ok (tx "１０㌎", []%N, []%Z)) /\
  str_range (tx "１０㌎") 6 9 = Ok (tx "㌎") /\
  correct_offset 6 []%N []%Z 9 = Ok 6%N /\
  correct_offset 9 []%N []%Z 9 = Ok 9%N /\
  str_range (tx "１０㌎") 6 9 = Ok (tx "㌎").
Proof. vm_compute. repeat split. Qed.

(* character_filter/unicode_normalize.rs:290-425 *)
Example ut_unicode_normalize_character_filter_apply_nfd :
  filtered "unicode_normalize" (ob [("kind", VStr (tx "nfd"))]) "ＡＢＣＤＥ" = Some (Ok (tx "ＡＢＣＤＥ", []%N, []%Z)) /\
  str_range (tx "ＡＢＣＤＥ") 3 6 = Ok (tx "Ｂ") /\
  correct_offset 3 []%N []%Z 15 = Ok 3%N /\
  correct_offset 6 []%N []%Z 15 = Ok 6%N /\
  str_range (tx "ＡＢＣＤＥ") 3 6 = Ok (tx "Ｂ") /\
  filtered "unicode_normalize" (ob [("kind", VStr (tx "nfd"))]) "ABCDE" = Some (Ok (tx "ABCDE", []%N, []%Z)) /\
  str_range (tx "ABCDE") 3 5 = Ok (tx "DE") /\
  correct_offset 3 []%N []%Z 5 = Ok 3%N /\
  correct_offset 5 []%N []%Z 5 = Ok 5%N /\
  str_range (tx "ABCDE") 3 5 = Ok (tx "DE") /\
  filtered "unicode_normalize" (ob [("kind", VStr (tx "nfd"))]) "ｱｲｳｴｵ" = Some (Ok (tx "ｱｲｳｴｵ", []%N, []%Z)) /\
  str_range (tx "ｱｲｳｴｵ") 3 9 = Ok (tx "ｲｳ") /\
  correct_offset 3 []%N []%Z 15 = Ok 3%N /\
  correct_offset 9 []%N []%Z 15 = Ok 9%N /\
  str_range (tx "ｱｲｳｴｵ") 3 9 = Ok (tx "ｲｳ") /\
  filtered "unicode_normalize" (ob [("kind", VStr (tx "nfd"))]) "アイウエオ" = Some (Ok (tx "アイウエオ", []%N, []%Z)) /\
  str_range (tx "アイウエオ") 12 15 = Ok (tx "オ") /\
  correct_offset 12 []%N []%Z 15 = Ok 12%N /\
  correct_offset 15 []%N []%Z 15 = Ok 15%N /\
  str_range (tx "アイウエオ") 12 15 = Ok (tx "オ") /\
  filtered "unicode_normalize" (ob [("kind", VStr (tx "nfd"))]) "０１２３４５６７８９" = Some (Ok (tx "０１２３４５６７８９", []%N, []%Z)) /\
  str_range (tx "０１２３４５６７８９") 12 15 = Ok (tx "４") /\
  correct_offset 12 []%N []%Z 30 = Ok 12%N /\
  correct_offset 15 []%N []%Z 30 = Ok 15%N /\
  str_range (tx "０１２３４５６７８９") 12 15 = Ok (tx "４") /\
  filtered "unicode_normalize" (ob [("kind", VStr (tx "nfd"))]) "0123456789" = Some (Ok (tx "0123456789", []%N, []%Z)) /\
  str_range (tx "0123456789") 5 6 = Ok (tx "5") /\
  correct_offset 5 []%N []%Z 10 = Ok 5%N /\
  correct_offset 6 []%N []%Z 10 = Ok 6%N /\
  str_range (tx "0123456789") 5 6 = Ok (tx "5") /\
  filtered "unicode_normalize" (ob [("kind", VStr (tx "nfd"))]) "ﾘﾝﾃﾞﾗ" = Some (Ok (tx "ﾘﾝﾃﾞﾗ", []%N, []%Z)) /\
  str_range (tx "ﾘﾝﾃﾞﾗ") 6 12 = Ok (tx "ﾃﾞ") /\
  correct_offset 6 []%N []%Z 15 = Ok 6%N /\
  correct_offset 12 []%N []%Z 15 = Ok 12%N /\
  str_range (tx "ﾘﾝﾃﾞﾗ") 6 12 = Ok (tx "ﾃﾞ") /\
  filtered "unicode_normalize" (ob [("kind", VStr (tx "nfd"))]) "１０㌎" = Some (Ok (tx "１０㌎", []%N, []%Z)) /\
  str_range (tx "１０㌎") 6 9 = Ok (tx "㌎") /\
  correct_offset 6 []%N []%Z 9 = Ok 6%N /\
  correct_offset 9 []%N []%Z 9 = Ok 9%N /\
  str_range (tx "１０㌎") 6 9 = Ok (tx "㌎").
Proof. vm_compute. repeat split. Qed.

(* character_filter/unicode_normalize.rs:428-563 *)
Example ut_unicode_normalize_character_filter_apply_nfkc :
  filtered "unicode_normalize" (ob [("kind", VStr (tx "nfkc"))]) "ＡＢＣＤＥ" = Some (Ok (tx "ABCDE", [1; 2; 3; 4; 5]%N, [2; 4; 6; 8; 10]%Z)) /\
  str_range (tx "ABCDE") 2 4 = Ok (tx "CD") /\
  correct_offset 2 [1; 2; 3; 4; 5]%N [2; 4; 6; 8; 10]%Z 5 = Ok 6%N /\
  correct_offset 4 [1; 2; 3; 4; 5]%N [2; 4; 6; 8; 10]%Z 5 = Ok 12%N /\
  str_range (tx "ＡＢＣＤＥ") 6 12 = Ok (tx "ＣＤ") /\
  filtered "unicode_normalize" (ob [("kind", VStr (tx "nfkc"))]) "ABCDE" = Some (Ok (tx "ABCDE", []%N, []%Z)) /\
  str_range (tx "ABCDE") 2 4 = Ok (tx "CD") /\
  correct_offset 2 []%N []%Z 5 = Ok 2%N /\
  correct_offset 4 []%N []%Z 5 = Ok 4%N /\
  str_range (tx "ABCDE") 2 4 = Ok (tx "CD") /\
  filtered "unicode_normalize" (ob [("kind", VStr (tx "nfkc"))]) "ｱｲｳｴｵ" = Some (Ok (tx "アイウエオ", []%N, []%Z)) /\
  str_range (tx "アイウエオ") 6 12 = Ok (tx "ウエ") /\
  correct_offset 6 []%N []%Z 15 = Ok 6%N /\
  correct_offset 12 []%N []%Z 15 = Ok 12%N /\
  str_range (tx "ｱｲｳｴｵ") 6 12 = Ok (tx "ｳｴ") /\
  filtered "unicode_normalize" (ob [("kind", VStr (tx "nfkc"))]) "アイウエオ" = Some (Ok (tx "アイウエオ", []%N, []%Z)) /\
  str_range (tx "アイウエオ") 6 12 = Ok (tx "ウエ") /\
  correct_offset 6 []%N []%Z 15 = Ok 6%N /\
  correct_offset 12 []%N []%Z 15 = Ok 12%N /\
  str_range (tx "アイウエオ") 6 12 = Ok (tx "ウエ") /\
  filtered "unicode_normalize" (ob [("kind", VStr (tx "nfkc"))]) "０１２３４５６７８９" = Some (Ok (tx "0123456789", [1; 2; 3; 4; 5; 6; 7; 8; 9; 10]%N, [2; 4; 6; 8; 10; 12; 14; 16; 18; 20]%Z)) /\
  str_range (tx "0123456789") 6 9 = Ok (tx "678") /\
  correct_offset 6 [1; 2; 3; 4; 5; 6; 7; 8; 9; 10]%N [2; 4; 6; 8; 10; 12; 14; 16; 18; 20]%Z 10 = Ok 18%N /\
  correct_offset 9 [1; 2; 3; 4; 5; 6; 7; 8; 9; 10]%N [2; 4; 6; 8; 10; 12; 14; 16; 18; 20]%Z 10 = Ok 27%N /\
  str_range (tx "０１２３４５６７８９") 18 27 = Ok (tx "６７８") /\
  filtered "unicode_normalize" (ob [("kind", VStr (tx "nfkc"))]) "0123456789" = Some (Ok (tx "0123456789", []%N, []%Z)) /\
  str_range (tx "0123456789") 6 9 = Ok (tx "678") /\
  correct_offset 6 []%N []%Z 10 = Ok 6%N /\
  correct_offset 9 []%N []%Z 10 = Ok 9%N /\
  str_range (tx "0123456789") 6 9 = Ok (tx "678") /\
  filtered "unicode_normalize" (ob [("kind", VStr (tx "nfkc"))]) "ﾘﾝﾃﾞﾗ" = Some (Ok (tx "リンデラ", [9]%N, [3]%Z)) /\
  str_range (tx "リンデラ") 0 12 = Ok (tx "リンデラ") /\
  correct_offset 0 [9]%N [3]%Z 12 = Ok 0%N /\
  correct_offset 12 [9]%N [3]%Z 12 = Ok 15%N /\
  str_range (tx "ﾘﾝﾃﾞﾗ") 0 15 = Ok (tx "ﾘﾝﾃﾞﾗ") /\
  filtered "unicode_normalize" (ob [("kind", VStr (tx "nfkc"))]) "１０㌎" = Some (Ok (tx "10ガロン", [1; 2; 5; 6; 7; 8; 9; 10]%N, [2; 4; 3; 2; 1; 0; -1; -2]%Z)) /\
  str_range (tx "10ガロン") 2 11 = Ok (tx "ガロン") /\
  correct_offset 2 [1; 2; 5; 6; 7; 8; 9; 10]%N [2; 4; 3; 2; 1; 0; -1; -2]%Z 11 = Ok 6%N /\
  correct_offset 11 [1; 2; 5; 6; 7; 8; 9; 10]%N [2; 4; 3; 2; 1; 0; -1; -2]%Z 11 = Ok 9%N /\
  str_range (tx "１０㌎") 6 9 = Ok (tx "㌎").
Proof. vm_compute. repeat split. Qed.

(* character_filter/unicode_normalize.rs:566-701 *)
Example ut_unicode_normalize_character_filter_apply_nfkd :
  filtered "unicode_normalize" (ob [("kind", VStr (tx "nfkd"))]) "ＡＢＣＤＥ" = Some (Ok (tx "ABCDE", [1; 2; 3; 4; 5]%N, [2; 4; 6; 8; 10]%Z)) /\
  str_range (tx "ABCDE") 2 4 = Ok (tx "CD") /\
  correct_offset 2 [1; 2; 3; 4; 5]%N [2; 4; 6; 8; 10]%Z 5 = Ok 6%N /\
  correct_offset 4 [1; 2; 3; 4; 5]%N [2; 4; 6; 8; 10]%Z 5 = Ok 12%N /\
  str_range (tx "ＡＢＣＤＥ") 6 12 = Ok (tx "ＣＤ") /\
  filtered "unicode_normalize" (ob [("kind", VStr (tx "nfkd"))]) "ABCDE" = Some (Ok (tx "ABCDE", []%N, []%Z)) /\
  str_range (tx "ABCDE") 2 4 = Ok (tx "CD") /\
  correct_offset 2 []%N []%Z 5 = Ok 2%N /\
  correct_offset 4 []%N []%Z 5 = Ok 4%N /\
  str_range (tx "ABCDE") 2 4 = Ok (tx "CD") /\
  filtered "unicode_normalize" (ob [("kind", VStr (tx "nfkd"))]) "ｱｲｳｴｵ" = Some (Ok (tx "アイウエオ", []%N, []%Z)) /\
  str_range (tx "アイウエオ") 6 12 = Ok (tx "ウエ") /\
  correct_offset 6 []%N []%Z 15 = Ok 6%N /\
  correct_offset 12 []%N []%Z 15 = Ok 12%N /\
  str_range (tx "ｱｲｳｴｵ") 6 12 = Ok (tx "ｳｴ") /\
  filtered "unicode_normalize" (ob [("kind", VStr (tx "nfkd"))]) "アイウエオ" = Some (Ok (tx "アイウエオ", []%N, []%Z)) /\
  str_range (tx "アイウエオ") 6 12 = Ok (tx "ウエ") /\
  correct_offset 6 []%N []%Z 15 = Ok 6%N /\
  correct_offset 12 []%N []%Z 15 = Ok 12%N /\
  str_range (tx "アイウエオ") 6 12 = Ok (tx "ウエ") /\
  filtered "unicode_normalize" (ob [("kind", VStr (tx "nfkd"))]) "０１２３４５６７８９" = Some (Ok (tx "0123456789", [1; 2; 3; 4; 5; 6; 7; 8; 9; 10]%N, [2; 4; 6; 8; 10; 12; 14; 16; 18; 20]%Z)) /\
  str_range (tx "0123456789") 6 9 = Ok (tx "678") /\
  correct_offset 6 [1; 2; 3; 4; 5; 6; 7; 8; 9; 10]%N [2; 4; 6; 8; 10; 12; 14; 16; 18; 20]%Z 10 = Ok 18%N /\
  correct_offset 9 [1; 2; 3; 4; 5; 6; 7; 8; 9; 10]%N [2; 4; 6; 8; 10; 12; 14; 16; 18; 20]%Z 10 = Ok 27%N /\
  str_range (tx "０１２３４５６７８９") 18 27 = Ok (tx "６７８") /\
  filtered "unicode_normalize" (ob [("kind", VStr (tx "nfkd"))]) "0123456789" = Some (Ok (tx "0123456789", []%N, []%Z)) /\
  str_range (tx "0123456789") 6 9 = Ok (tx "678") /\
  correct_offset 6 []%N []%Z 10 = Ok 6%N /\
  correct_offset 9 []%N []%Z 10 = Ok 9%N /\
  str_range (tx "0123456789") 6 9 = Ok (tx "678") /\
  filtered "unicode_normalize" (ob [("kind", VStr (tx "nfkd"))]) "ﾘﾝﾃﾞﾗ" = Some (Ok (tx "リンデラ", []%N, []%Z)) /\
  str_range (tx "リンデラ") 6 15 = Ok (tx "デラ") /\
  correct_offset 6 []%N []%Z 15 = Ok 6%N /\
  correct_offset 15 []%N []%Z 15 = Ok 15%N /\
  str_range (tx "ﾘﾝﾃﾞﾗ") 6 15 = Ok (tx "ﾃﾞﾗ") /\
  filtered "unicode_normalize" (ob [("kind", VStr (tx "nfkd"))]) "１０㌎" = Some (Ok (tx "10ガロン", [1; 2; 5; 6; 7; 8; 9; 10; 11; 12; 13]%N, [2; 4; 3; 2; 1; 0; -1; -2; -3; -4; -5]%Z)) /\
  str_range (tx "10ガロン") 2 14 = Ok (tx "ガロン") /\
  correct_offset 2 [1; 2; 5; 6; 7; 8; 9; 10; 11; 12; 13]%N [2; 4; 3; 2; 1; 0; -1; -2; -3; -4; -5]%Z 14 = Ok 6%N /\
  correct_offset 14 [1; 2; 5; 6; 7; 8; 9; 10; 11; 12; 13]%N [2; 4; 3; 2; 1; 0; -1; -2; -3; -4; -5]%Z 14 = Ok 9%N /\
  str_range (tx "１０㌎") 6 9 = Ok (tx "㌎").
Proof. vm_compute. repeat split. Qed.

(* character_filter/regex.rs:111-121 *)
Example ut_regex_character_filter_config_from_slice :
  option_map fst (ok_of (regex_config_from_value (ob [("pattern", VStr (tx "リンデラ")); ("replacement", VStr (tx "Lindera"))]))) = Some (tx "リンデラ") /\
  option_map snd (ok_of (regex_config_from_value (ob [("pattern", VStr (tx "リンデラ")); ("replacement", VStr (tx "Lindera"))]))) = Some (tx "Lindera").
Proof. vm_compute. repeat split. Qed.

(* character_filter/regex.rs:124-133 *)
Example ut_regex_character_filter_from_slice :
  is_ok (load_char_filter unit_env (lit "regex") (ob [("pattern", VStr (tx "リンデラ")); ("replacement", VStr (tx "Lindera"))])) = true.
Proof. vm_compute. repeat split. Qed.

(* character_filter/regex.rs:136-182 *)
Example ut_regex_character_filter_apply :
  filtered "regex" (ob [("pattern", VStr (tx "リンデラ")); ("replacement", VStr (tx "Lindera"))]) "リンデラは形態素解析器です。" = Some (Ok (tx "Linderaは形態素解析器です。", [7]%N, [5]%Z)) /\
  str_range (tx "Linderaは形態素解析器です。") 0 7 = Ok (tx "Lindera") /\
  correct_offset 0 [7]%N [5]%Z 37 = Ok 0%N /\
  correct_offset 7 [7]%N [5]%Z 37 = Ok 12%N /\
  str_range (tx "リンデラは形態素解析器です。") 0 12 = Ok (tx "リンデラ") /\
  filtered "regex" (ob [("pattern", VStr (tx "\s{2,}")); ("replacement", VStr (tx " "))]) "a     b     c" = Some (Ok (tx "a b c", [2; 4]%N, [4; 8]%Z)) /\
  str_range (tx "a b c") 2 3 = Ok (tx "b") /\
  correct_offset 2 [2; 4]%N [4; 8]%Z 5 = Ok 6%N /\
  correct_offset 3 [2; 4]%N [4; 8]%Z 5 = Ok 7%N /\
  str_range (tx "a     b     c") 6 7 = Ok (tx "b").
Proof. vm_compute. repeat split. Qed.
